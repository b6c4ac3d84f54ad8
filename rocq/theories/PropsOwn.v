(* Algorithms put together from the shipped steps: C121. *)
From Verif Require Import Base PyDict PyDictFacts Graph GraphSpec GraphInv GraphCheck Actions ActionSpec ActionMain Generators GenSpec Rules IndepTests Pipeline PipeSpec PipeMain2 Parallel
  Construct ConstructFacts PathSpec Dag DagFacts SkelSpec Ideal SkelTop Schedules OrientSpec OrientGraph LoopFacts OrientTop ColliderFacts PropsPC PropsCollider OwnSpec OwnFacts.
Open Scope string_scope.
Open Scope list_scope.
Open Scope nat_scope.

(* C121: with perfect tests any arrangement of the orientation rules that ends in a Loop with the first three gives the
   graph with exactly the arrows that follow from the DAG, whatever the conflict resolution of ColliderTest. *)
Theorem C121_pattern : forall fuel P so d g0 D N c l g r, start_graph d = Ok g0 -> dag_over (dkeys (nodes g0)) D -> perfect_tests N (values_of g0) (dkeys (nodes g0)) D c -> set_order so ->
  List.length (nodes g0) * List.length (nodes g0) + 2 <= fuel -> own_algorithm P so N l -> execute_pipeline fuel P no_hooks l g0 = (g, r) ->
  meek_pattern g D /\ meek_closed g /\ (r = Ok tt \/ exists e xs zs ys, r = Err e /\ n_effect N xs zs ys = Err e).
Proof.
  intros fuel P so d g0 D N c l g r S0 DG PT SO FU A R. destruct (own_pattern fuel P so d g0 D N c l S0 DG PT SO FU A) as (g' & r' & R' & _ & M & H). rewrite R in R'. injection R' as <- <-.
  split; [exact M|]. split; [exact (mp_closed D (do_acyclic _ _ DG) g M)|]. destruct r as [[]|e]; [left; reflexivity|]. destruct H as (xs & zs & ys & H). right. exists e, xs, zs, ys. auto.
Qed.
Print Assumptions C121_pattern.
(* The edges are those that the shipped algorithms find, on data of the same or an equivalent DAG. *)
Theorem C121_as_shipped : forall fuel P so d g0 D N c l g r fuel' P' l' g0' D' N' g' r', start_graph d = Ok g0 -> dag_over (dkeys (nodes g0)) D -> perfect_tests N (values_of g0) (dkeys (nodes g0)) D c ->
  set_order so -> List.length (nodes g0) * List.length (nodes g0) + 2 <= fuel -> own_algorithm P so N l -> execute_pipeline fuel P no_hooks l g0 = (g, r) ->
  perfect_run fuel' P' l' g0' D' N' -> execute_pipeline fuel' P' no_hooks l' g0' = (g', r') -> equivalent D D' ->
  forall x y, directed_edge_exists g x y = directed_edge_exists g' x y.
Proof.
  intros fuel P so d g0 D N c l g r fuel' P' l' g0' D' N' g' r' S0 DG PT SO FU A R H' R' Q. destruct (C121_pattern fuel P so d g0 D N c l g r S0 DG PT SO FU A R) as (M & _).
  destruct (exact_pattern _ _ _ _ _ _ _ _ H' R') as (_ & M' & _). exact (same_pattern g g' D' (pattern_equiv g D D' Q M) M').
Qed.
Print Assumptions C121_as_shipped.
(* On any graph a Loop over orientation rules ends, and then none of its steps does anything. *)
Theorem C121_ends : forall fuel P so l g, reached g -> only_rules so l -> live_count g + 2 <= fuel ->
  snd (run_loop fuel P no_hooks exit_on_no_actions l 0 None g) <> Err OutOfFuel.
Proof.
  intros fuel P so l g R Hl Fu. destruct (run_loop fuel P no_hooks exit_on_no_actions l 0 None g) as [g' r] eqn:E.
  destruct (loop_run P l (only_rule_step so l Hl) fuel 0 None g g' r (reached_WF _ R) ltac:(lia) E) as [_ H]. cbn [snd]. destruct r as [hs|e]; [discriminate|]. intros X; injection X as ->. exact (H Fu eq_refl).
Qed.
Print Assumptions C121_ends.
Theorem C121_settled : forall fuel P so l g g' hs, reached g -> only_rules so l -> run_loop fuel P no_hooks exit_on_no_actions l 0 None g = (g', Ok hs) ->
  forall s P', In s l -> exists p, execute_step P' no_hooks s false g' = (g', Ok ([], p)).
Proof.
  intros fuel P so l g g' hs R Hl E s P' Hs. assert (RS := only_rule_step so l Hl). destruct (loop_run P l RS fuel 0 None g g' (Ok hs) (reached_WF _ R) ltac:(lia) E) as [_ H]. rewrite Forall_forall in H, RS.
  apply quiet_idle; auto.
Qed.
Print Assumptions C121_settled.

(* ---- none of the three can be left out ---- *)
Definition own_loop (st : cstrategy) (N : numerics) (first : list pstep) (l : list step) (last : list pstep) : list pstep :=
  pc_skeleton dedup N ++ PStep (collider_step st dedup) :: first ++ PLoop "Loop" exit_on_no_actions l :: last.
Definition misses (names : list id) (dag : list (id * id)) (l : list step) (x y : id) : Prop :=
  exists g0 g, start_graph (ideal_data names) = Ok g0 /\ dag_over (dkeys (nodes g0)) dag /\ (exists c, perfect_tests (ideal names dag) (values_of g0) (dkeys (nodes g0)) dag c) /\
  execute_pipeline 40 (batch_runner no_hooks) no_hooks (own_loop KEEP_FIRST (ideal names dag) [] l []) g0 = (g, Ok tt) /\ oriented dag x y /\ two_way g x y.
(* a -> c <- b, c -> d: without NonColliderTest c - d is left *)
Definition n1 : list id := ["a"; "b"; "c"; "d"].
Definition d1 : list (id * id) := [("a", "c"); ("b", "c"); ("c", "d")].
(* x -> z <- q, z -> y <- w, x -> y, x -> w: without FurtherOrientTripleTest x - y is left *)
Definition n2 : list id := ["x"; "z"; "q"; "w"; "y"].
Definition d2 : list (id * id) := [("x", "z"); ("q", "z"); ("z", "y"); ("w", "y"); ("x", "y"); ("x", "w")].
(* x -> y -> z <- w <- x, x -> z: without OrientQuadrupleTest x - z is left *)
Definition n3 : list id := ["x"; "y"; "w"; "z"].
Definition d3 : list (id * id) := [("x", "y"); ("x", "w"); ("x", "z"); ("y", "z"); ("w", "z")].
Lemma n1_nodup : NoDup n1.
Proof. repeat constructor; cbn; intuition discriminate. Qed.
Lemma n2_nodup : NoDup n2.
Proof. repeat constructor; cbn; intuition discriminate. Qed.
Lemma n3_nodup : NoDup n3.
Proof. repeat constructor; cbn; intuition discriminate. Qed.
Lemma d1_dag : dag_over n1 d1.
Proof. exact (dag_by_order n1 d1 n1_nodup eq_refl). Qed.
Lemma d2_dag : dag_over n2 d2.
Proof.
  assert (ND : NoDup ["x"; "q"; "z"; "w"; "y"]) by (repeat constructor; cbn; intuition discriminate).
  destruct (dag_by_order ["x"; "q"; "z"; "w"; "y"] d2 ND eq_refl) as [A B]. split; [|exact B]. intros x y E. destruct (A x y E) as [H1 H2]. cbn in *. intuition.
Qed.
Lemma d3_dag : dag_over n3 d3.
Proof. exact (dag_by_order n3 d3 n3_nodup eq_refl). Qed.
Lemma vs_in dag x z y : In (x, z) dag -> In (y, z) dag -> x <> y -> ~ In (x, y) dag -> ~ In (y, x) dag -> vstruct dag x z y.
Proof. intros A B C F G. split; [exact A|]. split; [exact B|]. split; [exact C|]. intros [H|H]; [exact (F H)|exact (G H)]. Qed.
Ltac inn := cbn; intuition congruence.
Theorem C121_needed_refuted :
  misses n1 d1 [triple_step; quadruple_step dedup; further_quadruple_step dedup] "c" "d" /\
  misses n2 d2 [non_collider_step dedup; quadruple_step dedup; further_quadruple_step dedup] "x" "y" /\
  misses n3 d3 [non_collider_step dedup; triple_step; further_quadruple_step dedup] "x" "z".
Proof.
  split; [|split].
  - destruct (ideal_exists n1 d1 n1_nodup d1_dag) as (g0 & S0 & _ & DG & PT). assert (G0 := S0). vm_compute in G0. injection G0 as G0. exists g0. eexists.
    split; [exact S0|]. split; [exact DG|]. split; [eexists; exact PT|]. split; [rewrite <- G0; vm_compute; reflexivity|]. split; [|vm_compute; reflexivity].
    assert (NA : ~ adjacent (edge_in d1) "a" "d") by (intros [H|H]; revert H; inn).
    apply (or_1 d1 "a" "c" "d"); [apply (or_v d1 "a" "c" "b"), vs_in; inn|left; inn|discriminate|exact NA|]. intros (_ & H & _). revert H. inn.
  - destruct (ideal_exists n2 d2 n2_nodup d2_dag) as (g0 & S0 & _ & DG & PT). assert (G0 := S0). vm_compute in G0. injection G0 as G0. exists g0. eexists.
    split; [exact S0|]. split; [exact DG|]. split; [eexists; exact PT|]. split; [rewrite <- G0; vm_compute; reflexivity|]. split; [|vm_compute; reflexivity].
    apply (or_2 d2 "x" "z" "y"); [apply (or_v d2 "x" "z" "q"), vs_in; inn|apply (or_v d2 "z" "y" "w"), vs_in; inn|left; inn].
  - destruct (ideal_exists n3 d3 n3_nodup d3_dag) as (g0 & S0 & _ & DG & PT). assert (G0 := S0). vm_compute in G0. injection G0 as G0. exists g0. eexists.
    split; [exact S0|]. split; [exact DG|]. split; [eexists; exact PT|]. split; [rewrite <- G0; vm_compute; reflexivity|]. split; [|vm_compute; reflexivity].
    apply (or_3 d3 "x" "y" "w" "z"); [apply (or_v d3 "y" "z" "w"), vs_in; inn|apply (or_v d3 "w" "z" "y"), vs_in; inn|left; inn|left; inn|left; inn|discriminate| |];
      [intros [H|H]; revert H; inn|intros (H & _); revert H; inn].
Qed.
Print Assumptions C121_needed_refuted.

(* ---- a Loop with ColliderTest among its steps never ends on a graph with a collider ---- *)
Definition nv : list id := ["a"; "b"; "c"].
Definition dv : list (id * id) := [("a", "c"); ("b", "c")].
Definition skel_v : graph := Eval vm_compute in match start_graph (ideal_data nv) with
  | Ok g => fst (execute_pipeline 9 (batch_runner no_hooks) no_hooks (pc_skeleton dedup (ideal nv dv)) g) | Err _ => empty_graph end.
Lemma skel_v_reached : reached skel_v.
Proof.
  assert (E : skel_v = match start_graph (ideal_data nv) with
    | Ok g => fst (execute_pipeline 9 (batch_runner no_hooks) no_hooks (pc_skeleton dedup (ideal nv dv)) g) | Err _ => empty_graph end) by (vm_compute; reflexivity).
  rewrite E. destruct (start_graph (ideal_data nv)) as [g|] eqn:S; [|apply rd_empty]. apply start_reached in S. apply pipeline_reached; [apply batch_pool|exact S].
Qed.
Definition with_coll (l : list step) : list step := collider_step KEEP_FIRST dedup :: l.
Definition round_v (l : list step) (g : graph) := run_inner (batch_runner no_hooks) no_hooks false (with_coll l) g.
Definition after_v : graph := Eval vm_compute in fst (round_v (orientation_steps dedup) skel_v).
Definition hist_v (ca cb : list tresult) : graph := with_ehist after_v (dset (dset (ehist after_v) ("c", "a") ca) ("c", "b") cb).
Lemma round_again : forall ca cb, exists ca' cb' hs t ts, round_v (orientation_steps dedup) (hist_v ca cb) = (hist_v ca' cb', Ok (hs, t :: ts)).
Proof. intros ca cb. do 5 eexists. vm_compute. reflexivity. Qed.
Lemma rounds_on : forall fuel n ca cb t ts, snd (run_loop fuel (batch_runner no_hooks) no_hooks exit_on_no_actions (with_coll (orientation_steps dedup)) (S n) (Some (t :: ts)) (hist_v ca cb)) = Err OutOfFuel.
Proof.
  induction fuel as [|f IH]; intros n ca cb t ts; cbn [run_loop]; [reflexivity|]. unfold bind at 1. change (exit_on_no_actions (S n) (Some (t :: ts))) with (Ok false). cbn [liftr]. unfold ret at 1. cbv beta iota.
  destruct (round_again ca cb) as (ca' & cb' & hs & t' & ts' & R). unfold round_v in R. unfold bind at 1. rewrite R. cbn [snd fst]. unfold bind at 1.
  specialize (IH (S n) ca' cb' t' ts'). destruct (run_loop f _ _ _ _ _ _ _) as [g r]. cbn [snd] in IH. subst r. reflexivity.
Qed.
Theorem C121_collider_refuted : exists g, reached g /\ skeleton g /\
  forall fuel, snd (run_loop fuel (batch_runner no_hooks) no_hooks exit_on_no_actions (collider_step KEEP_FIRST dedup :: orientation_steps dedup) 0 None g) = Err OutOfFuel.
Proof.
  exists skel_v. split; [exact skel_v_reached|]. split; [apply PropsCollider.all_edges_skeleton; vm_compute; reflexivity|]. intros [|f]; [reflexivity|]. cbn [run_loop]. unfold bind at 1.
  change (exit_on_no_actions 0 None) with (Ok false). cbn [liftr]. unfold ret at 1. cbv beta iota.
  assert (R : exists ca cb hs t ts, round_v (orientation_steps dedup) skel_v = (hist_v ca cb, Ok (hs, t :: ts))) by (do 5 eexists; vm_compute; reflexivity).
  destruct R as (ca & cb & hs & t & ts & R). unfold round_v in R. unfold bind at 1. change (collider_step KEEP_FIRST dedup :: orientation_steps dedup) with (with_coll (orientation_steps dedup)). rewrite R. cbn [snd fst].
  unfold bind at 1. assert (X := rounds_on f 0 ca cb t ts). destruct (run_loop f _ _ _ _ _ _ _) as [g r]. cbn [snd] in X. subst r. reflexivity.
Qed.
Print Assumptions C121_collider_refuted.

(* KEEP_LAST, two rules together, one on its own, then a Loop over the three rules in reverse order *)
Definition own3 : list pstep := own_loop KEEP_LAST (ideal n3 d3)
  [PTogether "Together" [further_quadruple_step dedup; triple_step]; PStep (triple_step)] [quadruple_step dedup; triple_step; non_collider_step dedup] [PStep (effect_step (ideal n3 d3))].
Example C121_nonvacuous : own_algorithm (batch_runner no_hooks) dedup (ideal n3 d3) own3 /\
  exists g0 g c, start_graph (ideal_data n3) = Ok g0 /\ dag_over (dkeys (nodes g0)) d3 /\ perfect_tests (ideal n3 d3) (values_of g0) (dkeys (nodes g0)) d3 c /\ set_order dedup /\
    List.length (nodes g0) * List.length (nodes g0) + 2 <= 40 /\ execute_pipeline 40 (batch_runner no_hooks) no_hooks own3 g0 = (g, Ok tt) /\ one_way g "x" "z" /\ one_way g "y" "z" /\ two_way g "x" "y" /\ two_way g "x" "w".
Proof.
  split.
  - unfold own3, own_loop. apply own; [apply sp_pc| | |split; [|split]; cbn; tauto|right; reflexivity].
    + constructor; [apply ar_together; intros s H; cbn in H |- *; tauto|]. constructor; [apply ar_step; cbn; tauto|constructor].
    + intros s H; cbn in H |- *; tauto.
  - destruct (ideal_exists n3 d3 n3_nodup d3_dag) as (g0 & S0 & _ & DG & PT). assert (G0 := S0). vm_compute in G0. injection G0 as G0. exists g0. eexists. eexists.
    split; [exact S0|]. split; [exact DG|]. split; [exact PT|]. split; [exact dedup_order|]. split; [rewrite <- G0; vm_compute; lia|]. split; [rewrite <- G0; vm_compute; reflexivity|].
    split; [vm_compute; reflexivity|]. split; [vm_compute; reflexivity|]. split; vm_compute; reflexivity.
Qed.
