(* Properties of edge orientation: C27 to C33. *)
From Verif Require Import Base PyDict Graph GraphSpec GraphFacts GraphCheck PathSpec Actions ActionSpec ActionMain Generators GenSpec Rules IndepTests Pipeline Parallel PipeSpec PipeMain2
  Construct Dag DagFacts SkelSpec Schedules Ideal SkelTop OrientSpec OrientGraph OrientTop PropsPC.
Open Scope string_scope.
Open Scope list_scope.
Open Scope nat_scope.

(* perfect_run: a start graph built from data, a DAG D over the variables, tests that answer by
   d-separation in D, an algorithm (PC, PCClassic, or ParallelPC whose partial correlation workers see
   the graph the step started with), any set iteration order, and a step budget for the loop that by
   C29 is never used up. *)

(* C27: the unshielded colliders of the result are exactly those of D *)
Theorem C27_colliders : forall fuel P l g0 D N g r, perfect_run fuel P l g0 D N -> execute_pipeline fuel P no_hooks l g0 = (g, r) ->
  forall x z y, (vstruct D x z y <-> one_way g x z /\ one_way g y z /\ x <> y /\ apart g x y).
Proof.
  intros fuel P l g0 D N g r H R x z y. destruct (exact_pattern fuel P l g0 D N g r H R) as (_ & M & _). assert (Ac := do_acyclic _ _ (pr_dag _ _ _ _ _ _ H)). split.
  - intros V. destruct (mp_vs D Ac g M x z y V) as (A & B & C). destruct V as (_ & _ & Ne & _). auto.
  - intros (A & B & Ne & C). exact (mp_no_new D Ac g M x z y A B Ne C).
Qed.
Print Assumptions C27_colliders.

(* C28: adjacencies are those of D, arrows point as in D, and they form no cycle *)
Theorem C28_arrows : forall fuel P l g0 D N g r, perfect_run fuel P l g0 D N -> execute_pipeline fuel P no_hooks l g0 = (g, r) ->
  (forall x y, edge_exists g x y = true <-> adjacent (edge_in D) x y) /\
  (forall x y, one_way g x y -> edge_in D x y) /\ acyclic (one_way g).
Proof.
  intros fuel P l g0 D N g r H R. destruct (exact_pattern fuel P l g0 D N g r H R) as (_ & M & _). assert (Ac := do_acyclic _ _ (pr_dag _ _ _ _ _ _ H)).
  split; [exact (mp_ee D Ac g M)|]. split; [exact (mp_one_E D Ac g M)|exact (mp_acyclic D Ac g M)].
Qed.
Print Assumptions C28_arrows.

(* The whole result: exactly the arrows that Meek's four rules derive from D. *)
Theorem C28_pattern : forall fuel P l g0 D N g r, perfect_run fuel P l g0 D N -> execute_pipeline fuel P no_hooks l g0 = (g, r) ->
  nodes g = nodes g0 /\ meek_pattern g D /\ match r with Ok _ => True | Err e => exists xs zs ys, n_effect N xs zs ys = Err e end.
Proof. exact exact_pattern. Qed.
Print Assumptions C28_pattern.

(* C29: on any graph that the public API can produce the loop stops by itself (or an exception ends it)
   after at most one evaluation of the exit condition more than there are live directions, plus one. *)
Theorem C29_loop_ends : forall fuel P so g, reached g -> live_count g + 2 <= fuel ->
  snd (run_loop fuel P no_hooks exit_on_no_actions (orientation_steps so) 0 None g) <> Err OutOfFuel.
Proof. exact c29_main. Qed.
Print Assumptions C29_loop_ends.

(* a -> c, b -> c, c - d - e: two arrows follow; a budget of two is not enough *)
Definition gl : graph := build ["a"; "b"; "c"; "d"; "e"] [("a", "c"); ("b", "c")] [("c", "d"); ("d", "e")].
Example C29_nonvacuous : reached gl /\ live_count gl = 6 /\ exists g' hs,
  run_loop 8 (batch_runner no_hooks) no_hooks exit_on_no_actions (orientation_steps dedup) 0 None gl = (g', Ok hs) /\
  one_way g' "c" "d" /\ one_way g' "d" "e" /\
  snd (run_loop 2 (batch_runner no_hooks) no_hooks exit_on_no_actions (orientation_steps dedup) 0 None gl) = Err OutOfFuel.
Proof.
  split; [apply reachable_reached, build_reachable|]. split; [vm_compute; reflexivity|]. eexists. eexists. split; [vm_compute; reflexivity|].
  repeat (split; [vm_compute; reflexivity|]). vm_compute; reflexivity.
Qed.

(* C30: when it has stopped, every rule step run again takes no action and leaves the graph as it is *)
Theorem C30_fixpoint : forall fuel P so g g' hs, reached g ->
  run_loop fuel P no_hooks exit_on_no_actions (orientation_steps so) 0 None g = (g', Ok hs) ->
  forall s P', In s (orientation_steps so) -> exists p, execute_step P' no_hooks s false g' = (g', Ok ([], p)).
Proof. exact c30_main. Qed.
Print Assumptions C30_fixpoint.
(* and under perfect tests none of Meek's rules applies to the result *)
Theorem C30_meek_closed : forall fuel P l g0 D N g r, perfect_run fuel P l g0 D N -> execute_pipeline fuel P no_hooks l g0 = (g, r) -> meek_closed g.
Proof.
  intros fuel P l g0 D N g r H R. destruct (exact_pattern fuel P l g0 D N g r H R) as (_ & M & _). assert (Ac := do_acyclic _ _ (pr_dag _ _ _ _ _ _ H)).
  exact (mp_closed D Ac g M).
Qed.
Print Assumptions C30_meek_closed.

(* C32: two runs over the same DAG, or over two DAGs with the same adjacencies and v-structures, give the
   same edges whatever the algorithm, the data and order of the variables, the iteration order of sets *)
Theorem C32_same_result : forall fuel P l g0 D N g r fuel' P' l' g0' D' N' g' r',
  perfect_run fuel P l g0 D N -> execute_pipeline fuel P no_hooks l g0 = (g, r) ->
  perfect_run fuel' P' l' g0' D' N' -> execute_pipeline fuel' P' no_hooks l' g0' = (g', r') ->
  equivalent D D' -> forall x y, directed_edge_exists g x y = directed_edge_exists g' x y.
Proof.
  intros fuel P l g0 D N g r fuel' P' l' g0' D' N' g' r' H R H' R' Q. destruct (exact_pattern fuel P l g0 D N g r H R) as (_ & M & _).
  destruct (exact_pattern fuel' P' l' g0' D' N' g' r' H' R') as (_ & M' & _). exact (same_pattern g g' D' (pattern_equiv g D D' Q M) M').
Qed.
Print Assumptions C32_same_result.

(* a -> c <- b, c -> d *)
Definition names4o : list id := ["a"; "b"; "c"; "d"].
Definition dag4o : list (id * id) := [("a", "c"); ("b", "c"); ("c", "d")].
Lemma nodup4o : NoDup names4o.
Proof. repeat constructor; cbn; intuition discriminate. Qed.
Lemma dag4o_dag : dag_over names4o dag4o.
Proof. apply dag_by_order; [exact nodup4o|reflexivity]. Qed.
Example C27_nonvacuous : exists g0 N g, perfect_run 18 (batch_runner no_hooks) (pc dedup N) g0 dag4o N /\
  execute_pipeline 18 (batch_runner no_hooks) no_hooks (pc dedup N) g0 = (g, Ok tt) /\
  vstruct dag4o "a" "c" "b" /\ one_way g "a" "c" /\ one_way g "b" "c" /\ one_way g "c" "d" /\ apart g "a" "b".
Proof.
  destruct (ideal_exists names4o dag4o nodup4o dag4o_dag) as (g0 & S0 & _ & DG & PT). assert (G0 := S0). vm_compute in G0. injection G0 as G0.
  exists g0, (ideal names4o dag4o). eexists. split.
  { split; [eexists; exact S0|exact DG|eexists; exact PT|exists dedup; split; [exact dedup_order|constructor]|]. rewrite <- G0. vm_compute. lia. }
  split; [rewrite <- G0; vm_compute; reflexivity|]. split; [|repeat (split; [vm_compute; reflexivity|]); vm_compute; reflexivity].
  unfold vstruct, adjacent, edge_in. cbn. intuition congruence.
Qed.
(* the same DAG with other data, by PCClassic *)
Definition names4o' : list id := ["d"; "c"; "b"; "a"].
Lemma nodup4o' : NoDup names4o'.
Proof. repeat constructor; cbn; intuition discriminate. Qed.
Lemma dag4o_dag' : dag_over names4o' dag4o.
Proof. destruct dag4o_dag as [H A]. split; [|exact A]. intros x y Hxy. specialize (H x y Hxy). cbn in *. tauto. Qed.
Example C32_nonvacuous : exists g0 N g0' N' g', perfect_run 18 (batch_runner no_hooks) (pc dedup N) g0 dag4o N /\
  perfect_run 18 (batch_runner no_hooks) (pc_classic dedup N') g0' dag4o N' /\
  execute_pipeline 18 (batch_runner no_hooks) no_hooks (pc_classic dedup N') g0' = (g', Ok tt) /\
  values_of g0 "a" = [1%Z] /\ values_of g0' "a" = [4%Z] /\ one_way g' "c" "d".
Proof.
  destruct (ideal_exists names4o dag4o nodup4o dag4o_dag) as (g0 & S0 & _ & DG & PT). assert (G0 := S0). vm_compute in G0. injection G0 as G0.
  destruct (ideal_exists names4o' dag4o nodup4o' dag4o_dag') as (g0' & S0' & _ & DG' & PT'). assert (G0' := S0'). vm_compute in G0'. injection G0' as G0'.
  exists g0, (ideal names4o dag4o), g0', (ideal names4o' dag4o). eexists. split; [|split].
  - split; [eexists; exact S0|exact DG|eexists; exact PT|exists dedup; split; [exact dedup_order|constructor]|]. rewrite <- G0. vm_compute. lia.
  - split; [eexists; exact S0'|exact DG'|eexists; exact PT'|exists dedup; split; [exact dedup_order|constructor]|]. rewrite <- G0'. vm_compute. lia.
  - split; [rewrite <- G0'; vm_compute; reflexivity|]. split; [rewrite <- G0; vm_compute; reflexivity|]. split; [rewrite <- G0'; vm_compute; reflexivity|]. vm_compute; reflexivity.
Qed.

(* C33, arrows: PCStable keeps soft-deleted edges in the graph when the colliders are searched.  With z -> y
   and an unrelated x it takes z for a collider between x and y and turns the edge round. *)
Definition names3 : list id := ["x"; "y"; "z"].
Definition dag3 : list (id * id) := [("z", "y")].
Lemma nodup3 : NoDup names3.
Proof. repeat constructor; cbn; intuition discriminate. Qed.
Lemma dag3_dag : dag_over names3 dag3.
Proof.
  assert (H : dag_over ["z"; "y"; "x"] dag3) by (apply dag_by_order; [repeat constructor; cbn; intuition discriminate|reflexivity]).
  destruct H as [H A]. split; [|exact A]. intros x y Hxy. specialize (H x y Hxy). cbn in *. tauto.
Qed.
Theorem C33_arrows_refuted : exists d g0 D N c g, start_graph d = Ok g0 /\ dag_over (dkeys (nodes g0)) D /\ perfect_tests N (values_of g0) (dkeys (nodes g0)) D c /\
  set_order dedup /\ execute_pipeline 11 (batch_runner no_hooks) no_hooks (pc_stable dedup N) g0 = (g, Ok tt) /\
  exists x y, one_way g x y /\ edge_in D y x.
Proof.
  destruct (ideal_exists names3 dag3 nodup3 dag3_dag) as (g0 & S0 & _ & DG & PT). assert (G0 := S0). vm_compute in G0. injection G0 as G0.
  exists (ideal_data names3), g0, dag3, (ideal names3 dag3), (ideal_corr names3). eexists. split; [exact S0|]. split; [exact DG|]. split; [exact PT|]. split; [exact dedup_order|].
  split; [rewrite <- G0; vm_compute; reflexivity|]. exists "y", "z". split; [vm_compute; reflexivity|left; reflexivity].
Qed.
Print Assumptions C33_arrows_refuted.
