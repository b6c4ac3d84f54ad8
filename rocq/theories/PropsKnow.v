(* Pipelines with steps that tell directions: C128. *)
From Verif Require Import Base PyDict PyDictFacts Graph GraphSpec GraphFacts GraphInv GraphQ PathSpec Actions ActionSpec Generators GenSpec GenFacts Rules IndepTests Pipeline Parallel
  PipeSpec PipeFacts PipeMain PipeMain2 GraphCheck Construct Dag DagFacts DagSep SkelSpec SkelFacts SkelStart SkelSteps SkelMain SkelMain2 SkelTop Schedules Toy DsepDec Ideal OrientSpec OrientGraph OrientMain OrientTop ArrangeSpec ArrangeExact PropsArrange ExtendSpec PropsExtend
  KnowSpec KnowGraph KnowMain KnowTop.
Open Scope string_scope.
Open Scope list_scope.
Open Scope nat_scope.

Section Pattern.
Variables (D : list (id * id)) (K : id -> id -> Prop) (g : graph).
Hypothesis Ac : acyclic (edge_in D).
Hypothesis KS : forall x y, K x y -> edge_in D x y.
Hypothesis M : known_pattern D K g.
Notation E := (edge_in D).
Lemma kp_live x y : E x y -> directed_edge_exists g x y = true.
Proof. intros A. apply M. split; [left; exact A|]. intros H. exact (no_two E Ac _ _ A (known_sound D K Ac KS _ _ H)). Qed.
Lemma kp_adj x y : edge_exists g x y = true <-> adjacent E x y.
Proof.
  rewrite edge_exists_or, orb_true_iff. split.
  - intros [H|H]; apply M in H; destruct H as [H _]; [exact H|apply adjacent_sym; exact H].
  - intros [H|H]; apply kp_live in H; auto.
Qed.
Lemma kp_known x y : known D K x y -> one_way g x y.
Proof.
  intros H. unfold one_way, only_directed_edge_exists. rewrite (kp_live x y (known_sound D K Ac KS _ _ H)). destruct (directed_edge_exists g y x) eqn:L; [|reflexivity]. apply M in L. destruct L as [_ L]. contradiction (L H).
Qed.
Lemma kp_true x y : one_way g x y -> E x y.
Proof.
  unfold one_way, only_directed_edge_exists. rewrite andb_true_iff, negb_true_iff. intros [L F]. apply M in L. destruct L as [[A|A] _]; [exact A|]. rewrite (kp_live _ _ A) in F. discriminate F.
Qed.
End Pattern.

Section Run.
Variables (fuel : nat) (P : runner) (so : list id -> list id) (N : numerics) (d : rawdata) (g0 : graph) (D : list (id * id)) (c : id -> id -> Z) (K : id -> id -> Prop) (ks : list step) (st : cstrategy).
Hypothesis S0 : start_graph d = Ok g0.
Hypothesis DG : dag_over (dkeys (nodes g0)) D.
Hypothesis PT : perfect_tests N (values_of g0) (dkeys (nodes g0)) D c.
Hypothesis SO : set_order so.
Hypothesis FU : List.length (nodes g0) * List.length (nodes g0) + 2 <= fuel.
Hypothesis KS : forall x y, K x y -> edge_in D x y.
Hypothesis HK : forall s, In s ks -> knowledge_step D K P g0 s.
Notation front sk s := ((sk ++ [PStep s]) ++ [PStep (collider_step st so)]).
Lemma know_finish sk s ga : execute_pipeline fuel P no_hooks (sk ++ [PStep s]) g0 = (ga, Ok tt) -> found g0 D c ga -> Forall (fun p => Forall (par_ok P) (steps_of p)) (sk ++ [PStep s]) ->
  exists g1 g r, known_run fuel P (front sk s) (map PStep ks) (rules_last so N) N g0 D K g1 g r /\ ((forall x y, K x y -> exists s, In s ks /\ tells D g0 s x y) -> known_pattern D K g).
Proof.
  intros R F FP. assert (PG := last_purged fuel P sk s g0 ga (cp_wf _ (complete_start d g0 S0)) FP R). assert (Ac := do_acyclic _ _ DG).
  destruct (know_run g0 D so P K DG SO KS st c N fuel ks ga F PG FU HK) as (g1 & g & r & R1 & R2 & Nn & H1 & H2 & H3 & H4 & H5).
  assert (KE : forall x y, one_way g1 x y -> edge_in D x y) by (intros x y H; apply (known_sound D K Ac KS), H1, H).
  exists g1, g, r. split; [|exact H4]. split; auto.
  - rewrite <- app_assoc, pipeline_app, R. exact R1.
  - rewrite <- app_assoc, pipeline_app, R. exact R2.
  - exact (kp_adj D _ g Ac KE H2).
  - intros x y H. apply (kp_known D _ g Ac KE H2). apply kn_told; exact H.
  - exact (kp_true D _ g Ac KE H2).
  - intros x y H. apply (kp_known D _ g Ac KE H2). apply H3; exact H.
Qed.
Lemma know_pc : exists g1 g r, known_run fuel P (front [PStep (calculate_pearson N); PStep (correlation_step N); PStep (partial_step false N)] (matrix_step so 4 N)) (map PStep ks) (rules_last so N) N g0 D K g1 g r /\
  ((forall x y, K x y -> exists s, In s ks /\ tells D g0 s x y) -> known_pattern D K g).
Proof.
  destruct (pc_found g0 D N c so (complete_start d g0 S0) DG PT SO fuel P) as (ga & R & F).
  apply (know_finish [PStep (calculate_pearson N); PStep (correlation_step N); PStep (partial_step false N)] (matrix_step so 4 N) ga R F). repeat constructor; intros X; discriminate X.
Qed.
Lemma know_class ts s : (forall t, In t ts -> any_part P so N g0 D c t) -> any_test P so N g0 D c s -> In (PStep (matrix_step so 3 N)) (ts ++ [PStep s]) ->
  exists g1 g r, known_run fuel P (front (PStep (calculate_pearson N) :: PStep (correlation_step N) :: ts) s) (map PStep ks) (rules_last so N) N g0 D K g1 g r /\
  ((forall x y, K x y -> exists s, In s ks /\ tells D g0 s x y) -> known_pattern D K g).
Proof.
  intros Ht Hs Hm.
  assert (Ht' : forall t, In t (ts ++ [PStep s]) -> any_part P so N g0 D c t) by (intros t H; apply in_app_iff in H; destruct H as [H|[<-|[]]]; [auto|constructor; exact Hs]).
  destruct (tests_exact fuel P so N g0 D c (complete_start d g0 S0) DG PT SO (any_test P so N g0 D c) (any_pool P so N g0 D c) (any_good P so N g0 D c PT SO) _ (fun t h => any_parts P so N g0 D c t (Ht' t h)) Hm) as (ga & R & F).
  apply (know_finish (PStep (calculate_pearson N) :: PStep (correlation_step N) :: ts) s ga R F).
  cbn [app]. constructor; [repeat constructor; intros X; discriminate X|]. constructor; [repeat constructor; intros X; discriminate X|]. apply Forall_forall. intros p Hp. destruct (Ht' p Hp) as [s' T|name l T].
  - cbn. constructor; [exact (any_pool P so N g0 D c s' T)|constructor].
  - cbn. apply Forall_forall. intros s' Hs'. exact (any_pool P so N g0 D c s' (T s' Hs')).
Qed.
End Run.

(* C128: PC, with either way to resolve conflicts, and with steps that tell true directions between the collider detection and the rules *)
Theorem C128_pc : forall fuel P so N d g0 D c (K : id -> id -> Prop) ks st, start_graph d = Ok g0 -> dag_over (dkeys (nodes g0)) D -> perfect_tests N (values_of g0) (dkeys (nodes g0)) D c -> set_order so ->
  List.length (nodes g0) * List.length (nodes g0) + 2 <= fuel -> (forall x y, K x y -> edge_in D x y) -> (forall s, In s ks -> knowledge_step D K P g0 s) ->
  exists g1 g r, known_run fuel P [PStep (calculate_pearson N); PStep (correlation_step N); PStep (partial_step false N); PStep (matrix_step so 4 N); PStep (collider_step st so)] (map PStep ks)
    [PLoop "Loop" exit_on_no_actions (orientation_steps so); PStep (effect_step N)] N g0 D K g1 g r /\
    ((forall x y, K x y -> exists s, In s ks /\ tells D g0 s x y) -> known_pattern D K g).
Proof. intros fuel P so N d g0 D c K ks st S0 DG PT SO FU KS HK. exact (know_pc fuel P so N d g0 D c K ks st S0 DG PT SO FU KS HK). Qed.
Print Assumptions C128_pc.

(* C128: and so do pipelines with the tests of PCClassic among tests of the user *)
Theorem C128_class : forall fuel P so N d g0 D c (K : id -> id -> Prop) ks st ts s, start_graph d = Ok g0 -> dag_over (dkeys (nodes g0)) D -> perfect_tests N (values_of g0) (dkeys (nodes g0)) D c -> set_order so ->
  List.length (nodes g0) * List.length (nodes g0) + 2 <= fuel -> (forall x y, K x y -> edge_in D x y) -> (forall s, In s ks -> knowledge_step D K P g0 s) ->
  (forall t, In t ts -> any_part P so N g0 D c t) -> any_test P so N g0 D c s -> In (PStep (matrix_step so 3 N)) (ts ++ [PStep s]) ->
  exists g1 g r, known_run fuel P ((PStep (calculate_pearson N) :: PStep (correlation_step N) :: ts ++ [PStep s]) ++ [PStep (collider_step st so)]) (map PStep ks)
    [PLoop "Loop" exit_on_no_actions (orientation_steps so); PStep (effect_step N)] N g0 D K g1 g r /\
    ((forall x y, K x y -> exists s, In s ks /\ tells D g0 s x y) -> known_pattern D K g).
Proof. intros fuel P so N d g0 D c K ks st ts s S0 DG PT SO FU KS HK Ht Hs Hm. exact (know_class fuel P so N d g0 D c K ks st S0 DG PT SO FU KS HK ts s Ht Hs Hm). Qed.
Print Assumptions C128_class.

(* C128: whoever tells more finds more *)
Theorem C128_more : forall D (K1 K2 : id -> id -> Prop) g1 g2, acyclic (edge_in D) -> (forall x y, K2 x y -> edge_in D x y) -> known_pattern D K1 g1 -> known_pattern D K2 g2 -> (forall x y, K1 x y -> K2 x y) ->
  forall x y, one_way g1 x y -> one_way g2 x y.
Proof.
  intros D K1 K2 g1 g2 Ac KS M1 M2 Sub x y O. assert (KS1 : forall a b, K1 a b -> edge_in D a b) by auto. assert (A := kp_true D K1 g1 Ac KS1 M1 x y O).
  unfold one_way, only_directed_edge_exists. rewrite (kp_live D K2 g2 Ac KS M2 x y A). destruct (directed_edge_exists g2 y x) eqn:L; [|reflexivity]. exfalso. apply M2 in L. destruct L as [Aj NK].
  assert (F := shown_told g1 x y O). assert (X : directed_edge_exists g1 y x = true); [|congruence]. apply M1. split; [exact Aj|]. intros H. apply NK. revert H. apply known_mono. intros u v Hu. apply kn_told; auto.
Qed.
Print Assumptions C128_more.

(* C128: whoever knows all directions gets the DAG *)
Theorem C128_all : forall fuel P so N d g0 D c ks st, start_graph d = Ok g0 -> dag_over (dkeys (nodes g0)) D -> perfect_tests N (values_of g0) (dkeys (nodes g0)) D c -> set_order so ->
  List.length (nodes g0) * List.length (nodes g0) + 2 <= fuel -> (forall s, In s ks -> knowledge_step D (edge_in D) P g0 s) -> (forall x y, edge_in D x y -> exists s, In s ks /\ tells D g0 s x y) ->
  exists g r, execute_pipeline fuel P no_hooks ([PStep (calculate_pearson N); PStep (correlation_step N); PStep (partial_step false N); PStep (matrix_step so 4 N); PStep (collider_step st so)] ++ map PStep ks ++
    [PLoop "Loop" exit_on_no_actions (orientation_steps so); PStep (effect_step N)]) g0 = (g, r) /\ (forall x y, directed_edge_exists g x y = true <-> edge_in D x y) /\
    match r with Ok _ => True | Err e => exists xs zs ys, n_effect N xs zs ys = Err e end.
Proof.
  intros fuel P so N d g0 D c ks st S0 DG PT SO FU HK HT. destruct (C128_pc fuel P so N d g0 D c (edge_in D) ks st S0 DG PT SO FU (fun x y h => h) HK) as (g1 & g & r & R & X). specialize (X HT). assert (Ac := do_acyclic _ _ DG).
  exists g, r. split; [exact (kr_run _ _ _ _ _ _ _ _ _ _ _ _ R)|]. split; [|exact (kr_end _ _ _ _ _ _ _ _ _ _ _ _ R)]. intros x y. split.
  - intros L. apply X in L. destruct L as [[A|A] NK]; [exact A|]. exfalso. apply NK, kn_told, A.
  - apply (kp_live D (edge_in D) g Ac (fun x y h => h) X).
Qed.
Print Assumptions C128_all.

(* a step that tells one direction *)
Lemma tell_knowledge P g0 D (K : id -> id -> Prop) x y : K x y -> knowledge_step D K P g0 (tell (remove_directed y x [])).
Proof.
  intros H. exists (fun _ => True). split; [|split].
  - intros g g' f _ [<-|[]] _. eexists. split; [reflexivity|]. intros e [<-|[]]. cbn. eauto.
  - intros g ns us _ _. eexists. split; [reflexivity|]. intros i [<-|[]]. right. split; [reflexivity|left; exact H].
  - discriminate.
Qed.
Lemma tell_tells g0 D x y : tells D g0 (tell (remove_directed y x [])) x y.
Proof.
  intros g _. right. eexists. split; [left; reflexivity|]. intros g' _. right. do 3 eexists. split; [reflexivity|]. split; [left; reflexivity|]. split; [reflexivity|].
  intros g'' us _. right. do 2 eexists. split; [reflexivity|]. split; [left; reflexivity|]. repeat split; reflexivity.
Qed.
Definition pc_told (before after : list pstep) : list pstep := [PStep (calculate_pearson line_tests); PStep (correlation_step line_tests); PStep (partial_step false line_tests); PStep (matrix_step dedup 4 line_tests)] ++ before ++ PStep (collider_step KEEP_FIRST dedup) :: after ++
  [PLoop "Loop" exit_on_no_actions (orientation_steps dedup); PStep (effect_step line_tests)].
(* a -> b -> c, of which PC finds no direction; told a -> b it finds b -> c *)
Example C128_nonvacuous : exists g0 g g', start_graph (ideal_data line_names) = Ok g0 /\ dag_over (dkeys (nodes g0)) line_dag /\ perfect_tests line_tests (values_of g0) (dkeys (nodes g0)) line_dag (ideal_corr line_names) /\ set_order dedup /\
  List.length (nodes g0) * List.length (nodes g0) + 2 <= 18 /\ edge_in line_dag "a" "b" /\ knowledge_step line_dag (fun x y => x = "a" /\ y = "b") (batch_runner no_hooks) g0 (tell (remove_directed "b" "a" [])) /\ tells line_dag g0 (tell (remove_directed "b" "a" [])) "a" "b" /\
  execute_pipeline 18 (batch_runner no_hooks) no_hooks (pc_told [] []) g0 = (g, Ok tt) /\ two_way g "a" "b" /\ two_way g "b" "c" /\
  execute_pipeline 18 (batch_runner no_hooks) no_hooks (pc_told [] [PStep (tell (remove_directed "b" "a" []))]) g0 = (g', Ok tt) /\ one_way g' "a" "b" /\ one_way g' "b" "c".
Proof.
  destruct (ideal_exists line_names line_dag line_nodup line_is_dag) as (g0 & S0 & PE & DG & PT). assert (G0 := S0). vm_compute in G0. injection G0 as G0.
  exists g0. do 2 eexists. split; [exact S0|]. split; [exact DG|]. split; [exact PT|]. split; [exact dedup_order|]. split; [rewrite <- G0; vm_compute; lia|]. split; [left; reflexivity|].
  split; [apply tell_knowledge; auto|]. split; [apply tell_tells|]. split; [rewrite <- G0; vm_compute; reflexivity|]. split; [vm_compute; reflexivity|]. split; [vm_compute; reflexivity|]. split; [rewrite <- G0; vm_compute; reflexivity|]. split; vm_compute; reflexivity.
Qed.

(* Told before the collider detection, a true direction is ruinous: an edge that points one way counts as no edge there, no
   set is on record for it, and so every variable that is adjacent to both ends becomes a collider. *)
Definition tri_dag : list (id * id) := [("a", "b"); ("c", "a"); ("c", "b")].
Definition tri_tests : numerics := ideal line_names tri_dag.
Lemma tri_is_dag : dag_over line_names tri_dag.
Proof.
  assert (X : dag_over ["c"; "a"; "b"] tri_dag) by (apply dag_by_order_main; [repeat constructor; cbn; intuition discriminate|reflexivity]).
  split; [intros x y H; destruct (do_nodes _ _ X x y H) as [H1 H2]; split; [cbn in H1|cbn in H2]; cbn; intuition|exact (do_acyclic _ _ X)].
Qed.
Theorem C128_early_refuted : exists g0 g, start_graph (ideal_data line_names) = Ok g0 /\ dag_over (dkeys (nodes g0)) tri_dag /\ perfect_tests tri_tests (values_of g0) (dkeys (nodes g0)) tri_dag (ideal_corr line_names) /\
  edge_in tri_dag "a" "b" /\ execute_pipeline 18 (batch_runner no_hooks) no_hooks ([PStep (calculate_pearson tri_tests); PStep (correlation_step tri_tests); PStep (partial_step false tri_tests); PStep (matrix_step dedup 4 tri_tests);
    PStep (tell (remove_directed "b" "a" []))] ++ orientation_rules dedup ++ [PStep (effect_step tri_tests)]) g0 = (g, Ok tt) /\
  one_way g "a" "c" /\ ~ edge_in tri_dag "a" "c" /\ one_way g "b" "c" /\ ~ edge_in tri_dag "b" "c".
Proof.
  destruct (ideal_exists line_names tri_dag line_nodup tri_is_dag) as (g0 & S0 & PE & DG & PT). assert (G0 := S0). vm_compute in G0. injection G0 as G0.
  exists g0. eexists. split; [exact S0|]. split; [exact DG|]. split; [exact PT|]. split; [left; reflexivity|]. split; [rewrite <- G0; vm_compute; reflexivity|].
  split; [vm_compute; reflexivity|]. split; [cbn; intuition discriminate|]. split; [vm_compute; reflexivity|cbn; intuition discriminate].
Qed.
Print Assumptions C128_early_refuted.

(* With knowledge the fourth rule is needed, which without it never adds an arrow (C121). Here a is before all, b -> c -> d, and b -> c is told. *)
Definition four_names : list id := ["a"; "b"; "c"; "d"].
Definition four_dag : list (id * id) := [("a", "b"); ("a", "c"); ("a", "d"); ("b", "c"); ("c", "d")].
Definition four_tests : numerics := ideal four_names four_dag.
Definition four_run (rules : list step) : list pstep := [PStep (calculate_pearson four_tests); PStep (correlation_step four_tests); PStep (partial_step false four_tests); PStep (matrix_step dedup 4 four_tests); PStep (collider_step KEEP_FIRST dedup);
  PStep (tell (remove_directed "c" "b" [])); PLoop "Loop" exit_on_no_actions rules; PStep (effect_step four_tests)].
Lemma four_nodup : NoDup four_names.
Proof. repeat constructor; cbn; intuition discriminate. Qed.
Lemma four_is_dag : dag_over four_names four_dag.
Proof. apply dag_by_order_main; [exact four_nodup|reflexivity]. Qed.
Theorem C128_fourth_refuted : exists g0 g g', start_graph (ideal_data four_names) = Ok g0 /\ dag_over (dkeys (nodes g0)) four_dag /\ perfect_tests four_tests (values_of g0) (dkeys (nodes g0)) four_dag (ideal_corr four_names) /\
  execute_pipeline 18 (batch_runner no_hooks) no_hooks (four_run (orientation_steps dedup)) g0 = (g, Ok tt) /\ one_way g "a" "d" /\
  execute_pipeline 18 (batch_runner no_hooks) no_hooks (four_run [non_collider_step dedup; triple_step; quadruple_step dedup]) g0 = (g', Ok tt) /\ two_way g' "a" "d" /\ ~ known_pattern four_dag (fun x y => x = "b" /\ y = "c") g'.
Proof.
  destruct (ideal_exists four_names four_dag four_nodup four_is_dag) as (g0 & S0 & PE & DG & PT). assert (G0 := S0). vm_compute in G0. injection G0 as G0.
  exists g0. do 2 eexists. split; [exact S0|]. split; [exact DG|]. split; [exact PT|]. split; [rewrite <- G0; vm_compute; reflexivity|]. split; [vm_compute; reflexivity|]. split; [rewrite <- G0; vm_compute; reflexivity|]. split; [vm_compute; reflexivity|].
  intros M. assert (NA : ~ adjacent (edge_in four_dag) "b" "d") by (intros [H|H]; cbn in H; intuition discriminate).
  assert (K1 : known four_dag (fun x y => x = "b" /\ y = "c") "b" "c") by (apply kn_told; auto).
  assert (K2 : known four_dag (fun x y => x = "b" /\ y = "c") "c" "d").
  { apply (kn_1 _ _ "b" "c" "d" K1); [left; cbn; auto 6|discriminate|exact NA|]. intros (_ & H & _). cbn in H. intuition discriminate. }
  assert (K3 : known four_dag (fun x y => x = "b" /\ y = "c") "a" "d").
  { apply (kn_4 _ _ "a" "b" "c" "d" K1 K2); [left; cbn; auto|left; cbn; auto|left; cbn; auto|discriminate|exact NA|]. intros (H & _). cbn in H. intuition discriminate. }
  refine (proj2 (proj1 (M "d" "a") _) K3). vm_compute. reflexivity.
Qed.
Print Assumptions C128_fourth_refuted.
