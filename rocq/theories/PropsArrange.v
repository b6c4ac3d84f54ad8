(* Pipelines put together from the shipped steps: C126. *)
From Verif Require Import Base PyDict PyDictFacts Graph GraphSpec GraphFacts GraphInv PathSpec Actions ActionSpec Generators GenSpec GenFacts Rules IndepTests Pipeline Parallel
  PipeSpec PipeMain PipeMain2 GraphCheck Construct Dag DagSep SkelSpec SkelFacts SkelStart SkelSteps SkelMain SkelMain2 SkelTop Schedules Toy Ideal OrientSpec OrientTop TotalSpec TotalFacts TotalMain ArrangeSpec ArrangeFacts ArrangeExact.
Open Scope string_scope.
Open Scope list_scope.
Open Scope nat_scope.

(* Correlations first, the correlation test at most once and before the other tests, orientation after the tests: then a run
   ends normally or with an exception of a numeric function. *)
Theorem C126_order_partial : forall fuel P so N l d g0 g r,
  start_graph d = Ok g0 -> set_order so -> arranged P so N l -> List.length (nodes g0) * List.length (nodes g0) + 2 <= fuel ->
  execute_pipeline fuel P no_hooks l g0 = (g, r) -> r = Ok tt \/ exists e, r = Err e /\ raised N e.
Proof.
  intros fuel P so N l d g0 g r S0 SO A Fu R. assert (W := arranged_total fuel P so N g0 (complete_start d g0 S0) SO Fu l A). unfold wp in W. rewrite R in W. cbn in W.
  destruct r as [[]|e]; [left; reflexivity|right; eauto].
Qed.
Print Assumptions C126_order_partial.

(* Under perfect tests no order of the tests loses an adjacency, and every pair that is not connected carries a set that separates it. *)
Theorem C126_sound : forall fuel P so N d g0 D c fs ts, start_graph d = Ok g0 -> dag_over (dkeys (nodes g0)) D -> perfect_tests N (values_of g0) (dkeys (nodes g0)) D c -> set_order so ->
  (fs = [] \/ exists f, fs = [f] /\ first_part P so N f) -> (forall t, In t ts -> test_part P so N t) ->
  exists g, execute_pipeline fuel P no_hooks (PStep (calculate_pearson N) :: fs ++ ts) g0 = (g, Ok tt) /\
    (forall x y, adjacent (edge_in D) x y -> undirected_edge_exists g x y = true) /\ separators_right g (dkeys (nodes g0)) D.
Proof.
  intros fuel P so N d g0 D c fs ts S0 DG PT SO Hf Ht. destruct (tests_sound fuel P N g0 D c (complete_start d g0 S0) DG PT (conditional_test P so N) (exact_pool P so N) (exact_good P so N g0 D c PT SO) fs ts) as (g & R & K);
    [destruct Hf as [->|(f & -> & Hf)]; [auto|right; eexists; split; [reflexivity|apply shipped_first; exact Hf]]|intros t H; apply shipped_part; auto|]. exists g. split; [exact R|].
  split; [|exact (sk_separators g0 D c g K)]. intros x y A. rewrite (sk_und g0 D c g x y K). exact (sk_adj _ _ _ _ _ K x y A).
Qed.
Print Assumptions C126_sound.

(* Which tests are needed: the correlation test, and the test that takes every number of conditioning variables. Whatever other
   tests come before or after it, the skeleton is exact. *)
Theorem C126_exact : forall fuel P so N d g0 D c ts, start_graph d = Ok g0 -> dag_over (dkeys (nodes g0)) D -> perfect_tests N (values_of g0) (dkeys (nodes g0)) D c -> set_order so ->
  (forall t, In t ts -> test_part P so N t) -> In (PStep (matrix_step so 3 N)) ts ->
  exists g, execute_pipeline fuel P no_hooks (PStep (calculate_pearson N) :: PStep (correlation_step N) :: ts) g0 = (g, Ok tt) /\ skeleton_is g D /\ separators_right g (dkeys (nodes g0)) D.
Proof.
  intros fuel P so N d g0 D c ts S0 DG PT SO Ht Hm. destruct (tests_exact fuel P so N g0 D c (complete_start d g0 S0) DG PT SO (conditional_test P so N) (exact_pool P so N) (exact_good P so N g0 D c PT SO) ts (fun t h => shipped_part P so N t (Ht t h)) Hm) as (g & R & F). exists g. split; [exact R|].
  split; [exact (found_skeleton g0 D c g DG F)|]. destruct F as [K _]. exact (sk_separators g0 D c g K).
Qed.
Print Assumptions C126_exact.

(* ... and with the orientation steps of PC behind it, the whole result is the one of PC. *)
Theorem C126_class : forall fuel P so N d g0 D c ts s, start_graph d = Ok g0 -> dag_over (dkeys (nodes g0)) D -> perfect_tests N (values_of g0) (dkeys (nodes g0)) D c -> set_order so ->
  List.length (nodes g0) * List.length (nodes g0) + 2 <= fuel ->
  (forall t, In t ts -> test_part P so N t) -> conditional_test P so N s -> In (PStep (matrix_step so 3 N)) (ts ++ [PStep s]) ->
  exists g r, execute_pipeline fuel P no_hooks (PStep (calculate_pearson N) :: PStep (correlation_step N) :: ts ++ [PStep s] ++ orientation_rules so ++ [PStep (effect_step N)]) g0 = (g, r) /\
    nodes g = nodes g0 /\ meek_pattern g D /\ match r with Ok _ => True | Err e => exists xs zs ys, n_effect N xs zs ys = Err e end.
Proof.
  intros fuel P so N d g0 D c ts s S0 DG PT SO FU Ht Hs Hm.
  assert (Ht' : forall t, In t (ts ++ [PStep s]) -> test_part P so N t) by (intros t H; apply in_app_iff in H; destruct H as [H|[<-|[]]]; [auto|constructor; exact Hs]).
  destruct (tests_exact fuel P so N g0 D c (complete_start d g0 S0) DG PT SO (conditional_test P so N) (exact_pool P so N) (exact_good P so N g0 D c PT SO) _ (fun t h => shipped_part P so N t (Ht' t h)) Hm) as (g1 & R & F).
  assert (FP : Forall (fun p => Forall (par_ok P) (steps_of p)) ((PStep (calculate_pearson N) :: PStep (correlation_step N) :: ts) ++ [PStep s])).
  { cbn [app]. constructor; [repeat constructor; intros X; discriminate X|]. constructor; [repeat constructor; intros X; discriminate X|]. apply Forall_forall. intros p Hp. destruct (Ht' p Hp) as [s' T|name l T].
    - cbn. constructor; [exact (exact_pool P so N s' T)|constructor].
    - cbn. apply Forall_forall. intros s' Hs'. exact (exact_pool P so N s' (T s' Hs')). }
  assert (X := finish fuel P so d g0 D N c S0 DG SO FU (PStep (calculate_pearson N) :: PStep (correlation_step N) :: ts) s g1 R F FP).
  unfold reaches_pattern in X. rewrite <- app_assoc in X. exact X.
Qed.
Print Assumptions C126_class.

(* d -> a -> c <- b, with tests that are always right *)
Definition late_names : list id := ["d"; "a"; "b"; "c"].
Definition late_dag : list (id * id) := [("d", "a"); ("a", "c"); ("b", "c")].
Definition late_tests : numerics := ideal late_names late_dag.
Lemma late_nodup : NoDup late_names.
Proof. repeat constructor; cbn; intuition discriminate. Qed.
Lemma late_is_dag : dag_over late_names late_dag.
Proof. apply dag_by_order_main; [exact late_nodup|reflexivity]. Qed.
Lemma late_raises e : raised late_tests e -> e = ValueError.
Proof.
  intros [a b H|n k H|n k x y z H|l H|x y z H]; cbn in H; try discriminate H.
  - destruct a as [|x [|? ?]]; [congruence| |congruence]. destruct b as [|y [|? ?]]; congruence.
  - destruct (List.concat l) as [|x [|y zs]]; discriminate H.
Qed.

(* Without the order it fails, whatever the tests: repeating the correlation test is a crash, because it reads the correlation
   of pairs that it has disconnected itself. *)
Theorem C126_again_refuted : exists g0 g e, start_graph (ideal_data late_names) = Ok g0 /\ perfect_tests late_tests (values_of g0) (dkeys (nodes g0)) late_dag (ideal_corr late_names) /\
  execute_pipeline 18 (batch_runner no_hooks) no_hooks [PStep (calculate_pearson late_tests); PStep (correlation_step late_tests); PStep (correlation_step late_tests)] g0 = (g, Err e) /\ ~ raised late_tests e.
Proof.
  destruct (ideal_exists late_names late_dag late_nodup late_is_dag) as (g0 & S0 & _ & DG & PT). assert (G0 := S0). vm_compute in G0. injection G0 as G0.
  exists g0. do 2 eexists. split; [exact S0|]. split; [exact PT|]. split; [rewrite <- G0; vm_compute; reflexivity|]. intros H. apply late_raises in H. discriminate H.
Qed.
Print Assumptions C126_again_refuted.
(* A test with many conditioning variables after the collider detection is a crash as well: of an edge that points one way only
   it takes the wrong end to be a neighbour. *)
Theorem C126_late_refuted : exists g0 g e, start_graph (ideal_data late_names) = Ok g0 /\ perfect_tests late_tests (values_of g0) (dkeys (nodes g0)) late_dag (ideal_corr late_names) /\
  execute_pipeline 18 (batch_runner no_hooks) no_hooks [PStep (calculate_pearson late_tests); PStep (correlation_step late_tests); PStep (partial_step false late_tests); PStep (collider_step KEEP_FIRST dedup); PStep (matrix_step dedup 3 late_tests)] g0 = (g, Err e) /\
  ~ raised late_tests e.
Proof.
  destruct (ideal_exists late_names late_dag late_nodup late_is_dag) as (g0 & S0 & _ & DG & PT). assert (G0 := S0). vm_compute in G0. injection G0 as G0.
  exists g0. do 2 eexists. split; [exact S0|]. split; [exact PT|]. split; [rewrite <- G0; vm_compute; reflexivity|]. intros H. apply late_raises in H. discriminate H.
Qed.
Print Assumptions C126_late_refuted.

(* The tests of PC depend on their order even when they are perfect. On a -> b -> c -> d, with the last two of them exchanged,
   the edge of a and d stays: the first of them has removed the edges that the other one needs. *)
Definition row_names : list id := ["a"; "b"; "c"; "d"].
Definition row_dag : list (id * id) := [("a", "b"); ("b", "c"); ("c", "d")].
Definition row_tests : numerics := ideal row_names row_dag.
Lemma row_nodup : NoDup row_names.
Proof. repeat constructor; cbn; intuition discriminate. Qed.
Lemma row_is_dag : dag_over row_names row_dag.
Proof. apply dag_by_order_main; [exact row_nodup|reflexivity]. Qed.
Theorem C126_swapped_refuted : exists g0 g, start_graph (ideal_data row_names) = Ok g0 /\ dag_over (dkeys (nodes g0)) row_dag /\ perfect_tests row_tests (values_of g0) (dkeys (nodes g0)) row_dag (ideal_corr row_names) /\
  execute_pipeline 18 (batch_runner no_hooks) no_hooks [PStep (calculate_pearson row_tests); PStep (correlation_step row_tests); PStep (matrix_step dedup 4 row_tests); PStep (partial_step false row_tests)] g0 = (g, Ok tt) /\
  edge_exists g "a" "d" = true /\ ~ adjacent (edge_in row_dag) "a" "d" /\ ~ skeleton_is g row_dag.
Proof.
  destruct (ideal_exists row_names row_dag row_nodup row_is_dag) as (g0 & S0 & _ & DG & PT). assert (G0 := S0). vm_compute in G0. injection G0 as G0.
  assert (NA : ~ adjacent (edge_in row_dag) "a" "d") by (intros [H|H]; cbn in H; intuition discriminate).
  exists g0. eexists. split; [exact S0|]. split; [exact DG|]. split; [exact PT|]. split; [rewrite <- G0; vm_compute; reflexivity|]. split; [vm_compute; reflexivity|]. split; [exact NA|].
  intros K. apply NA. apply (proj1 (K "a" "d")). vm_compute. reflexivity.
Qed.
Print Assumptions C126_swapped_refuted.

(* tests with more variables first, some of them together, one of them twice, and the effects before the rules *)
Definition odd_tests : list pstep := [PTogether "both" [matrix_step dedup 5 late_tests; partial_step false late_tests]; PStep (matrix_step dedup 3 late_tests); PStep (partial_step false late_tests)].
Definition odd_order : list pstep := PStep (calculate_pearson late_tests) :: [PStep (correlation_step late_tests)] ++ odd_tests ++
  [PStep (effect_step late_tests); PLoop "early" exit_on_no_actions (orientation_steps dedup); PTogether "all" (collider_step KEEP_FIRST dedup :: orientation_steps dedup)].
Example C126_nonvacuous : exists g0 g, start_graph (ideal_data late_names) = Ok g0 /\ dag_over (dkeys (nodes g0)) late_dag /\ perfect_tests late_tests (values_of g0) (dkeys (nodes g0)) late_dag (ideal_corr late_names) /\
  arranged (batch_runner no_hooks) dedup late_tests odd_order /\ (forall t, In t odd_tests -> test_part (batch_runner no_hooks) dedup late_tests t) /\ In (PStep (matrix_step dedup 3 late_tests)) odd_tests /\
  List.length (nodes g0) * List.length (nodes g0) + 2 <= 18 /\ execute_pipeline 18 (batch_runner no_hooks) no_hooks odd_order g0 = (g, Ok tt) /\ one_way g "a" "c" /\ one_way g "b" "c" /\ two_way g "d" "a" /\ apart g "d" "c".
Proof.
  destruct (ideal_exists late_names late_dag late_nodup late_is_dag) as (g0 & S0 & _ & DG & PT). assert (G0 := S0). vm_compute in G0. injection G0 as G0.
  assert (HT : forall t, In t odd_tests -> test_part (batch_runner no_hooks) dedup late_tests t).
  { intros t [<-|[<-|[<-|[]]]]; [apply tp_together; intros s [<-|[<-|[]]]; constructor; lia|apply tp_step; constructor; lia|apply tp_step; constructor]. }
  exists g0. eexists. split; [exact S0|]. split; [exact DG|]. split; [exact PT|]. split.
  { unfold odd_order. apply (arranged_all _ _ _ [PStep (correlation_step late_tests)] odd_tests); [right; eexists; split; [reflexivity|constructor]|exact HT|].
    intros p [<-|[<-|[<-|[]]]]; [apply lp_effect|apply lp_loop; auto|apply lp_together; auto]. }
  split; [exact HT|]. split; [right; left; reflexivity|]. split; [rewrite <- G0; vm_compute; lia|]. split; [rewrite <- G0; vm_compute; reflexivity|]. repeat split; vm_compute; reflexivity.
Qed.
