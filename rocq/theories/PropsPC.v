(* Properties of the constraint-based algorithms under perfect independence tests: C26, C33, C34.
   Statements only. *)
From Verif Require Import Base PyDict Graph GraphSpec PathSpec Actions Generators GenSpec Rules IndepTests Pipeline Parallel PipeMain2 GraphCheck
  Construct ConstructFacts Dag SkelSpec Schedules DsepDec Ideal SkelTop.
Open Scope string_scope.
Open Scope list_scope.

(* The hypotheses can be met for every DAG. *)
Theorem perfect_exists : forall ns D, NoDup ns -> dag_over ns D -> exists N d g0 c, start_graph d = Ok g0 /\ Permutation (dkeys (nodes g0)) ns /\
  dag_over (dkeys (nodes g0)) D /\ perfect_tests N (values_of g0) (dkeys (nodes g0)) D c.
Proof. exact perfect_exists_main. Qed.
Print Assumptions perfect_exists.

(* C26 *)
Theorem C26_pc : forall fuel P so d g0 D N c, start_graph d = Ok g0 -> dag_over (dkeys (nodes g0)) D ->
  perfect_tests N (values_of g0) (dkeys (nodes g0)) D c -> set_order so ->
  exists g, execute_pipeline fuel P no_hooks (pc_skeleton so N) g0 = (g, Ok tt) /\
    skeleton_is g D /\ separators_right g (dkeys (nodes g0)) D.
Proof. exact c26_pc. Qed.
Print Assumptions C26_pc.
Theorem C26_classic : forall fuel P so d g0 D N c, start_graph d = Ok g0 -> dag_over (dkeys (nodes g0)) D ->
  perfect_tests N (values_of g0) (dkeys (nodes g0)) D c -> set_order so ->
  exists g, execute_pipeline fuel P no_hooks (pc_classic_skeleton so N) g0 = (g, Ok tt) /\
    skeleton_is g D /\ separators_right g (dkeys (nodes g0)) D.
Proof. exact c26_classic. Qed.
Print Assumptions C26_classic.

(* C33, first half *)
Theorem C33_stable_skeleton : forall fuel P so d g0 D N c, start_graph d = Ok g0 -> dag_over (dkeys (nodes g0)) D ->
  perfect_tests N (values_of g0) (dkeys (nodes g0)) D c -> set_order so ->
  exists g, execute_pipeline fuel P no_hooks (pc_stable_skeleton so N) g0 = (g, Ok tt) /\
    skeleton_is g D /\ separators_right g (dkeys (nodes g0)) D.
Proof. exact c33_skeleton. Qed.
Print Assumptions C33_stable_skeleton.

(* C34.  Whatever the schedule, no pair adjacent in D is separated, every removed pair has a separating
   set, and every pair is removed that does not need a separating set of size one. *)
Theorem C34_any_schedule_partial : forall fuel P so sh sh' coin d g0 D N c, start_graph d = Ok g0 -> dag_over (dkeys (nodes g0)) D ->
  perfect_tests N (values_of g0) (dkeys (nodes g0)) D c -> set_order so -> is_shuffle (Some sh) -> is_shuffle (Some sh') -> pool_runner no_hooks P ->
  exists g, execute_pipeline fuel P no_hooks (pc_parallel_skeleton so sh sh' coin N) g0 = (g, Ok tt) /\
    (forall x y, adjacent (edge_in D) x y -> undirected_edge_exists g x y = true) /\
    separators_right g (dkeys (nodes g0)) D /\
    (forall x y, In x (dkeys (nodes g0)) -> In y (dkeys (nodes g0)) -> x <> y -> ~ adjacent (edge_in D) x y -> ~ reach (edge_in D) x y ->
       (forall z, ~ (forall w, edge_in D w x <-> w = z)) -> edge_exists g x y = false).
Proof. exact c34_any. Qed.
Print Assumptions C34_any_schedule_partial.
(* If the partial correlation tests all see the graph the step started with, in whatever order their
   results arrive, the skeleton is that of D. *)
Theorem C34_start_snapshots : forall fuel P so sh sh' coin d g0 D N c, start_graph d = Ok g0 -> dag_over (dkeys (nodes g0)) D ->
  perfect_tests N (values_of g0) (dkeys (nodes g0)) D c -> set_order so -> is_shuffle (Some sh) -> is_shuffle (Some sh') -> pool_runner no_hooks P ->
  early_on (partial_step true N) P ->
  exists g, execute_pipeline fuel P no_hooks (pc_parallel_skeleton so sh sh' coin N) g0 = (g, Ok tt) /\
    skeleton_is g D /\ separators_right g (dkeys (nodes g0)) D.
Proof. exact c34_early. Qed.
Print Assumptions C34_start_snapshots.

Lemma nodup4 : NoDup ["a"; "b"; "c"; "d"].
Proof. repeat constructor; cbn; intuition discriminate. Qed.
(* arrows that follow the order of the list *)
Lemma dag_by_order ns D : NoDup ns -> forallb (fun e => mem (fst e) ns && mem (snd e) ns && Z.ltb (number ns (fst e)) (number ns (snd e))) D = true -> dag_over ns D.
Proof. exact (dag_by_order_main ns D). Qed.
(* c <- b <- a -> d *)
Definition chain4 : list (id * id) := [("a", "b"); ("b", "c"); ("a", "d")].
Lemma chain4_dag : dag_over ["a"; "b"; "c"; "d"] chain4.
Proof. apply dag_by_order; [exact nodup4|reflexivity]. Qed.
(* When a worker sees a graph from which other workers' results have already been removed, the test that
   separates c and d finds an edge missing and gives up: c and d stay connected. *)
Theorem C34_refuted : exists P so sh sh' coin d g0 D N c g, start_graph d = Ok g0 /\ dag_over (dkeys (nodes g0)) D /\
  perfect_tests N (values_of g0) (dkeys (nodes g0)) D c /\ set_order so /\ is_shuffle (Some sh) /\ is_shuffle (Some sh') /\ pool_runner no_hooks P /\
  execute_pipeline 5 P no_hooks (pc_parallel_skeleton so sh sh' coin N) g0 = (g, Ok tt) /\
  exists x y, undirected_edge_exists g x y = true /\ ~ adjacent (edge_in D) x y.
Proof.
  destruct (ideal_exists ["a"; "b"; "c"; "d"] chain4 nodup4 chain4_dag) as (g0 & S0 & _ & DG & PT).
  assert (G0 := S0). vm_compute in G0. injection G0 as G0.
  exists (fresh_runner no_hooks), dedup, (fun _ l => l), (fun _ l => l), (fun _ _ => true), (ideal_data ["a"; "b"; "c"; "d"]), g0, chain4, (ideal ["a"; "b"; "c"; "d"] chain4), (ideal_corr ["a"; "b"; "c"; "d"]).
  eexists. split; [exact S0|]. split; [exact DG|]. split; [exact PT|]. split; [exact dedup_order|]. split; [intros k l; apply Permutation_refl|].
  split; [intros k l; apply Permutation_refl|]. split; [apply fresh_pool|]. split; [rewrite <- G0; vm_compute; reflexivity|].
  exists "c", "d". split; [reflexivity|]. unfold adjacent, edge_in. cbn. intuition congruence.
Qed.
Print Assumptions C34_refuted.

(* a -> c <- b, c -> d, a -> d *)
Definition dag4 : list (id * id) := [("a", "c"); ("b", "c"); ("c", "d"); ("a", "d")].
Lemma dag4_dag : dag_over ["a"; "b"; "c"; "d"] dag4.
Proof. apply dag_by_order; [exact nodup4|reflexivity]. Qed.
Example C26_nonvacuous : exists d g0 N c g, start_graph d = Ok g0 /\ dag_over (dkeys (nodes g0)) dag4 /\
  perfect_tests N (values_of g0) (dkeys (nodes g0)) dag4 c /\ set_order dedup /\ pool_runner no_hooks (batch_runner no_hooks) /\
  early_on (partial_step true N) (batch_runner no_hooks) /\
  execute_pipeline 5 (batch_runner no_hooks) no_hooks (pc_skeleton dedup N) g0 = (g, Ok tt) /\
  edge_exists g "a" "b" = false /\ edge_exists g "b" "d" = false /\ edge_exists g "a" "d" = true /\
  recorded_separator g "b" "d" ["a"; "c"].
Proof.
  destruct (ideal_exists ["a"; "b"; "c"; "d"] dag4 nodup4 dag4_dag) as (g0 & S0 & _ & DG & PT).
  assert (G0 := S0). vm_compute in G0. injection G0 as G0.
  exists (ideal_data ["a"; "b"; "c"; "d"]), g0, (ideal ["a"; "b"; "c"; "d"] dag4), (ideal_corr ["a"; "b"; "c"; "d"]).
  eexists. split; [exact S0|]. split; [exact DG|]. split; [exact PT|]. split; [exact dedup_order|]. split; [apply batch_pool|]. split; [apply batch_early|].
  split; [rewrite <- G0; vm_compute; reflexivity|]. repeat (split; [reflexivity|]). do 2 eexists. split; [vm_compute; reflexivity|]. split; reflexivity.
Qed.
