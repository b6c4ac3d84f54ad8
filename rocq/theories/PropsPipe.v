(* Properties C35, C39, C40 (pipeline runs).  Statements only. *)
From Verif Require Import Base PyDict Graph GraphSpec Actions ActionSpec ActionMain Generators Rules IndepTests Pipeline Parallel
  PipeSpec PipeMain RuleFacts PipeMain2 GraphCheck GraphMain Construct ConstructFacts Toy.
Open Scope string_scope.
Open Scope list_scope.

(* Parallel steps: every theorem below holds for whatever schedule the worker pool produces.  Schedules
   exist: *)
Theorem pool_exists : forall H, pool_runner H (batch_runner H).
Proof. exact batch_pool. Qed.
Print Assumptions pool_exists.

(* C35 *)
Theorem C35_no_new_edges : forall fuel P l g g' r, reached g -> pool_runner no_hooks P -> shipped_pipeline false l ->
  execute_pipeline fuel P no_hooks l g = (g', r) ->
  forall u v, directed_edge_exists g' u v = true -> directed_edge_exists g u v = true.
Proof. exact c35_shipped. Qed.
Print Assumptions C35_no_new_edges.
(* with ColliderTest in KEEP_LAST mode: only through a restore that the edge history shows *)
Theorem C35_only_restores : forall fuel P l g g' r, reached g -> pool_runner no_hooks P -> shipped_pipeline true l ->
  execute_pipeline fuel P no_hooks l g = (g', r) ->
  forall u v, directed_edge_exists g' u v = true -> directed_edge_exists g u v = true \/
    exists l i, history g' (u, v) = history g (u, v) ++ l /\ In i l /\ t_act i = RESTORE_EDGE_DIRECTED /\ t_u i = u /\ t_v i = v.
Proof. exact c35_shipped_restores. Qed.
Print Assumptions C35_only_restores.
(* the four shipped algorithms are such pipelines *)
Theorem C35_algorithms : forall so sh sh' coin N,
  shipped_pipeline false (pc so N) /\ shipped_pipeline false (pc_classic so N) /\
  shipped_pipeline false (pc_stable so N) /\ shipped_pipeline false (pc_parallel so sh sh' coin N).
Proof.
  intros so sh sh' coin N; split; [|split; [|split]]; intros p s Hp Hs; left; unfold pc, pc_classic, pc_stable, pc_parallel in Hp; cbn in Hp;
    repeat (destruct Hp as [<-|Hp]; [cbn in Hs; repeat (destruct Hs as [<-|Hs]; [first [constructor|exact (sh_collider KEEP_FIRST so)]|]); destruct Hs|]); destruct Hp.
Qed.
Print Assumptions C35_algorithms.

(* a chain a - b - c - d with contradictory separating sets: b and c both look like colliders *)
Definition path4 : Z -> Z -> list Z -> bool := table_ci [(1, 3, []); (2, 4, []); (1, 4, [])]%Z.
Definition names4 : list string := ["a"; "b"; "c"; "d"].
Lemma names4_reached : reached (toy_start names4).
Proof. apply (start_reached (DDict (toy_table names4))). vm_compute. reflexivity. Qed.
Definition pc_last (N : numerics) : list pstep := pc_skeleton dedup N ++ [PStep (collider_step KEEP_LAST dedup)].
Example C35_nonvacuous :
  reached (toy_start names4) /\ shipped_pipeline false (pc dedup (toy path4)) /\ shipped_pipeline true (pc_last (toy path4)) /\
  (exists g, execute_pipeline 5 (batch_runner no_hooks) no_hooks (pc dedup (toy path4)) (toy_start names4) = (g, Ok tt) /\
     only_directed_edge_exists g "c" "b" = true /\ edge_exists g "a" "c" = false) /\
  (exists g, execute_pipeline 5 (batch_runner no_hooks) no_hooks (pc_last (toy path4)) (toy_start names4) = (g, Ok tt) /\
     only_directed_edge_exists g "b" "c" = true /\
     exists i, In i (history g ("b", "c")) /\ t_act i = RESTORE_EDGE_DIRECTED).
Proof.
  split; [exact names4_reached|]. split; [apply (C35_algorithms dedup (fun _ l => l) (fun _ l => l) (fun _ _ => true))|]. split.
  { intros p s Hp Hs. cbn in Hp. repeat (destruct Hp as [<-|Hp]; [cbn in Hs; destruct Hs as [<-|[]]; first [left; constructor|right; split; [reflexivity|exact (sh_collider KEEP_LAST dedup)]]|]). destruct Hp. }
  split.
  - eexists. split; [vm_compute; reflexivity|]. split; reflexivity.
  - eexists. split; [vm_compute; reflexivity|]. split; [reflexivity|]. exists (mkT "b" "c" RESTORE_EDGE_DIRECTED (Some [])). split; [|reflexivity]. vm_compute. tauto.
Qed.

(* C39 *)
Theorem C39_run_log : forall fuel P H l g g' r, pool_runner H P -> reached g -> execute_pipeline fuel P H l g = (g', r) ->
  exists l1 l2 hs, l = l1 ++ l2 /\ ahist g' = ahist g ++ hs /\ Forall2 log_entry l1 hs /\ (is_ok r = true <-> l2 = []).
Proof. intros fuel P H l g g' r HP. exact (c39_main fuel P H HP l g g' r). Qed.
Print Assumptions C39_run_log.
(* a -> c <- b, c - d *)
Definition fork4 : Z -> Z -> list Z -> bool := table_ci [(1, 2, []); (1, 4, [3]); (2, 4, [3])]%Z.
Example C39_nonvacuous : reached (toy_start names4) /\ pool_runner no_hooks (batch_runner no_hooks) /\
  exists g h, execute_pipeline 5 (batch_runner no_hooks) no_hooks (pc dedup (toy fork4)) (toy_start names4) = (g, Ok tt) /\
    map h_name (ahist g) = ["CalculatePearsonCorrelations"; "CorrelationCoefficientTest"; "PartialCorrelationTest";
      "ExtendedPartialCorrelationTestMatrix"; "ColliderTest"; "Loop"; "ComputeDirectEffectsInDAGsMultivariateRegression"] /\
    nth_error (ahist g) 5 = Some h /\ List.length (h_steps h) = 8.
Proof.
  split; [exact names4_reached|]. split; [apply batch_pool|]. do 2 eexists. split; [vm_compute; reflexivity|].
  split; [reflexivity|]. split; reflexivity.
Qed.

(* C40, for pipelines that end with an ordinary step.  Missing: pipelines that end with a Loop or an
   ApplyActionsTogether, for which it is false. *)
Theorem C40_purged_partial : forall fuel P H l s g g', reached g -> pool_runner H P ->
  execute_pipeline fuel P H (l ++ [PStep s]) g = (g', Ok tt) -> forall u v, directed_edge_is_soft_deleted g' u v = false.
Proof. exact c40_main. Qed.
Print Assumptions C40_purged_partial.
Definition stable_skeleton_run : graph :=
  fst (execute_pipeline 5 (batch_runner no_hooks) no_hooks (pc_stable_skeleton dedup (toy path4)) (toy_start names4)).
(* after the skeleton phase of PCStable, and so whatever the final pipeline step that is a logic step *)
Theorem C40_refuted : exists l g g' u v, reached g /\ shipped_pipeline false l /\
  execute_pipeline 5 (batch_runner no_hooks) no_hooks l g = (g', Ok tt) /\ directed_edge_is_soft_deleted g' u v = true /\
  In (u, v) (graph_utils_retrieve_edges g').
Proof.
  exists (pc_stable_skeleton dedup (toy path4)), (toy_start names4), stable_skeleton_run, "a", "c".
  split; [exact names4_reached|]. split.
  { intros p s Hp Hs. left. cbn in Hp. repeat (destruct Hp as [<-|Hp]; [cbn in Hs; repeat (destruct Hs as [<-|Hs]; [constructor|]); destruct Hs|]). destruct Hp. }
  split; [vm_compute; reflexivity|]. split; [vm_compute; reflexivity|]. vm_compute. tauto.
Qed.
Print Assumptions C40_refuted.
Example C40_nonvacuous : exists g, reached (toy_start names4) /\
  execute_pipeline 5 (batch_runner no_hooks) no_hooks (pc_skeleton dedup (toy path4)) (toy_start names4) = (g, Ok tt) /\
  edge_exists g "a" "c" = false.
Proof. eexists. split; [exact names4_reached|]. split; [vm_compute; reflexivity|]. reflexivity. Qed.
