(* Executing a finished model a second time when nothing was removed: the other half of C107. *)
From Verif Require Import Base PyDict PyDictFacts Graph GraphQ PathSpec Actions Generators GenSpec IndepTests Pipeline Parallel PipeSpec GraphCheck Construct Dag SkelSpec Toy TotalSpec PipeMain2
  AgainSpec AgainFacts AgainMain AgainEnd PropsAgain.
Open Scope string_scope.
Open Scope list_scope.
Open Scope nat_scope.

(* If every two columns are still connected after the first run, a second run ends well and leaves the
   columns, the edges with their types and values, and the directed entries exactly as they were. *)
Theorem C107_unchanged : forall fuel fuel' P P' so N sks l l' d g0 g, start_graph d = Ok g0 -> set_order so -> pool_runner no_hooks P -> pool_runner no_hooks P' ->
  pc_algorithm P so N sks l -> executed_again so N l l' -> 2 <= fuel' ->
  execute_pipeline fuel P no_hooks l g0 = (g, Ok tt) ->
  (forall x y, In x (dkeys (nodes g0)) -> In y (dkeys (nodes g0)) -> x <> y -> edge_exists g x y = true) ->
  exists g', execute_pipeline fuel' P' no_hooks l' g = (g', Ok tt) /\ nodes g' = nodes g /\ edges g' = edges g /\ redges g' = redges g /\ dedges g' = dedges g.
Proof.
  intros fuel fuel' P P' so N sks l l' d g0 g S0 SO HP HP' A Ag Fu R All. destruct (unchanged fuel fuel' P P' so N sks l l' d g0 g S0 SO HP HP' A Ag Fu R All) as (g' & R' & Q). exists g'. split; [exact R'|exact Q].
Qed.
Print Assumptions C107_unchanged.
(* three variables that are all dependent, executed twice; the second run of ParallelPC draws other orders *)
Lemma dense3_all g : execute_pipeline 20 (batch_runner no_hooks) no_hooks (pc_parallel dedup (fun _ c => c) (fun _ c => c) (fun _ _ => true) dense3) (toy_start names3) = (g, Ok tt) ->
  forall x y, In x (dkeys (nodes (toy_start names3))) -> In y (dkeys (nodes (toy_start names3))) -> x <> y -> edge_exists g x y = true.
Proof.
  intros R. assert (D : dkeys (nodes (toy_start names3)) = names3) by (vm_compute; reflexivity). rewrite D. clear D. symmetry in R. vm_compute in R. injection R as ->.
  intros x y [<-|[<-|[<-|[]]]] [<-|[<-|[<-|[]]]] Ne; try (destruct (Ne eq_refl)); vm_compute; reflexivity.
Qed.
Example C107_unchanged_nonvacuous : exists g, start_graph (DDict (toy_table names3)) = Ok (toy_start names3) /\ pool_runner no_hooks (batch_runner no_hooks) /\
  pc_algorithm (batch_runner no_hooks) dedup dense3 (pc_parallel_skeleton dedup (fun _ c => c) (fun _ c => c) (fun _ _ => true) dense3) (pc_parallel dedup (fun _ c => c) (fun _ c => c) (fun _ _ => true) dense3) /\
  executed_again dedup dense3 (pc_parallel dedup (fun _ c => c) (fun _ c => c) (fun _ _ => true) dense3) (pc_parallel dedup (fun _ c => rev c) (fun _ c => rev c) (fun _ _ => false) dense3) /\
  execute_pipeline 20 (batch_runner no_hooks) no_hooks (pc_parallel dedup (fun _ c => c) (fun _ c => c) (fun _ _ => true) dense3) (toy_start names3) = (g, Ok tt) /\
  (forall x y, In x (dkeys (nodes (toy_start names3))) -> In y (dkeys (nodes (toy_start names3))) -> x <> y -> edge_exists g x y = true) /\ nodes g <> [] /\ edges g <> [].
Proof.
  destruct (execute_pipeline 20 (batch_runner no_hooks) no_hooks (pc_parallel dedup (fun _ c => c) (fun _ c => c) (fun _ _ => true) dense3) (toy_start names3)) as [g r] eqn:R. exists g.
  assert (r = Ok tt) as -> by (symmetry in R; vm_compute in R; injection R as _ ->; reflexivity).
  split; [vm_compute; reflexivity|]. split; [apply batch_pool|]. split; [constructor; [intros ? ?; apply Permutation_refl|intros ? ?; apply Permutation_refl|apply batch_pool]|].
  split; [constructor; intros ? ?; apply Permutation_sym, Permutation_rev|]. split; [reflexivity|]. split; [exact (dense3_all g R)|]. symmetry in R. vm_compute in R. injection R as ->. split; discriminate.
Qed.
