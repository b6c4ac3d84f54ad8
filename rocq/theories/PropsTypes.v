(* Property C67 (edge types).  Statements only. *)
From Verif Require Import Base PyDict Graph GraphSpec Actions ActionSpec ActionMain Generators Rules IndepTests Pipeline Parallel
  PipeSpec PipeMain RuleFacts PipeMain2 GraphCheck GraphMain Construct ConstructFacts Toy PropsPipe OrientSpec TypeSpec TypeFacts.
Open Scope string_scope.
Open Scope list_scope.

(* C67 *)
Theorem C67_types : forall fuel P d g l g' r, start_graph d = Ok g ->
  pool_runner no_hooks P -> shipped_pipeline false l -> execute_pipeline fuel P no_hooks l g = (g', r) -> types_match g'.
Proof.
  intros fuel P d g l g' r E HP S R.
  exact (types_shipped fuel P l g g' r (start_reached d g E) (fun _ _ _ _ _ => HP) S R (types_start d g E)).
Qed.
Print Assumptions C67_types.
(* from any graph on which they agree *)
Theorem C67_kept : forall fuel P l g g' r, reached g -> pool_runner no_hooks P -> shipped_pipeline false l ->
  execute_pipeline fuel P no_hooks l g = (g', r) -> types_match g -> types_match g'.
Proof. intros fuel P l g g' r R HP. exact (types_shipped fuel P l g g' r R (fun _ _ _ _ _ => HP)). Qed.
Print Assumptions C67_kept.
(* a - b - c, and d on its own *)
Definition chain3 : Z -> Z -> list Z -> bool := table_ci [(1, 3, [2]); (1, 4, []); (2, 4, []); (3, 4, [])]%Z.
(* Removing a direction through an action types the other one as directed; restoring it does not undo that.
   After the two actions both directions are there and one of them is still typed as directed. *)
Theorem C67_restore_refuted : exists g a b, reached g /\ types_match g /\
  let p := apply_action (mkT a b REMOVE_EDGE_DIRECTED None) g in
  let q := apply_action (mkT a b RESTORE_EDGE_DIRECTED None) (fst p) in
  snd p = Ok true /\ snd q = Ok true /\ types_match (fst p) /\ 
  two_way (fst q) a b /\ edge_of_type_exists (fst q) b a TDirected = true /\ edge_of_type_exists (fst q) a b TUndirected = true.
Proof.
  exists (toy_start names4), "a", "b". split; [exact names4_reached|].
  assert (E : start_graph (DDict (toy_table names4)) = Ok (toy_start names4)) by (vm_compute; reflexivity).
  assert (T : types_match (toy_start names4)) by exact (types_start _ _ E).
  split; [exact T|]. cbv zeta. split; [vm_compute; reflexivity|]. split; [vm_compute; reflexivity|]. split; [|split; [|split]; vm_compute; reflexivity].
  assert (W := reached_WF _ names4_reached).
  destruct (apply_action (mkT "a" "b" REMOVE_EDGE_DIRECTED None) (toy_start names4)) as [g' r] eqn:A. cbn [fst].
  assert (W' := proj1 (ActionFacts.apply_action_spec _ _ _ _ W A)).
  apply typed_types; [exact W'|]. refine (act_typed _ _ _ _ W _ A (types_typed _ W T)). intros [X|X]; discriminate X.
Qed.
Print Assumptions C67_restore_refuted.
Example C67_nonvacuous : exists g, 
  execute_pipeline 5 (batch_runner no_hooks) no_hooks (pc dedup (toy fork4)) (toy_start names4) = (g, Ok tt) /\
  edge_of_type_exists g "a" "c" TDirected = true /\ edge_of_type_exists g "c" "d" TDirected = true /\ edge_exists g "a" "b" = false /\
  exists g', execute_pipeline 5 (batch_runner no_hooks) no_hooks (pc dedup (toy chain3)) (toy_start names4) = (g', Ok tt) /\
    edge_of_type_exists g' "a" "b" TUndirected = true /\ edge_of_type_exists g' "b" "a" TUndirected = true.
Proof.
  eexists. split; [vm_compute; reflexivity|]. split; [reflexivity|]. split; [reflexivity|]. split; [reflexivity|].
  eexists. split; [vm_compute; reflexivity|]. split; reflexivity.
Qed.
