(* Properties C01-C10 (graph operations).  Statements only; proofs are in GraphMain.v. *)
From Verif Require Import Base PyDict Graph GraphSpec GraphMain.
Open Scope string_scope.

(* A history used by the examples: a - b undirected, b -> c directed, d isolated. *)
Definition ops1 : list gop :=
  [OAddNode "A" (Some [1%Z]) "a"; OAddNode "B" (Some [2%Z]) "b"; OAddNode "C" (Some [3%Z]) "c"; OAddNode "D" (Some []) "d";
   OAddEdge "a" "b" (Some [("m", MNum 7)]) TUndirected; OAddDirected "b" "c" None TDirected].
Definition g1 : graph := run_ops ops1 empty_graph.
Lemma g1_reachable : reachable g1.
Proof. exists ops1; split; [cbv; repeat split | reflexivity]. Qed.
Lemma g1_reachable_any : reachable_any g1.
Proof. exists ops1; reflexivity. Qed.

(* C01 *)
Theorem C01_parents_agree : forall g v, reachable g ->
  match parents_of_node g v with
  | Ok l => NoDup l /\ forall u, In u l <-> directed_edge_exists g u v = true
  | Err _ => forall u, edge_exists g u v = false
  end.
Proof. exact c01_main. Qed.
Print Assumptions C01_parents_agree.
Example C01_nonvacuous : reachable g1 /\ parents_of_node g1 "b" = Ok ["a"] /\ parents_of_node g1 "c" = Ok ["b"].
Proof. split; [exact g1_reachable | vm_compute; auto]. Qed.

(* C01 without the restriction on hard remove_edge is false: after a (raising) hard removal of a
   one-way edge, the parent query still reports the edge that is gone. *)
Theorem C01_unrestricted_refuted : exists g u v l, reachable_any g /\
  parents_of_node g v = Ok l /\ In u l /\ directed_edge_exists g u v = false.
Proof.
  exists (run_ops (ops1 ++ [ORemove "b" "c" false]) empty_graph), "b", "c", ["b"].
  split; [eexists; reflexivity | vm_compute; auto].
Qed.
Print Assumptions C01_unrestricted_refuted.

(* C02 *)
Theorem C02_no_loops_no_dangling : forall g, reachable_any g ->
  (forall u v, directed_edge_exists g u v = true ->
     u <> v /\ dmem (nodes g) u = true /\ dmem (nodes g) v = true) /\
  (forall u v, edge_exists g u v = true ->
     u <> v /\ dmem (nodes g) u = true /\ dmem (nodes g) v = true) /\
  (forall u v l, parents_of_node g v = Ok l -> In u l ->
     u <> v /\ dmem (nodes g) u = true /\ dmem (nodes g) v = true).
Proof. exact c02_main. Qed.
Print Assumptions C02_no_loops_no_dangling.
Example C02_nonvacuous : reachable_any g1 /\ directed_edge_exists g1 "b" "c" = true /\ edge_exists g1 "c" "b" = true /\
  snd (run_op (OAddEdge "a" "a" None TUndirected) g1) = Err GraphError /\
  snd (run_op (OAddDirected "a" "zz" None TDirected) g1) = Err GraphError.
Proof. split; [exact g1_reachable_any | vm_compute; auto]. Qed.

(* C03 *)
Theorem C03_rejected_is_noop : forall g o g' e, reachable_any g -> run_op o g = (g', Err e) ->
  e = GraphError \/ e = ValueError -> g' = g.
Proof. exact c03_main. Qed.
Print Assumptions C03_rejected_is_noop.
Example C03_nonvacuous : reachable_any g1 /\ run_op (OUpdate "b" "c" (Some []) None) g1 = (g1, Err GraphError) /\
  run_op (OAddNode "x" (Some []) "a") g1 = (g1, Err ValueError).
Proof. split; [exact g1_reachable_any | vm_compute; auto]. Qed.

(* The restriction to GraphError and ValueError is needed: a KeyError can leave a half-done change. *)
Theorem C03_keyerror_refuted : exists g o g', reachable g /\ run_op o g = (g', Err KeyError) /\
  directed_edge_exists g "b" "c" = true /\ directed_edge_exists g' "b" "c" = false.
Proof.
  exists g1, (ORemove "b" "c" false), (fst (run_op (ORemove "b" "c" false) g1)).
  split; [exact g1_reachable | vm_compute; auto].
Qed.
Print Assumptions C03_keyerror_refuted.

(* C04 *)
Theorem C04_soft_remove_restore : forall g u v, reachable g -> undirected_edge_exists g u v = true ->
  exists h k, remove_edge u v true g = (h, Ok tt) /\ restore_edge u v h = (k, Ok tt) /\
    edge_exists h u v = false /\ directed_edge_exists h u v = false /\ directed_edge_exists h v u = false /\
    (forall a b, elsewhere u v a b -> get_edge h a b = get_edge g a b) /\
    (forall a b, get_edge k a b = get_edge g a b) /\
    nodes h = nodes g /\ nodes k = nodes g.
Proof. exact c04_main. Qed.
Print Assumptions C04_soft_remove_restore.

Theorem C04_soft_remove_restore_directed : forall g u v, reachable g -> directed_edge_exists g u v = true ->
  exists h k, remove_directed_edge u v true g = (h, Ok tt) /\ restore_directed_edge u v h = (k, Ok tt) /\
    directed_edge_exists h u v = false /\
    (forall a b, (a, b) <> (u, v) -> get_edge h a b = get_edge g a b) /\
    (forall a b, get_edge k a b = get_edge g a b) /\
    nodes h = nodes g /\ nodes k = nodes g.
Proof. exact c04_dir_main. Qed.
Print Assumptions C04_soft_remove_restore_directed.
Example C04_nonvacuous : reachable g1 /\ undirected_edge_exists g1 "a" "b" = true /\ directed_edge_exists g1 "b" "c" = true.
Proof. split; [exact g1_reachable | vm_compute; auto]. Qed.

(* C05: the claim as stated is false; what a hard remove followed by a restore really gives. *)
Theorem C05_hard_remove_restore_partial : forall g u v e e', reachable g -> undirected_edge_exists g u v = true ->
  get_edge g u v = Ok e -> get_edge g v u = Ok e' ->
  exists h k, remove_edge u v false g = (h, Ok tt) /\ restore_edge u v h = (k, Ok tt) /\
    edge_exists h u v = false /\
    (forall a b, elsewhere u v a b -> get_edge k a b = get_edge g a b) /\
    get_edge k u v = Ok (mkEdge u v TUndirected (e_meta e) false) /\
    get_edge k v u = Ok (mkEdge v u TUndirected (e_meta e) false).
Proof. exact c05_main. Qed.
Print Assumptions C05_hard_remove_restore_partial.
Example C05_nonvacuous : reachable g1 /\ undirected_edge_exists g1 "a" "b" = true.
Proof. split; [exact g1_reachable | vm_compute; auto]. Qed.

(* the metadata of v->u is replaced by that of u->v, and the edge type is reset *)
Theorem C05_hard_restore_refuted : exists g u v h k e e',
  reachable g /\ undirected_edge_exists g u v = true /\
  remove_edge u v false g = (h, Ok tt) /\ restore_edge u v h = (k, Ok tt) /\
  get_edge g v u = Ok e /\ get_edge k v u = Ok e' /\ e_type e <> e_type e' /\ e_meta e <> e_meta e'.
Proof.
  pose (os := (ops1 ++ [OAddEdge "b" "c" (Some [("m", MNum 1)]) TBiDirected; OUpdateDirected "c" "b" (Some [("m", MNum 2)]) None])%list).
  exists (run_ops os empty_graph), "b", "c",
    (fst (remove_edge "b" "c" false (run_ops os empty_graph))),
    (fst (restore_edge "b" "c" (fst (remove_edge "b" "c" false (run_ops os empty_graph))))),
    (mkEdge "c" "b" TBiDirected (Some [("m", MNum 2)]) false), (mkEdge "c" "b" TUndirected (Some [("m", MNum 1)]) false).
  split; [exists os; split; [cbv; repeat split | reflexivity] | vm_compute; repeat split; discriminate].
Qed.
Print Assumptions C05_hard_restore_refuted.

(* C06 *)
Theorem C06_purge_invisible : forall g, reachable g ->
  exists h, purge_soft_deleted_edges g = (h, Ok tt) /\
    (forall u v, edge_exists h u v = edge_exists g u v) /\
    (forall u v, directed_edge_exists h u v = directed_edge_exists g u v) /\
    (forall u v, undirected_edge_exists h u v = undirected_edge_exists g u v) /\
    (forall u v t, edge_of_type_exists h u v t = edge_of_type_exists g u v t) /\
    (forall v, match parents_of_node g v, parents_of_node h v with
               | Ok l, Ok l' => forall u, In u l <-> In u l'
               | Err _, Err _ => True
               | _, _ => False
               end) /\
    (forall u v, directed_edge_is_soft_deleted h u v = false).
Proof. exact c06_main. Qed.
Print Assumptions C06_purge_invisible.
Example C06_nonvacuous : let g := run_ops (ops1 ++ [ORemoveDirected "b" "a" true]) empty_graph in
  reachable g /\ directed_edge_is_soft_deleted g "b" "a" = true /\ directed_edge_exists g "a" "b" = true.
Proof. split; [eexists; split; [|reflexivity]; cbv; repeat split | vm_compute; auto]. Qed.

(* C07: no hypothesis on g *)
Theorem C07_classification : forall g u v,
  exactly_one (edge_exists g u v = false) (only_directed_edge_exists g u v = true)
    (only_directed_edge_exists g v u = true) (undirected_edge_exists g u v = true) /\
  edge_exists g u v = edge_exists g v u /\
  undirected_edge_exists g u v = undirected_edge_exists g v u /\
  (edge_exists g u v = true <-> directed_edge_exists g u v = true \/ directed_edge_exists g v u = true).
Proof. exact c07_main. Qed.
Print Assumptions C07_classification.
Example C07_nonvacuous : undirected_edge_exists g1 "a" "b" = true /\ only_directed_edge_exists g1 "b" "c" = true /\
  edge_exists g1 "a" "c" = false.
Proof. vm_compute; auto. Qed.

(* C08 *)
Theorem C08_mutations_local : forall g o u v a b, reachable_any g -> names_pair o u v -> elsewhere u v a b ->
  let g' := fst (run_op o g) in
  get_edge g' a b = get_edge g a b /\ directed_edge_exists g' a b = directed_edge_exists g a b /\
  edge_exists g' a b = edge_exists g a b /\
  edge_value g' a b = edge_value g a b /\ edge_type g' a b = edge_type g a b /\
  retrieve_edge_history g' a b None = retrieve_edge_history g a b None /\ nodes g' = nodes g.
Proof. exact c08_main. Qed.
Print Assumptions C08_mutations_local.
Example C08_nonvacuous : reachable_any g1 /\ names_pair (ORemove "a" "b" false) "a" "b" /\ elsewhere "a" "b" "b" "c" /\
  edge_exists (fst (run_op (ORemove "a" "b" false) g1)) "a" "b" = false /\
  edge_exists (fst (run_op (ORemove "a" "b" false) g1)) "b" "c" = true.
Proof. split; [exact g1_reachable_any |]. split; [reflexivity|]. split; [split; discriminate | vm_compute; auto]. Qed.

(* C09 as stated is false; it holds for the direction that exists. *)
Theorem C09_value_readable_partial : forall g u v, directed_edge_exists g u v = true ->
  exists e, get_edge g u v = Ok e /\ edge_value g u v = Ok (e_meta e) /\ edge_type g u v = Ok (Some (e_type e)).
Proof. exact c09_main. Qed.
Print Assumptions C09_value_readable_partial.
Example C09_nonvacuous : directed_edge_exists g1 "a" "b" = true.
Proof. vm_compute; auto. Qed.

Theorem C09_value_readable_refuted : exists g u v, reachable g /\ edge_exists g u v = true /\
  edge_value g u v = Err KeyError /\ edge_type g u v = Err KeyError.
Proof. exists g1, "c", "b"; split; [exact g1_reachable | vm_compute; auto]. Qed.
Print Assumptions C09_value_readable_refuted.

(* C10, for graph operations; C10_actions_append in PropsActions.v treats applied actions. *)
Theorem C10_history_append_only : forall os g a b h, reachable_any g -> retrieve_edge_history g a b None = Ok h ->
  exists h', retrieve_edge_history (run_ops os g) a b None = Ok (h ++ h')%list.
Proof. exact c10_main. Qed.
Print Assumptions C10_history_append_only.
Example C10_nonvacuous : let g := run_ops (ops1 ++ [OHistory "a" "b" (mkT "a" "b" DO_NOTHING None)]) empty_graph in
  reachable_any g /\ retrieve_edge_history g "a" "b" None = Ok [mkT "a" "b" DO_NOTHING None].
Proof. split; [eexists; reflexivity | vm_compute; auto]. Qed.
