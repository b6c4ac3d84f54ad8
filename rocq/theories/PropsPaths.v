(* Properties C11-C17 (paths, descendants, d-separation).  Statements only; proofs are in PathMain.v.
   [fuel] is the recursion depth Python is allowed; every theorem holds for all depths above the
   number of nodes, so the recursions end. *)
From Verif Require Import Base PyDict Graph GraphSpec GraphPaths Dag PathSpec PathFacts PathFacts2 GraphCheck PathMain.
Open Scope string_scope.

(* x -> a <- b -> c <- y *)
Definition gM : graph := build ["x"; "b"; "y"; "a"; "c"] [("x", "a"); ("b", "a"); ("b", "c"); ("y", "c")] [].
(* u -> w -> v and u -> v, with a separate undirected edge r - s *)
Definition gT : graph := build ["u"; "w"; "v"] [("u", "w"); ("w", "v"); ("u", "v")] [].
(* undirected square with diagonal: u-a, u-b, a-b, a-v, b-v *)
Definition gU : graph := build ["u"; "a"; "b"; "v"] [] [("u", "a"); ("u", "b"); ("a", "b"); ("a", "v"); ("b", "v")].

Lemma gM_ok : reachable gM /\ dag_graph gM /\ all_live gM.
Proof. split; [apply build_reachable|split; [apply check_dag_ok|apply check_live_ok]; vm_compute; reflexivity]. Qed.
Lemma gT_ok : reachable gT /\ dag_graph gT /\ all_live gT.
Proof. split; [apply build_reachable|split; [apply check_dag_ok|apply check_live_ok]; vm_compute; reflexivity]. Qed.

(* C11 *)
Theorem C11_paths_exact : forall g u v fuel, reachable_any g -> List.length (nodes g) < fuel ->
  exists ps, all_paths fuel g u v = Ok ps /\ NoDup ps /\
    forall p, In p ps <-> simple_path (fun a b => edge_exists g a b = true) u v p.
Proof. exact c11_main. Qed.
Print Assumptions C11_paths_exact.
Example C11_nonvacuous : reachable_any gU /\ List.length (nodes gU) < 5 /\
  all_paths 5 gU "u" "v" = Ok [["u"; "a"; "b"; "v"]; ["u"; "a"; "v"]; ["u"; "b"; "a"; "v"]; ["u"; "b"; "v"]].
Proof. split; [apply reachable_is_any, build_reachable|]. split; [vm_compute; lia|vm_compute; reflexivity]. Qed.

(* C12 *)
Theorem C12_descendants_exact : forall g so u fuel, set_order so -> List.length (nodes g) < fuel ->
  exists l, descendants_of_node fuel so g u = Ok l /\ NoDup l /\
    forall x, In x l <-> reach (fun a b => directed_edge_exists g a b = true /\ directed_edge_exists g b a = false) u x.
Proof. exact (fun g so u fuel => descendants_spec g so u fuel). Qed.
Print Assumptions C12_descendants_exact.
(* a directed cycle a -> b -> c -> a with a tail c -> d and an undirected edge d - e *)
Definition gC : graph := build ["a"; "b"; "c"; "d"; "e"] [("a", "b"); ("b", "c"); ("c", "a"); ("c", "d")] [("d", "e")].
Example C12_nonvacuous : set_order dedup /\ List.length (nodes gC) < 6 /\
  descendants_of_node 6 dedup gC "b" = Ok ["b"; "c"; "a"; "d"].
Proof. split; [exact dedup_order|]. split; [vm_compute; lia|vm_compute; reflexivity]. Qed.

(* C13 *)
Theorem C13_separated_is_right : forall g so S u v fuel, reachable_any g -> dag_graph g -> set_order so ->
  List.length (nodes g) < fuel ->
  exists b, are_nodes_d_separated_dag fuel so g u v (nodes_of S) = Ok b /\
    (b = true -> d_separated (arrow g) u v (fun x => In x S)).
Proof. exact c13_main. Qed.
Print Assumptions C13_separated_is_right.
Example C13_nonvacuous : reachable_any gM /\ dag_graph gM /\ set_order dedup /\ List.length (nodes gM) < 6 /\
  are_nodes_d_separated_dag 6 dedup gM "x" "y" (nodes_of []) = Ok true /\
  are_nodes_d_separated_dag 6 dedup gM "x" "c" (nodes_of ["a"]) = Ok false /\
  are_nodes_d_separated_dag 6 dedup gM "x" "c" (nodes_of ["a"; "b"]) = Ok true.
Proof.
  split; [apply reachable_is_any, gM_ok|]. split; [apply gM_ok|]. split; [exact dedup_order|].
  split; [vm_compute; lia|vm_compute; auto].
Qed.

(* C14.  The full claim (a False answer means d-connected) is false: between x and y given {c} the
   only path x -> a <- b -> c <- y is blocked at a, yet the code answers False because the
   collider c, met later, resets the verdict. *)
Lemma gM_xy : d_separated (arrow gM) "x" "y" (fun z => In z ["c"]).
Proof.
  apply (dsep_by_paths gM "x" "y" _ [["x"; "a"; "b"; "c"; "y"]] 6).
  - apply ra_nodup, reachable_is_any, gM_ok.
  - vm_compute; lia.
  - vm_compute; reflexivity.
  - intros p [<-|[]] O.
    destruct (proj1 (O "x" "a" "b" (ex_intro _ [] (ex_intro _ ["c"; "y"] eq_refl)))) as (d & R & [<-|[]]).
    + split; vm_compute; reflexivity.
    + destruct (desc_arrow gM dedup "a" 6 (proj1 (proj2 gM_ok)) dedup_order) as (ds & E & Hd); [vm_compute; lia|].
      apply Hd in R. vm_compute in E. injection E as <-. destruct R as [R|[]]; discriminate.
Qed.
Theorem C14_connected_is_right_refuted : exists g S u v fuel, reachable_any g /\ dag_graph g /\
  List.length (nodes g) < fuel /\ are_nodes_d_separated_dag fuel dedup g u v (nodes_of S) = Ok false /\
  d_separated (arrow g) u v (fun x => In x S).
Proof.
  exists gM, ["c"], "x", "y", 6. split; [apply reachable_is_any, gM_ok|]. split; [apply gM_ok|].
  split; [vm_compute; lia|]. split; [vm_compute; reflexivity|exact gM_xy].
Qed.
Print Assumptions C14_connected_is_right_refuted.
(* What holds: the answer is exact in both directions whenever S opens, on each path, either all
   colliders or none.  This covers the empty set and every graph whose paths have at most one
   collider.  Missing: paths with some opened and some unopened colliders. *)
Theorem C14_exact_partial : forall g so S u v fuel, reachable_any g -> dag_graph g -> set_order so ->
  List.length (nodes g) < fuel -> uniform_colliders g u v S ->
  exists b, are_nodes_d_separated_dag fuel so g u v (nodes_of S) = Ok b /\
    (b = true <-> d_separated (arrow g) u v (fun x => In x S)).
Proof. exact c14_main. Qed.
Print Assumptions C14_exact_partial.
Example C14_nonvacuous : reachable_any gM /\ dag_graph gM /\ set_order dedup /\ List.length (nodes gM) < 6 /\
  uniform_colliders gM "x" "b" [] /\ are_nodes_d_separated_dag 6 dedup gM "a" "c" (nodes_of []) = Ok false.
Proof.
  split; [apply reachable_is_any, gM_ok|]. split; [apply gM_ok|]. split; [exact dedup_order|].
  split; [vm_compute; lia|]. split; [apply uniform_nil|vm_compute; auto].
Qed.

(* C15.  Symmetry is false in general, for the same reason. *)
Theorem C15_symmetric_refuted : exists g S u v fuel, reachable_any g /\ dag_graph g /\ List.length (nodes g) < fuel /\
  are_nodes_d_separated_dag fuel dedup g u v (nodes_of S) = Ok false /\
  are_nodes_d_separated_dag fuel dedup g v u (nodes_of S) = Ok true.
Proof.
  exists gM, ["c"], "x", "y", 6. split; [apply reachable_is_any, gM_ok|]. split; [apply gM_ok|].
  split; [vm_compute; lia|]. vm_compute; auto.
Qed.
Print Assumptions C15_symmetric_refuted.
Theorem C15_symmetric_partial : forall g so so' S u v fuel, reachable_any g -> dag_graph g -> set_order so -> set_order so' ->
  List.length (nodes g) < fuel -> uniform_colliders g u v S ->
  are_nodes_d_separated_dag fuel so g u v (nodes_of S) = are_nodes_d_separated_dag fuel so' g v u (nodes_of S).
Proof. exact c15_main. Qed.
Print Assumptions C15_symmetric_partial.

(* C16 *)
Theorem C16_directed_path_exists : forall g u v fuel, reachable g -> all_live g -> acyclic (arrow g) ->
  List.length (nodes g) < fuel -> (exists w, edge_exists g u w = true) ->
  exists b, directed_path_exists fuel g u v = Ok b /\ (b = true <-> reach_plus (arrow g) u v).
Proof. exact c16_main. Qed.
Print Assumptions C16_directed_path_exists.
Example C16_nonvacuous : reachable gM /\ all_live gM /\ acyclic (arrow gM) /\ List.length (nodes gM) < 6 /\
  edge_exists gM "x" "a" = true /\ directed_path_exists 6 gM "x" "c" = Ok false /\ directed_path_exists 6 gT "u" "v" = Ok true.
Proof.
  split; [apply gM_ok|]. split; [apply gM_ok|]. split; [apply (dg_acyclic _ (proj1 (proj2 gM_ok)))|].
  split; [vm_compute; lia|vm_compute; auto].
Qed.
(* The hypotheses are needed.  With an undirected edge r - s the query does not return for a target
   that is not a neighbour: at every recursion depth it is still running. *)
Theorem C16_undirected_diverges_refuted : exists g u v, reachable g /\ all_live g /\
  dmem (nodes g) v = true /\ forall fuel, directed_path_exists fuel g u v = Err OutOfFuel.
Proof.
  exists (build ["r"; "s"; "t"] [] [("r", "s")]), "r", "t".
  split; [apply build_reachable|]. split; [apply check_live_ok; vm_compute; reflexivity|]. split; [vm_compute; reflexivity|].
  assert (H : forall fuel, directed_path_exists fuel (build ["r"; "s"; "t"] [] [("r", "s")]) "r" "t" = Err OutOfFuel /\
                           directed_path_exists fuel (build ["r"; "s"; "t"] [] [("r", "s")]) "s" "t" = Err OutOfFuel);
    [|intros fuel; apply H].
  set (g := build ["r"; "s"; "t"] [] [("r", "s")]).
  induction fuel as [|n [IH1 IH2]]; [split; reflexivity|].
  assert (D1 : directed_edge_exists g "r" "t" = false) by (vm_compute; reflexivity).
  assert (D2 : directed_edge_exists g "s" "t" = false) by (vm_compute; reflexivity).
  assert (R1 : exists r, dget (edges g) "r" = Some r /\ dkeys r = ["s"]) by (eexists; vm_compute; auto).
  assert (R2 : exists r, dget (edges g) "s" = Some r /\ dkeys r = ["r"]) by (eexists; vm_compute; auto).
  assert (M1 : dmem (nodes g) "r" = true) by (vm_compute; reflexivity).
  assert (M2 : dmem (nodes g) "s" = true) by (vm_compute; reflexivity).
  clearbody g. destruct R1 as (r1 & R1 & K1), R2 as (r2 & R2 & K2).
  cbn [directed_path_exists]. rewrite D1, D2, R1, R2, K1, K2; cbn [rexists]. rewrite M1, M2, IH1, IH2; split; reflexivity.
Qed.
Print Assumptions C16_undirected_diverges_refuted.
(* A soft-deleted edge is still followed. *)
Theorem C16_soft_deleted_refuted : exists g u v fuel, reachable g /\ acyclic (arrow g) /\
  directed_path_exists fuel g u v = Ok true /\ ~ reach_plus (arrow g) u v.
Proof.
  exists (run_ops (build_ops ["a"; "b"; "c"] [("a", "b"); ("b", "c")] [] ++ [ORemoveDirected "a" "b" true]) empty_graph), "a", "c", 4.
  split; [|split; [|split]].
  - eexists; split; [|reflexivity]. vm_compute; auto 10.
  - apply check_acyclic_ok; vm_compute; reflexivity.
  - vm_compute; reflexivity.
  - intros (y & A & _). apply arrows_In in A. vm_compute in A. destruct A as [A|[]]; discriminate.
Qed.
Print Assumptions C16_soft_deleted_refuted.

(* C17.  Soundness and an exact description of what is listed; completeness is false because the
   listing stops at the first node with a direct edge to the target. *)
Theorem C17_directed_paths_partial : forall g u v fuel, reachable g -> acyclic (arrow g) -> List.length (nodes g) < fuel ->
  (exists w, edge_exists g u w = true) ->
  exists ps, directed_paths fuel g u v = Ok ps /\
    forall q, In q ps <-> exists p, listed_path g u v p /\ q = pairs_of p.
Proof. exact c17_main. Qed.
Print Assumptions C17_directed_paths_partial.
Example C17_nonvacuous : reachable gM /\ acyclic (arrow gM) /\ List.length (nodes gM) < 6 /\ edge_exists gM "b" "c" = true /\
  directed_paths 6 (build ["u"; "a"; "b"; "v"] [("u", "a"); ("u", "b"); ("a", "v"); ("b", "v")] []) "u" "v"
    = Ok [[("u", "a"); ("a", "v")]; [("u", "b"); ("b", "v")]].
Proof.
  split; [apply gM_ok|]. split; [apply (dg_acyclic _ (proj1 (proj2 gM_ok)))|]. split; [vm_compute; lia|vm_compute; auto].
Qed.
Theorem C17_complete_refuted : exists g u v fuel ps p, reachable g /\ acyclic (arrow g) /\ all_live g /\
  List.length (nodes g) < fuel /\ directed_paths fuel g u v = Ok ps /\
  directed_path g u v p /\ ~ In (pairs_of p) ps.
Proof.
  exists gT, "u", "v", 4, [[("u", "v")]], ["u"; "w"; "v"].
  split; [apply gT_ok|]. split; [apply (dg_acyclic _ (proj1 (proj2 gT_ok)))|]. split; [apply gT_ok|].
  split; [vm_compute; lia|]. split; [vm_compute; reflexivity|]. split.
  - split; [eexists; reflexivity|]. split; [exists ["u"; "w"]; reflexivity|].
    split; [|simpl; lia]. repeat constructor; vm_compute; reflexivity.
  - intros [H|[]]; discriminate.
Qed.
Print Assumptions C17_complete_refuted.
