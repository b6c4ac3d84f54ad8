(* ColliderTest on a graph that already has arrows: C119. *)
From Verif Require Import Base PyDict PyDictFacts Graph GraphSpec GraphInv GraphCheck Actions ActionSpec ActionMain Generators GenSpec Rules IndepTests Pipeline PipeSpec PipeMain2 Parallel
  Construct ConstructFacts PathSpec Dag DagFacts SkelSpec Ideal SkelTop OrientSpec OrientTop ColliderFacts ConflictSpec ConflictFacts PropsConflict PropsPC RecolliderSpec RecolliderFacts RecolliderMain.
Open Scope string_scope.
Open Scope list_scope.
Open Scope nat_scope.

(* C119: on any graph without soft-deleted edges the step ends well, keeps every adjacency and every arrow, and turns
   a - b into a -> b only if for some c the nodes a and c are not joined both ways, c -> b or c - b, and b is in no
   separating set recorded for a and c.  It draws an arrow exactly if there is such a triple with a two-way edge. *)
Theorem C119_arrows_partial : forall fuel P so g, reached g -> clean g -> readable g -> set_order so ->
  exists g', run_pstep fuel P no_hooks (PStep (collider_step KEEP_FIRST so)) g = (g', Ok tt) /\
  (forall a b, edge_exists g' a b = edge_exists g a b) /\
  (forall a b, one_way g a b -> one_way g' a b) /\
  (forall a b, new_arrow g g' a b -> two_way g a b /\ exists c, taken_for_collider g a b c \/ taken_for_collider g c b a) /\
  ((exists a b, new_arrow g g' a b) <-> exists x z y, taken_for_collider g x z y /\ (two_way g x z \/ two_way g y z)).
Proof.
  intros fuel P so g R CL [RW RD] SO. assert (W := reached_WF _ R). refine (rc_main g W CL _ _ so SO fuel P).
  - intros x y H. destruct (pair_nodes g W x y H) as (Hx & Hy & _). auto.
  - intros x y i _. apply RD.
Qed.
Print Assumptions C119_arrows_partial.
(* On the finished graph of a run with perfect tests it draws an arrow exactly if there is an arrow into the end of an
   undirected edge. *)
Theorem C119_finished : forall fuel P l g0 D N g fuel' P' so, perfect_run fuel P l g0 D N -> execute_pipeline fuel P no_hooks l g0 = (g, Ok tt) -> set_order so ->
  exists g', run_pstep fuel' P' no_hooks (PStep (collider_step KEEP_FIRST so)) g = (g', Ok tt) /\
  (forall a b, edge_exists g' a b = edge_exists g a b) /\ (forall a b, one_way g a b -> one_way g' a b) /\
  ((exists a b, new_arrow g g' a b) <-> exists x y z, one_way g x y /\ two_way g y z).
Proof. intros fuel P l g0 D N g fuel' P' so H R SO. exact (fin_main g0 g D so (pr_dag _ _ _ _ _ _ H) (perfect_finished fuel P l g0 D N g H R) SO fuel' P'). Qed.
Print Assumptions C119_finished.

(* a and b are causes of c and d, and d is a cause of c: a -> c <- b and a -> d <- b are drawn, c - d stays.  A second
   ColliderTest takes a -> d, c - d for a collider because a -> c is not a two-way edge, and draws c -> d. *)
Definition names4r : list id := ["a"; "b"; "c"; "d"].
Definition dag4r : list (id * id) := [("a", "d"); ("b", "d"); ("a", "c"); ("b", "c"); ("d", "c")].
Lemma nodup4r : NoDup names4r.
Proof. repeat constructor; cbn; intuition discriminate. Qed.
Lemma dag4r_dag : dag_over names4r dag4r.
Proof.
  assert (ND : NoDup ["a"; "b"; "d"; "c"]) by (repeat constructor; cbn; intuition discriminate).
  destruct (dag_by_order ["a"; "b"; "d"; "c"] dag4r ND eq_refl) as [A B]. split; [|exact B]. intros x y E. destruct (A x y E) as [H1 H2]. cbn in *. intuition.
Qed.
Theorem C119_wrong_refuted : exists g0 N g g', perfect_run 18 (batch_runner no_hooks) (pc dedup N) g0 dag4r N /\
  execute_pipeline 18 (batch_runner no_hooks) no_hooks (pc dedup N) g0 = (g, Ok tt) /\
  run_pstep 18 (batch_runner no_hooks) no_hooks (PStep (collider_step KEEP_FIRST dedup)) g = (g', Ok tt) /\
  two_way g "c" "d" /\ one_way g' "c" "d" /\ edge_in dag4r "d" "c".
Proof.
  destruct (ideal_exists names4r dag4r nodup4r dag4r_dag) as (g0 & S0 & _ & DG & PT). assert (G0 := S0). vm_compute in G0. injection G0 as G0.
  exists g0, (ideal names4r dag4r). eexists. eexists. split.
  { split; [eexists; exact S0|exact DG|eexists; exact PT|exists dedup; split; [exact dedup_order|constructor]|]. rewrite <- G0. vm_compute. lia. }
  split; [rewrite <- G0; vm_compute; reflexivity|]. split; [vm_compute; reflexivity|]. split; [vm_compute; reflexivity|]. split; [vm_compute; reflexivity|]. cbn. tauto.
Qed.
Print Assumptions C119_wrong_refuted.
(* In a Loop nothing is purged between two rounds, and an edge can be lost: y -> a -> b, y -> b, c -> b. *)
Definition names4l : list id := ["y"; "b"; "a"; "c"].
Definition dag4l : list (id * id) := [("y", "a"); ("a", "b"); ("y", "b"); ("c", "b")].
Definition skel4l : graph := match start_graph (ideal_data names4l) with
  | Ok g => fst (execute_pipeline 9 (batch_runner no_hooks) no_hooks (pc_skeleton dedup (ideal names4l dag4l)) g)
  | Err _ => empty_graph end.
Definition two_rounds (n : nat) (_ : option (list tresult)) : res bool := Ok (Nat.leb 2 n).
Lemma skel4l_reached : reached skel4l.
Proof. unfold skel4l. destruct (start_graph (ideal_data names4l)) as [g|] eqn:E; [|apply rd_empty]. apply start_reached in E. apply pipeline_reached; [apply batch_pool|exact E]. Qed.
Theorem C119_loop_refuted : exists g g', reached g /\ skeleton g /\ readable g /\
  run_pstep 9 (batch_runner no_hooks) no_hooks (PLoop "Loop" two_rounds [collider_step KEEP_FIRST dedup]) g = (g', Ok tt) /\
  edge_exists g "y" "b" = true /\ edge_exists g' "y" "b" = false.
Proof.
  exists skel4l. eexists. split; [exact skel4l_reached|]. split; [apply PropsCollider.all_edges_skeleton; vm_compute; reflexivity|]. split; [apply readable_check; vm_compute; reflexivity|].
  split; [vm_compute; reflexivity|]. split; vm_compute; reflexivity.
Qed.
Print Assumptions C119_loop_refuted.

Definition clean_b (g : graph) : bool := forallb (fun p => forallb (fun e => directed_edge_exists g (fst p) (fst e)) (snd p)) (edges g).
Lemma clean_check g : clean_b g = true -> clean g.
Proof.
  intros H u v e G. unfold get_edge, dget2 in G. destruct (dget (edges g) u) as [r|] eqn:Gu; [|discriminate]. destruct (dget r v) as [e'|] eqn:Gv; [|discriminate].
  unfold clean_b in H. rewrite forallb_forall in H. apply dget_In in Gu. specialize (H _ Gu). cbn [fst snd] in H. rewrite forallb_forall in H. apply dget_In in Gv. exact (H _ Gv).
Qed.
(* the finished graph of the first example, which has arrows *)
Definition run4r : graph := match start_graph (ideal_data names4r) with
  | Ok g => fst (execute_pipeline 18 (batch_runner no_hooks) no_hooks (pc dedup (ideal names4r dag4r)) g)
  | Err _ => empty_graph end.
Lemma run4r_reached : reached run4r.
Proof. unfold run4r. destruct (start_graph (ideal_data names4r)) as [g|] eqn:E; [|apply rd_empty]. apply start_reached in E. apply pipeline_reached; [apply batch_pool|exact E]. Qed.
Example C119_nonvacuous : reached run4r /\ clean run4r /\ readable run4r /\ one_way run4r "a" "c" /\ one_way run4r "a" "d" /\ two_way run4r "c" "d" /\ taken_for_collider run4r "a" "d" "c".
Proof.
  split; [exact run4r_reached|]. split; [apply clean_check; vm_compute; reflexivity|]. split; [apply readable_check; vm_compute; reflexivity|].
  split; [vm_compute; reflexivity|]. split; [vm_compute; reflexivity|]. split; [vm_compute; reflexivity|].
  split; [vm_compute; tauto|]. split; [vm_compute; reflexivity|]. split; [vm_compute; reflexivity|]. split; [vm_compute; reflexivity|]. apply sepset_check. vm_compute. reflexivity.
Qed.
