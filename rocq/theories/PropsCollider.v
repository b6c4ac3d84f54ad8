(* Adjacencies during edge orientation with arbitrary test outcomes: C36 and C37. *)
From Verif Require Import Base PyDict PyDictFacts Graph GraphSpec GraphCheck Actions ActionSpec ActionMain Generators GenSpec Rules IndepTests Pipeline PipeSpec PipeMain2 Parallel
  Construct ConstructFacts PathSpec Dag DagFacts SkelSpec SkelTop Ideal Schedules OrientSpec ActionFacts GraphInv LoopFacts ColliderFacts ExtendFacts PropsPC.
Open Scope string_scope.
Open Scope list_scope.
Open Scope nat_scope.

(* numeric answers read from a table of separating sets: with [sep a b S] the answer is "independent" *)
Definition told (ns : list id) (sep : id -> id -> list id -> bool) : numerics :=
  let B := (Z.of_nat (List.length ns) + 1)%Z in
  mkNum
    (fun a b => match a, b with [x], [y] => Ok (pair_code B x y) | _, _ => Err ValueError end)
    (fun _ c => Ok (sep (named ns (c / B)%Z) (named ns (c mod B)%Z) []))
    (fun _ _ a b _ => Ok (Some (sep (named ns (a / B)%Z) (named ns (a mod B)%Z) [named ns (third B a b)])))
    (fun l => match List.concat l with x :: y :: zs => Ok (Some (sep (named ns x) (named ns y) (map (named ns) zs))) | _ => Ok None end)
    (fun _ _ _ => Ok false)
    (fun _ _ _ => Ok 0%Z).

(* C36: one ColliderTest step of a pipeline on a graph whose edges are all two-way leaves the set of
   adjacent pairs as it is: any graph the public API can produce, any recorded separating sets, either
   conflict strategy, any iteration order of the sets, and also when the step raises. *)
Theorem C36_adjacencies : forall st so fuel P g g' r, reached g -> skeleton g -> (forall l z, In z (so l) -> In z l) ->
  run_pstep fuel P no_hooks (PStep (collider_step st so)) g = (g', r) -> forall u v, edge_exists g' u v = edge_exists g u v.
Proof. intros. eapply collider_pstep_keeps; eauto using reached_WF. Qed.
Print Assumptions C36_adjacencies.

(* the same for the step alone, before soft-deleted directions are purged; if it raises, nothing has changed *)
Theorem C36_step : forall st so P g g' r, reached g -> skeleton g -> (forall l z, In z (so l) -> In z l) ->
  execute_step P no_hooks (collider_step st so) false g = (g', r) ->
  (forall u v, edge_exists g' u v = edge_exists g u v) /\ match r with Ok _ => True | Err _ => g' = g end.
Proof. intros st so P g g' r R SK SO E. destruct (collider_keeps st so P g g' r (reached_WF _ R) SK SO E) as (_ & A & B). auto. Qed.
Print Assumptions C36_step.

(* a - b - c - d with every other pair separated by the empty set: the colliders at b and at c conflict *)
Definition names4c : list id := ["a"; "b"; "c"; "d"].
Definition adj4c : list (id * id) := [("a", "b"); ("b", "c"); ("c", "d")].
Definition sep4c (a b : id) (S : list id) : bool := negb (mem (a, b) adj4c).
Definition chain4 : graph := match start_graph (ideal_data names4c) with
  | Ok g => fst (execute_pipeline 9 (batch_runner no_hooks) no_hooks (pc_skeleton dedup (told names4c sep4c)) g)
  | Err _ => empty_graph end.
Lemma all_edges_skeleton g : forallb (fun p => forallb (fun e => directed_edge_exists g (fst p) (fst e) && directed_edge_exists g (fst e) (fst p)) (snd p)) (edges g) = true -> skeleton g.
Proof.
  intros H u v e G. unfold get_edge, dget2 in G. destruct (dget (edges g) u) as [r|] eqn:Gu; [|discriminate]. destruct (dget r v) as [e'|] eqn:Gv; [|discriminate].
  rewrite forallb_forall in H. apply dget_In in Gu. specialize (H _ Gu). cbn [fst snd] in H. rewrite forallb_forall in H. apply dget_In in Gv. specialize (H _ Gv). cbn [fst] in H.
  apply andb_true_iff in H. exact H.
Qed.
Lemma chain4_reached : reached chain4.
Proof.
  unfold chain4. destruct (start_graph (ideal_data names4c)) as [g|] eqn:E; [|apply rd_empty]. apply start_reached in E.
  apply pipeline_reached; [apply batch_pool|exact E].
Qed.
Example C36_nonvacuous : reached chain4 /\ skeleton chain4 /\
  (let g1 := fst (run_pstep 9 (batch_runner no_hooks) no_hooks (PStep (collider_step KEEP_FIRST dedup)) chain4) in
   one_way g1 "a" "b" /\ one_way g1 "c" "b" /\ two_way g1 "c" "d") /\
  (let g2 := fst (run_pstep 9 (batch_runner no_hooks) no_hooks (PStep (collider_step KEEP_LAST dedup)) chain4) in
   one_way g2 "a" "b" /\ one_way g2 "b" "c" /\ one_way g2 "d" "c").
Proof.
  split; [apply chain4_reached|]. split; [apply all_edges_skeleton; vm_compute; reflexivity|].
  split; repeat (split; [vm_compute; reflexivity|]); vm_compute; reflexivity.
Qed.

(* C37 fails.  Eight variables, a table of separating sets with at most one element, the shipped PC
   algorithm, no exception: x - y is an edge of the skeleton, no test ever declares x and y
   independent, and yet they are not adjacent in the result.  FurtherOrientTripleTest proposes x -> y
   (because of x -> z -> y) and y -> x (because of y -> w -> x) in the same step; taking both deletes
   the edge.  The result also contains the directed cycle x -> z -> y -> w -> x. *)
Definition names8 : list id := ["x"; "z"; "y"; "w"; "p"; "q"; "r"; "s"].
Definition adj8 : list (id * id) :=
  [("x","z"); ("z","y"); ("y","w"); ("x","w"); ("x","y"); ("z","w"); ("z","p"); ("y","q"); ("w","r"); ("x","s")].
Definition by8 : list (id * id * id) :=
  [("y","p","z"); ("w","p","z"); ("x","q","y"); ("w","q","y"); ("x","r","w"); ("z","r","w"); ("y","s","x"); ("z","s","x")].
Definition sep8 (a b : id) (S : list id) : bool :=
  if mem (a, b) adj8 then false
  else match S with
       | [] => negb (existsb (fun t => eqb (fst t) (a, b)) by8)
       | [c] => mem (a, b, c) by8
       | _ => false
       end.
Theorem C37_refuted : exists d g0 N g, start_graph d = Ok g0 /\
  execute_pipeline 66 (batch_runner no_hooks) no_hooks (pc dedup N) g0 = (g, Ok tt) /\
  exists x y, edge_exists g0 x y = true /\
    (forall i, In i (history g (x, y) ++ history g (y, x)) -> t_act i <> REMOVE_EDGE_UNDIRECTED) /\
    edge_exists g x y = false /\ reach_plus (one_way g) x x.
Proof.
  exists (ideal_data names8). eexists. exists (told names8 sep8). eexists. split; [vm_compute; reflexivity|]. split; [vm_compute; reflexivity|].
  exists "x", "y". split; [vm_compute; reflexivity|]. split.
  { intros i Hi. vm_compute in Hi. repeat destruct Hi as [<-|Hi]; try (vm_compute; discriminate). destruct Hi. }
  split; [vm_compute; reflexivity|]. exists "z". split; [vm_compute; reflexivity|]. apply (reach_step _ _ _ "y"); [vm_compute; reflexivity|].
  apply (reach_step _ _ _ "w"); [vm_compute; reflexivity|]. apply (reach_step _ _ _ "x"); [vm_compute; reflexivity|]. apply reach_refl.
Qed.
Print Assumptions C37_refuted.

(* What holds: if the edges of the graph the loop starts with can be directed without a cycle and without
   a new unshielded collider, no adjacency is lost, and every such way of directing the edges is still
   possible afterwards.  This covers perfect tests (C28) but also any test outcomes whose colliders do
   not contradict each other.  Missing: graphs without a consistent extension, for which it is false. *)
Theorem C37_extendable_partial : forall so fuel P g g' r E, reached g -> set_order so -> consistent_extension g E ->
  run_pstep fuel P no_hooks (PLoop "Loop" exit_on_no_actions (orientation_steps so)) g = (g', r) ->
  (forall u v, edge_exists g' u v = edge_exists g u v) /\ forall E', consistent_extension g E' -> consistent_extension g' E'.
Proof.
  intros so fuel P g g' r E Rg SO C R.
  assert (K : forall E', consistent_extension g E' -> consistent_extension g' E').
  { intros E' C'. cbn [run_pstep] in R. unfold bind at 1 in R. destruct (run_loop fuel P no_hooks exit_on_no_actions (orientation_steps so) 0 None g) as [g1 r1] eqn:L.
    assert (X := loop_keeps_extension E' so fuel P g g1 r1 SO (reached_WF _ Rg) C' L). destruct r1; [|injection R as <- <-; exact X].
    unfold log_step in R. injection R as <- <-. destruct X as [X1 X2 X3 X4]. split; assumption. }
  split; [|exact K]. intros u v. assert (A := ce_adj _ _ C u v). assert (B := ce_adj _ _ (K E C) u v). destruct (edge_exists g' u v), (edge_exists g u v); intuition congruence.
Qed.
Print Assumptions C37_extendable_partial.

(* a -> c, b -> c, c - d - e with the extension a -> c <- b, c -> d -> e *)
Definition gx : graph := build ["a"; "b"; "c"; "d"; "e"] [("a", "c"); ("b", "c")] [("c", "d"); ("d", "e")].
Definition Ex (x y : id) : Prop := In (x, y) [("a", "c"); ("b", "c"); ("c", "d"); ("d", "e")].
Example C37_nonvacuous : reached gx /\ set_order dedup /\ consistent_extension gx Ex /\
  let g' := fst (run_pstep 8 (batch_runner no_hooks) no_hooks (PLoop "Loop" exit_on_no_actions (orientation_steps dedup)) gx) in
  two_way gx "d" "e" /\ one_way g' "d" "e".
Proof.
  split; [apply reachable_reached, build_reachable|]. split; [exact dedup_order|]. split; [|split; vm_compute; reflexivity].
  assert (Dg : dag_over ["a"; "b"; "c"; "d"; "e"] [("a", "c"); ("b", "c"); ("c", "d"); ("d", "e")]) by (apply dag_by_order; [repeat constructor; cbn; intuition discriminate|reflexivity]).
  assert (W := reached_WF gx (reachable_reached _ (build_reachable _ _ _))).
  assert (Nd : forall a, dmem (nodes gx) a = true -> In a ["a"; "b"; "c"; "d"; "e"]).
  { intros a. rewrite dmem_In. replace (dkeys (nodes gx)) with ["a"; "b"; "c"; "d"; "e"] by (vm_compute; reflexivity). auto. }
  assert (Ed : forall x y, Ex x y -> (x = "a" /\ y = "c") \/ (x = "b" /\ y = "c") \/ (x = "c" /\ y = "d") \/ (x = "d" /\ y = "e")).
  { unfold Ex. intros x y [H|[H|[H|[H|[]]]]]; injection H as <- <-; auto. }
  split.
  - exact (do_acyclic _ _ Dg).
  - intros x y. split.
    + intros H. destruct (mem (x, y) [("a", "c"); ("b", "c"); ("c", "d"); ("d", "e")] || mem (y, x) [("a", "c"); ("b", "c"); ("c", "d"); ("d", "e")]) eqn:M.
      * apply orb_true_iff in M. destruct M as [M|M]; apply mem_In in M; [left|right]; exact M.
      * exfalso. destruct (ActionFacts.ee_nodes gx x y W H) as (Hx & Hy & _). apply Nd in Hx. apply Nd in Hy.
        destruct Hx as [<-|[<-|[<-|[<-|[<-|[]]]]]]; destruct Hy as [<-|[<-|[<-|[<-|[<-|[]]]]]];
          first [vm_compute in M; discriminate M|vm_compute in H; discriminate H].
    + intros [H|H]; apply Ed in H; destruct H as [[-> ->]|[[-> ->]|[[-> ->]|[-> ->]]]]; vm_compute; reflexivity.
  - intros x y H; apply Ed in H; destruct H as [[-> ->]|[[-> ->]|[[-> ->]|[-> ->]]]]; vm_compute; reflexivity.
  - intros x z y H1 H2 Ne _. apply Ed in H1. apply Ed in H2.
    destruct H1 as [[-> ->]|[[-> ->]|[[-> ->]|[-> ->]]]]; destruct H2 as [[-> H2]|[[-> H2]|[[-> H2]|[-> H2]]]]; try discriminate H2; try congruence;
    split; vm_compute; reflexivity.
Qed.
