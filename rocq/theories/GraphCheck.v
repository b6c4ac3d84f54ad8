(* Boolean checks used to show that concrete graphs meet the hypotheses of theorems. *)
From Verif Require Import Base PyDict PyDictFacts Graph GraphSpec GraphInv GraphQ GraphPaths Dag PathSpec PathFacts DagFacts.

Definition arrows (g : graph) : list (id * id) :=
  flat_map (fun a => flat_map (fun b => if directed_edge_exists g a b then [(a, b)] else []) (dkeys (nodes g))) (dkeys (nodes g)).

Lemma arrows_In g a b : In (a, b) (arrows g) <-> arrow g a b.
Proof.
  unfold arrows; rewrite in_flat_map; split.
  - intros (x & _ & H); apply in_flat_map in H; destruct H as (y & _ & H).
    destruct (directed_edge_exists g x y) eqn:D; [|destruct H]. destruct H as [E|[]]; injection E as <- <-; exact D.
  - intros A. assert (B := A). apply dee_iff0 in B; destruct B as (B1 & B2 & _).
    exists a; split; [apply dmem_In; exact B1|]. apply in_flat_map; exists b; split; [apply dmem_In; exact B2|].
    unfold arrow in A; rewrite A; left; reflexivity.
Qed.

Fixpoint index (x : id) (l : list id) : nat :=
  match l with [] => 0 | y :: r => if eqb x y then 0 else S (index x r) end.

(* nodes are listed in topological order *)
Definition check_acyclic (g : graph) : bool :=
  forallb (fun p => Nat.ltb (index (fst p) (dkeys (nodes g))) (index (snd p) (dkeys (nodes g)))) (arrows g).
Definition check_dag (g : graph) : bool :=
  forallb (fun p => edge_of_type_exists g (fst p) (snd p) TDirected) (arrows g) && check_acyclic g.

Lemma check_acyclic_ok g : check_acyclic g = true -> acyclic (arrow g).
Proof.
  intros H; apply (acyclic_rank _ (fun x => index x (dkeys (nodes g)))). intros a b A.
  apply arrows_In in A. unfold check_acyclic in H. rewrite forallb_forall in H. apply H in A; simpl in A.
  apply Nat.ltb_lt in A; exact A.
Qed.

Lemma check_dag_ok g : check_dag g = true -> dag_graph g.
Proof.
  unfold check_dag; intros H; apply andb_true_iff in H; destruct H as [H1 H2]; constructor; [|apply check_acyclic_ok; exact H2].
  intros u v A; apply arrows_In in A. rewrite forallb_forall in H1. apply (H1 (u, v)) in A; exact A.
Qed.

Definition check_live (g : graph) : bool :=
  forallb (fun r => forallb (fun p => negb (e_del (snd p))) (snd r)) (edges g).
Lemma check_live_ok g : check_live g = true -> all_live g.
Proof.
  unfold check_live, all_live, directed_edge_is_soft_deleted; intros H u v.
  destruct (dget2 (edges g) u v) as [e|] eqn:E; [|reflexivity].
  unfold dget2 in E; destruct (dget (edges g) u) as [r|] eqn:R; [|discriminate].
  rewrite forallb_forall in H. apply dget_In in R. apply H in R; simpl in R.
  rewrite forallb_forall in R. apply dget_In in E; apply R in E; simpl in E.
  destruct (e_del e); [discriminate|reflexivity].
Qed.

Fixpoint dedup (l : list id) : list id :=
  match l with [] => [] | x :: r => if mem x r then dedup r else x :: dedup r end.
Lemma dedup_order : set_order dedup.
Proof.
  assert (HI : forall l x, In x (dedup l) <-> In x l).
  { induction l as [|y l IH]; intros x; simpl; [tauto|]. destruct (mem y l) eqn:M.
    - rewrite IH; split; [auto|]. intros [<-|H]; [apply mem_In; exact M|exact H].
    - simpl; rewrite IH; tauto. }
  intros l; split; [|apply HI]. induction l as [|y l IH]; simpl; [constructor|].
  destruct (mem y l) eqn:M; [exact IH|]. constructor; [|exact IH]. rewrite HI. apply mem_not_In; exact M.
Qed.

(* a graph built by add_node / add_directed_edge / add_edge calls *)
Definition build_ops (ns : list id) (ds us : list (id * id)) : list gop :=
  map (fun n => OAddNode n (Some []) n) ns ++
  map (fun p => OAddDirected (fst p) (snd p) None TDirected) ds ++
  map (fun p => OAddEdge (fst p) (snd p) None TUndirected) us.
Definition build ns ds us : graph := run_ops (build_ops ns ds us) empty_graph.
Lemma build_reachable ns ds us : reachable (build ns ds us).
Proof.
  exists (build_ops ns ds us); split; [|reflexivity]. generalize empty_graph.
  assert (T : forall os g, Forall (fun o => match o with ORemove _ _ _ => False | _ => True end) os -> tame os g).
  { induction os as [|o os IH]; intros g H; simpl; [exact I|]. inversion H; subst. split; [|apply IH; assumption].
    destruct o; simpl; try exact I; contradiction. }
  intros g; apply T. unfold build_ops. rewrite !Forall_app; split; [|split]; apply Forall_forall; intros o Ho;
    apply in_map_iff in Ho; destruct Ho as (x & <- & _); exact I.
Qed.
