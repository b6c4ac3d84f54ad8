(* Proofs of C11-C17 in the form used by PropsPaths.v. *)
From Verif Require Import Base PyDict PyDictFacts Graph GraphSpec GraphInv GraphInv3 GraphQ GraphMain GraphPaths Dag PathSpec
  PathFacts PathFacts2 DagFacts GraphCheck.

Lemma ra_nodup g : reachable_any g -> NoDup (dkeys (nodes g)).
Proof. intros H; apply reachable_any_inv0 in H. destruct H as [W _]. apply (w0_n _ W). Qed.

Lemma reachable_is_any g : reachable g -> reachable_any g.
Proof. intros (os & _ & ->); exists os; reflexivity. Qed.

Lemma c11_main : forall g u v fuel, reachable_any g -> List.length (nodes g) < fuel ->
  exists ps, all_paths fuel g u v = Ok ps /\ NoDup ps /\ forall p, In p ps <-> simple_path (adjR g) u v p.
Proof. intros g u v fuel R Hf; apply all_paths_spec; [apply ra_nodup; exact R|exact Hf]. Qed.

Lemma c13_main : forall g so S u v fuel, reachable_any g -> dag_graph g -> set_order so -> List.length (nodes g) < fuel ->
  exists b, are_nodes_d_separated_dag fuel so g u v (nodes_of S) = Ok b /\
    (b = true -> d_separated (arrow g) u v (fun x => In x S)).
Proof.
  intros g so S u v fuel R D Hso Hf; destruct (dsep_spec g so S fuel u v (ra_nodup _ R) D Hso Hf) as (b & E & T & _); eauto.
Qed.

Lemma c14_main : forall g so S u v fuel, reachable_any g -> dag_graph g -> set_order so -> List.length (nodes g) < fuel ->
  uniform_colliders g u v S ->
  exists b, are_nodes_d_separated_dag fuel so g u v (nodes_of S) = Ok b /\
    (b = true <-> d_separated (arrow g) u v (fun x => In x S)).
Proof. intros; apply dsep_exact; auto using ra_nodup. Qed.

Lemma uniform_sym g u v S : uniform_colliders g u v S -> uniform_colliders g v u S.
Proof.
  intros H p a b c a' b' c' P T C T' C'. apply (H (rev p) c b a c' b' a').
  - apply simple_path_rev; [intros; apply adjacent_sym; assumption|exact P].
  - apply triple_rev; rewrite rev_involutive; exact T.
  - destruct C; split; assumption.
  - apply triple_rev; rewrite rev_involutive; exact T'.
  - destruct C'; split; assumption.
Qed.

Lemma c15_main : forall g so so' S u v fuel, reachable_any g -> dag_graph g -> set_order so -> set_order so' ->
  List.length (nodes g) < fuel -> uniform_colliders g u v S ->
  are_nodes_d_separated_dag fuel so g u v (nodes_of S) = are_nodes_d_separated_dag fuel so' g v u (nodes_of S).
Proof.
  intros g so so' S u v fuel R D H1 H2 Hf U.
  destruct (c14_main g so S u v fuel R D H1 Hf U) as (b & E & Hb).
  destruct (c14_main g so' S v u fuel R D H2 Hf (uniform_sym _ _ _ _ U)) as (b' & E' & Hb').
  rewrite E, E'; f_equal.
  assert (X : b = true <-> b' = true) by (rewrite Hb, Hb'; split; apply d_separated_sym).
  destruct b, b'; try reflexivity; [symmetry; apply X; reflexivity|apply X; reflexivity].
Qed.

Lemma uniform_nil g u v : uniform_colliders g u v [].
Proof. intros p a b c a' b' c' _ _ _ _ _ (d & _ & []). Qed.

Lemma c16_main : forall g u v fuel, reachable g -> all_live g -> acyclic (arrow g) -> List.length (nodes g) < fuel ->
  (exists w, edge_exists g u w = true) ->
  exists b, directed_path_exists fuel g u v = Ok b /\ (b = true <-> reach_plus (arrow g) u v).
Proof. intros; apply dpe_spec; auto using reachable_WF. Qed.

Lemma c17_main : forall g u v fuel, reachable g -> acyclic (arrow g) -> List.length (nodes g) < fuel ->
  (exists w, edge_exists g u w = true) ->
  exists ps, directed_paths fuel g u v = Ok ps /\
    forall q, In q ps <-> exists p, listed_path g u v p /\ q = pairs_of p.
Proof. intros; apply dp_spec; auto using reachable_WF. Qed.

(* helper for concrete refutations *)
Lemma dsep_by_paths g u v S ps fuel : NoDup (dkeys (nodes g)) -> List.length (nodes g) < fuel ->
  all_paths fuel g u v = Ok ps -> (forall p, In p ps -> ~ open_path (arrow g) S p) -> d_separated (arrow g) u v S.
Proof.
  intros HN Hf E H p P O. destruct (all_paths_spec g u v fuel HN Hf) as (ps' & E' & _ & Hp).
  rewrite E in E'; injection E' as <-. apply (H p); [|exact O]. apply Hp.
  apply (simple_path_ext _ (adjR g)) in P; [exact P|intros; symmetry; apply adjR_iff].
Qed.
