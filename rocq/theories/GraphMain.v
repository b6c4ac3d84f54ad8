(* Lemmas that PropsGraph.v restates. *)
From Verif Require Import Base PyDict PyDictFacts Graph GraphFacts GraphInv GraphInv2 GraphInv3 GraphQ GraphSpec.

Lemma is_ok_get_edge g u v : is_ok (get_edge g u v) = dmem2 (edges g) u v.
Proof. unfold get_edge, dmem2; destruct (dget2 (edges g) u v); reflexivity. Qed.

Lemma tame_regular os g : tame os g -> regular os g.
Proof.
  revert g; induction os as [|o os IH]; intros g Ht; [exact I|].
  destruct Ht as [H1 H2]; split; [|apply IH; exact H2].
  destruct o; try exact I. destruct soft; [exact I|]. simpl in *. rewrite !is_ok_get_edge in H1; exact H1.
Qed.

Lemma reachable_WF g : reachable g -> WF g.
Proof. intros (os & Ht & ->); apply run_ops_wf; [apply WF_empty|apply tame_regular; exact Ht]. Qed.

Lemma reachable_any_inv0 g : reachable_any g -> inv0 g.
Proof. intros (os & ->); apply run_ops_inv0, inv0_empty. Qed.

Lemma c01_main g v : reachable g ->
  match parents_of_node g v with
  | Ok l => NoDup l /\ forall u, In u l <-> directed_edge_exists g u v = true
  | Err _ => forall u, edge_exists g u v = false
  end.
Proof.
  intros Hr; apply reachable_WF in Hr; destruct (parents_of_node g v) as [l|e] eqn:E.
  - apply parents_spec; assumption.
  - apply (parents_err g v e Hr E).
Qed.

Lemma c02_main g : reachable_any g ->
  (forall u v, directed_edge_exists g u v = true ->
     u <> v /\ dmem (nodes g) u = true /\ dmem (nodes g) v = true) /\
  (forall u v, edge_exists g u v = true ->
     u <> v /\ dmem (nodes g) u = true /\ dmem (nodes g) v = true) /\
  (forall u v l, parents_of_node g v = Ok l -> In u l ->
     u <> v /\ dmem (nodes g) u = true /\ dmem (nodes g) v = true).
Proof.
  intros Hr; apply reachable_any_inv0 in Hr; split; [|split].
  - intros u v; apply inv0_endpoints; exact Hr.
  - intros u v; rewrite edge_exists_or; intros L; apply orb_true_iff in L; destruct L as [L|L];
      apply inv0_endpoints in L; try exact Hr; destruct L as (A & B & C); auto.
  - intros u v l; apply inv0_parents; exact Hr.
Qed.

Lemma c03_main g o g' e : reachable_any g -> run_op o g = (g', Err e) ->
  e = GraphError \/ e = ValueError -> g' = g.
Proof. intros Hr; apply run_op_reject, reachable_any_inv0, Hr. Qed.

Lemma c04_main g u v : reachable g -> undirected_edge_exists g u v = true ->
  exists g1 g2, remove_edge u v true g = (g1, Ok tt) /\ restore_edge u v g1 = (g2, Ok tt) /\
    edge_exists g1 u v = false /\ directed_edge_exists g1 u v = false /\ directed_edge_exists g1 v u = false /\
    (forall a b, elsewhere u v a b -> get_edge g1 a b = get_edge g a b) /\
    (forall a b, get_edge g2 a b = get_edge g a b) /\
    nodes g1 = nodes g /\ nodes g2 = nodes g.
Proof.
  intros Hr Hu; destruct (soft_remove_restore g u v (reachable_WF _ Hr) Hu)
    as (g1 & g2 & A & B & _ & _ & C & D & E & F & G & H).
  exists g1, g2; rewrite edge_exists_or, C, D; repeat split; auto.
Qed.

Lemma c04_dir_main g u v : reachable g -> directed_edge_exists g u v = true ->
  exists g1 g2, remove_directed_edge u v true g = (g1, Ok tt) /\ restore_directed_edge u v g1 = (g2, Ok tt) /\
    directed_edge_exists g1 u v = false /\
    (forall a b, (a, b) <> (u, v) -> get_edge g1 a b = get_edge g a b) /\
    (forall a b, get_edge g2 a b = get_edge g a b) /\
    nodes g1 = nodes g /\ nodes g2 = nodes g.
Proof.
  intros Hr Hu; destruct (soft_remove_restore_directed g u v (reachable_WF _ Hr) Hu)
    as (g1 & g2 & A & B & _ & _ & C & D & E & F & G).
  exists g1, g2; repeat split; auto.
Qed.

Lemma c05_main g u v e e' : reachable g -> undirected_edge_exists g u v = true ->
  get_edge g u v = Ok e -> get_edge g v u = Ok e' ->
  exists g1 g2, remove_edge u v false g = (g1, Ok tt) /\ restore_edge u v g1 = (g2, Ok tt) /\
    edge_exists g1 u v = false /\
    (forall a b, elsewhere u v a b -> get_edge g2 a b = get_edge g a b) /\
    get_edge g2 u v = Ok (mkEdge u v TUndirected (e_meta e) false) /\
    get_edge g2 v u = Ok (mkEdge v u TUndirected (e_meta e) false).
Proof.
  intros Hr Hu E E'; destruct (hard_remove_restore g u v (reachable_WF _ Hr) Hu)
    as (g1 & g2 & x & x' & A & B & C & D & F & G & H & I & J).
  rewrite E in C; injection C as <-.
  exists g1, g2; rewrite edge_exists_or, F, G; repeat split; auto.
Qed.

Lemma c06_main g : reachable g ->
  exists g', purge_soft_deleted_edges g = (g', Ok tt) /\
    (forall u v, edge_exists g' u v = edge_exists g u v) /\
    (forall u v, directed_edge_exists g' u v = directed_edge_exists g u v) /\
    (forall u v, undirected_edge_exists g' u v = undirected_edge_exists g u v) /\
    (forall u v t, edge_of_type_exists g' u v t = edge_of_type_exists g u v t) /\
    (forall v, match parents_of_node g v, parents_of_node g' v with
               | Ok l, Ok l' => forall u, In u l <-> In u l'
               | Err _, Err _ => True
               | _, _ => False
               end) /\
    (forall u v, directed_edge_is_soft_deleted g' u v = false).
Proof.
  intros Hr; destruct (purge_spec g (reachable_WF _ Hr)) as (g' & A & _ & B & C & D & E).
  exists g'; split; [exact A|]; split; [intros; rewrite !edge_exists_or, !B; reflexivity|].
  split; [exact B|]; split; [intros; unfold undirected_edge_exists; rewrite !B; reflexivity|].
  split; [exact C|]; split; [exact D|exact E].
Qed.

Lemma c07_main g u v :
  exactly_one (edge_exists g u v = false) (only_directed_edge_exists g u v = true)
    (only_directed_edge_exists g v u = true) (undirected_edge_exists g u v = true) /\
  edge_exists g u v = edge_exists g v u /\
  undirected_edge_exists g u v = undirected_edge_exists g v u /\
  (edge_exists g u v = true <-> directed_edge_exists g u v = true \/ directed_edge_exists g v u = true).
Proof.
  unfold exactly_one, only_directed_edge_exists, undirected_edge_exists; rewrite !edge_exists_or.
  destruct (directed_edge_exists g u v), (directed_edge_exists g v u); simpl;
    (repeat split; auto; intuition congruence).
Qed.

Lemma c08_main g o u v a b : reachable_any g -> names_pair o u v -> elsewhere u v a b ->
  let g' := fst (run_op o g) in
  get_edge g' a b = get_edge g a b /\ directed_edge_exists g' a b = directed_edge_exists g a b /\
  edge_exists g' a b = edge_exists g a b /\
  edge_value g' a b = edge_value g a b /\ edge_type g' a b = edge_type g a b /\
  retrieve_edge_history g' a b None = retrieve_edge_history g a b None /\ nodes g' = nodes g.
Proof.
  intros Hr Hn [O1 O2]; cbv zeta; apply reachable_any_inv0 in Hr.
  assert (Ho : op_pair o = Some (u, v)).
  { destruct o; simpl in *; try contradiction; rewrite Hn; reflexivity. }
  destruct (run_op_step o u v g Hr Ho) as [_ L].
  assert (O : other u v a b) by (split; assumption).
  assert (E1 := lc_e _ _ _ _ L a b O). assert (E2 := lc_e _ _ _ _ L b a (other_sym _ _ _ _ O)).
  assert (N := lc_n _ _ _ _ L). assert (Hh := lc_h _ _ _ _ L a b O).
  unfold get_edge, directed_edge_exists, edge_value, edge_type, edge_exists, directed_edge_is_soft_deleted, dmem2, retrieve_edge_history.
  rewrite N, E1, E2, Hh; repeat split; reflexivity.
Qed.

Lemma c09_main g u v : directed_edge_exists g u v = true ->
  exists e, get_edge g u v = Ok e /\ edge_value g u v = Ok (e_meta e) /\ edge_type g u v = Ok (Some (e_type e)).
Proof. apply edge_value_live. Qed.

Lemma c10_main os g a b h : reachable_any g -> retrieve_edge_history g a b None = Ok h ->
  exists h', retrieve_edge_history (run_ops os g) a b None = Ok (h ++ h').
Proof.
  intros Hr; unfold retrieve_edge_history.
  destruct (dget (ehist g) (a, b)) as [l|] eqn:E; [|discriminate]. intros [= ->].
  destruct (run_ops_history os g (a, b) h (reachable_any_inv0 _ Hr) E) as [h' ->]; eauto.
Qed.
