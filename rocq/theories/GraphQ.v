(* Query-level facts about reachable graphs, used by PropsGraph.v. *)
From Verif Require Import Base PyDict PyDictFacts Graph GraphFacts GraphInv GraphInv2 GraphInv3.

Definition live (g : graph) (u v : id) : Prop := exists e, eget g u v = Some e /\ e_del e = false.

Lemma dee_iff0 g u v : directed_edge_exists g u v = true <->
  dmem (nodes g) u = true /\ dmem (nodes g) v = true /\ live g u v.
Proof.
  unfold directed_edge_exists, dmem2, directed_edge_is_soft_deleted, live, eget.
  destruct (dmem (nodes g) u), (dmem (nodes g) v); simpl; try (split; [discriminate|intros (A & B & _); discriminate]).
  destruct (dget2 (edges g) u v) as [e|] eqn:E; simpl.
  - destruct (e_del e) eqn:D; split; try discriminate.
    + intros (_ & _ & e' & [= <-] & D'); congruence.
    + eauto 6.
    + reflexivity.
  - split; [discriminate|]. intros (_ & _ & e & X & _); discriminate.
Qed.

Lemma dee_iff g u v : WF g -> directed_edge_exists g u v = true <-> live g u v.
Proof.
  intros W; rewrite dee_iff0; split; [tauto|].
  intros L; destruct L as [e [E D]]. destruct (wf_fwd _ W _ _ _ E) as (A & B & _).
  split; [exact A|split; [exact B|exists e; auto]].
Qed.

Lemma dee_false g u v : WF g -> directed_edge_exists g u v = false <-> ~ live g u v.
Proof. intros W; rewrite <- dee_iff by exact W; destruct (directed_edge_exists g u v); split; congruence. Qed.

Lemma edge_exists_or g u v :
  edge_exists g u v = directed_edge_exists g u v || directed_edge_exists g v u.
Proof.
  unfold edge_exists, directed_edge_exists, dmem2, directed_edge_is_soft_deleted.
  destruct (dmem (nodes g) u), (dmem (nodes g) v); simpl; try reflexivity.
  destruct (dget2 (edges g) u v) as [e|]; simpl; [destruct (e_del e); simpl|];
    destruct (dget2 (edges g) v u) as [e'|]; simpl; try reflexivity; destruct (e_del e'); reflexivity.
Qed.

Lemma edge_exists_sym g u v : edge_exists g u v = edge_exists g v u.
Proof. rewrite !edge_exists_or; apply orb_comm. Qed.

Lemma nodes_lookup_ok g l : (forall n, In n l -> dmem (nodes g) n = true) -> nodes_lookup g l = Ok l.
Proof.
  induction l as [|n l IH]; intros Hl; simpl; [reflexivity|].
  rewrite (Hl n (or_introl eq_refl)), IH by (intros m Hm; apply Hl; right; exact Hm); reflexivity.
Qed.

Lemma nodes_lookup_eq g l l' : nodes_lookup g l = Ok l' -> l' = l /\ forall n, In n l -> dmem (nodes g) n = true.
Proof.
  revert l'; induction l as [|n l IH]; intros l'; simpl.
  - intros [= <-]; split; [reflexivity|contradiction].
  - destruct (dmem (nodes g) n) eqn:E; [|discriminate].
    destruct (nodes_lookup g l) as [t|]; simpl; [|discriminate].
    intros [= <-]; destruct (IH t eq_refl) as [-> Hl]; split; [reflexivity|].
    intros m [<-|Hm]; auto.
Qed.

(* keys of a row *)
Lemma row_keys d u r v : dget d u = Some r -> In v (dkeys r) <-> exists e : edge, dget2 d u v = Some e.
Proof.
  intros E; unfold dget2; rewrite E. rewrite <- dmem_In; unfold dmem.
  destruct (dget r v); split; intros Hx; eauto; try discriminate. destruct Hx; discriminate.
Qed.

Lemma parents_spec g v l : WF g -> parents_of_node g v = Ok l ->
  NoDup l /\ forall u, In u l <-> directed_edge_exists g u v = true.
Proof.
  intros W; unfold parents_of_node; destruct (dget (redges g) v) as [r|] eqn:R; [|discriminate].
  intros E; apply nodes_lookup_eq in E; destruct E as [-> Hn]; split.
  - apply NoDup_filter; eapply (proj2 (wf_r _ W)); exact R.
  - intros u; rewrite filter_In, (row_keys _ _ _ u R), (wf_rev _ W), dee_iff by exact W.
    unfold directed_edge_is_soft_deleted, live, eget; destruct (dget2 (edges g) u v) as [e|]; split.
    + intros [_ D]; exists e; split; [reflexivity|]; destruct (e_del e); [discriminate|reflexivity].
    + intros (e' & [= <-] & D); split; [eauto|rewrite D; reflexivity].
    + intros [[e X] _]; discriminate.
    + intros (e & X & _); discriminate.
Qed.

Lemma parents_err g v e : WF g -> parents_of_node g v = Err e ->
  e = KeyError /\ forall u, edge_exists g u v = false.
Proof.
  intros W; unfold parents_of_node; destruct (dget (redges g) v) as [r|] eqn:R.
  - intros E; rewrite nodes_lookup_ok in E; [discriminate|].
    intros n Hn; apply filter_In in Hn; destruct Hn as [Hn _].
    apply (row_keys _ _ _ n R) in Hn; destruct Hn as [x Hx]; rewrite (wf_rev _ W) in Hx.
    destruct (wf_fwd _ W _ _ _ Hx) as (A & _); exact A.
  - intros [= <-]; split; [reflexivity|]; intros u.
    apply dget_None in R; rewrite (wf_rk _ W) in R; apply dmem_not_In in R.
    rewrite edge_exists_or; apply orb_false_iff; split; apply dee_false; auto; intros (e & E & _).
    + destruct (WF_row_v _ _ _ _ W E); congruence.
    + destruct (WF_row_v _ _ _ _ W E); congruence.
Qed.

Lemma inv0_endpoints g u v : inv0 g -> directed_edge_exists g u v = true ->
  u <> v /\ dmem (nodes g) u = true /\ dmem (nodes g) v = true.
Proof.
  intros [W _] L; apply dee_iff0 in L; destruct L as (A & B & e & E & _).
  destruct (proj2 (w0_e _ W) _ _ _ E) as (_ & _ & N); auto.
Qed.

Lemma inv0_parents g u v l : inv0 g -> parents_of_node g v = Ok l -> In u l ->
  u <> v /\ dmem (nodes g) u = true /\ dmem (nodes g) v = true.
Proof.
  intros [W _]; unfold parents_of_node; destruct (dget (redges g) v) as [r|] eqn:R; [|discriminate].
  intros E Hin; apply nodes_lookup_eq in E; destruct E as [-> Hn].
  apply filter_In in Hin; destruct Hin as [Hin _]; apply (row_keys _ _ _ u R) in Hin; destruct Hin as [x Hx].
  destruct (proj2 (w0_r _ W) _ _ _ Hx) as (A & B & C); auto.
Qed.

Lemma retrieve_aux_In g l es e : retrieve_edges_aux g l = Ok es -> In e es ->
  exists u v, In (u, v, e) l /\ directed_edge_is_soft_deleted g u v = false.
Proof.
  revert es; induction l as [|[[u v] x] l IH]; intros es; simpl; [intros [= <-]; contradiction|].
  destruct (dmem (nodes g) u && dmem (nodes g) v); [|discriminate].
  destruct (retrieve_edges_aux g l) as [t|]; simpl; [|discriminate].
  intros [= <-]; destruct (negb (directed_edge_is_soft_deleted g u v)) eqn:D.
  - intros [<-|Hin].
    + exists u, v; split; [left; reflexivity|]. destruct (directed_edge_is_soft_deleted g u v); [discriminate|reflexivity].
    + destruct (IH t eq_refl Hin) as (a & b & H1 & H2); exists a, b; split; [right; exact H1|exact H2].
  - intros Hin; destruct (IH t eq_refl Hin) as (a & b & H1 & H2); exists a, b; split; [right; exact H1|exact H2].
Qed.

(* ---------- soft remove / restore ---------- *)

Lemma set_del_id e : e_del e = false -> set_del false (set_del true e) = e.
Proof. destruct e; simpl; intros ->; reflexivity. Qed.

Lemma get_edge_eget g u v : get_edge g u v = match eget g u v with Some e => Ok e | None => Err GraphError end.
Proof. reflexivity. Qed.

Lemma live_dead_dee g u v e : eget g u v = Some (set_del true e) -> directed_edge_exists g u v = false.
Proof.
  intros E; destruct (directed_edge_exists g u v) eqn:D; [|reflexivity].
  apply dee_iff0 in D; destruct D as (_ & _ & e' & E' & D'); rewrite E in E'; injection E' as <-; discriminate.
Qed.

Lemma soft_remove_restore g u v : WF g -> undirected_edge_exists g u v = true ->
  exists g1 g2, remove_edge u v true g = (g1, Ok tt) /\ restore_edge u v g1 = (g2, Ok tt) /\
    WF g1 /\ WF g2 /\
    directed_edge_exists g1 u v = false /\ directed_edge_exists g1 v u = false /\
    (forall a b, get_edge g2 a b = get_edge g a b) /\
    (forall a b, other u v a b -> get_edge g1 a b = get_edge g a b) /\
    nodes g2 = nodes g /\ nodes g1 = nodes g.
Proof.
  intros W Hun; unfold undirected_edge_exists in Hun; apply andb_true_iff in Hun; destruct Hun as [L1 L2].
  apply dee_iff in L1; [|exact W]; apply dee_iff in L2; [|exact W].
  destruct L1 as (e & E & D); destruct L2 as (e' & E' & D').
  destruct (wf_fwd _ W _ _ _ E) as (Hu & Hv & Hne & _ & _).
  destruct (remove_edge_soft_ok g u v W Hu Hv) as (g1 & R1 & W1 & F1).
  assert (X1 : forall a b, eget g1 a b = at2 v u (Some (set_del true e')) (at2 u v (Some (set_del true e)) (eget g)) a b).
  { intros a b; rewrite (ef_get _ _ _ _ F1). unfold softd. rewrite (at2_other u v _ _ v u) by congruence. rewrite E, E'. reflexivity. }
  assert (Eu1 : eget g1 u v = Some (set_del true e)) by (rewrite X1, at2_other by congruence; apply at2_same).
  assert (Ev1 : eget g1 v u = Some (set_del true e')) by (rewrite X1; apply at2_same).
  assert (Hu1 : dmem (nodes g1) u = true) by (rewrite (ef_nodes _ _ _ _ F1); exact Hu).
  assert (Hv1 : dmem (nodes g1) v = true) by (rewrite (ef_nodes _ _ _ _ F1); exact Hv).
  destruct (restore_half_ok g1 u v W1 Hu1 Hv1) as (g2 & R2 & W2 & F2); [rewrite Eu1; reflexivity|].
  rewrite Eu1 in F2.
  assert (Ev2 : eget g2 v u = Some (set_del true e')).
  { rewrite (ef_get _ _ _ _ F2), at2_other by congruence; exact Ev1. }
  assert (Hu2 : dmem (nodes g2) u = true) by (rewrite (ef_nodes _ _ _ _ F2); exact Hu1).
  assert (Hv2 : dmem (nodes g2) v = true) by (rewrite (ef_nodes _ _ _ _ F2); exact Hv1).
  destruct (restore_half_ok g2 v u W2 Hv2 Hu2) as (g3 & R3 & W3 & F3); [rewrite Ev2; reflexivity|].
  rewrite Ev2 in F3.
  exists g1, g3; split; [exact R1|]; split.
  { unfold restore_edge. rewrite (bind_ok _ _ _ _ _ (need_node_ok _ _ Hu1)), (bind_ok _ _ _ _ _ (need_node_ok _ _ Hv1)).
    rewrite (bind_ok _ _ _ _ _ R2); exact R3. }
  split; [exact W1|]; split; [exact W3|]; split; [eapply live_dead_dee; exact Eu1|]; split; [eapply live_dead_dee; exact Ev1|].
  split; [|split; [|split]].
  - intros a b; rewrite !get_edge_eget, (ef_get _ _ _ _ F3), !set_del_id in *; try assumption.
    rewrite (at2_ext v u _ _ _ a b (ef_get _ _ _ _ F2)).
    rewrite (at2_ext v u _ _ _ a b (fun a b => at2_ext u v _ _ _ a b X1)).
    unfold at2, eget in *.
    destruct (eqb_spec a v), (eqb_spec b u), (eqb_spec a u), (eqb_spec b v); simpl; subst; rewrite ?E, ?E'; try reflexivity; congruence.
  - intros a b [O1 O2]; rewrite !get_edge_eget, X1, !at2_other by assumption; reflexivity.
  - rewrite (ef_nodes _ _ _ _ F3), (ef_nodes _ _ _ _ F2); apply (ef_nodes _ _ _ _ F1).
  - apply (ef_nodes _ _ _ _ F1).
Qed.

Lemma soft_remove_restore_directed g u v : WF g -> directed_edge_exists g u v = true ->
  exists g1 g2, remove_directed_edge u v true g = (g1, Ok tt) /\ restore_directed_edge u v g1 = (g2, Ok tt) /\
    WF g1 /\ WF g2 /\
    directed_edge_exists g1 u v = false /\
    (forall a b, get_edge g2 a b = get_edge g a b) /\
    (forall a b, (a, b) <> (u, v) -> get_edge g1 a b = get_edge g a b) /\
    nodes g2 = nodes g /\ nodes g1 = nodes g.
Proof.
  intros W L1; apply dee_iff in L1; [|exact W].
  destruct L1 as (e & E & D).
  destruct (wf_fwd _ W _ _ _ E) as (Hu & Hv & Hne & _ & _).
  destruct (remove_directed_soft_ok g u v W Hu Hv) as (g1 & R1 & W1 & F1).
  assert (X1 : forall a b, eget g1 a b = at2 u v (Some (set_del true e)) (eget g) a b).
  { intros a b; rewrite (ef_get _ _ _ _ F1). unfold softd. rewrite E. reflexivity. }
  assert (Eu1 : eget g1 u v = Some (set_del true e)) by (rewrite X1; apply at2_same).
  assert (Hu1 : dmem (nodes g1) u = true) by (rewrite (ef_nodes _ _ _ _ F1); exact Hu).
  assert (Hv1 : dmem (nodes g1) v = true) by (rewrite (ef_nodes _ _ _ _ F1); exact Hv).
  destruct (restore_directed_ok g1 u v W1 Hu1 Hv1) as (g2 & R2 & W2 & F2); [rewrite Eu1; reflexivity|].
  rewrite Eu1 in F2; simpl in F2.
  exists g1, g2; split; [exact R1|]; split; [exact R2|]; split; [exact W1|]; split; [exact W2|].
  split; [eapply live_dead_dee; exact Eu1|]. split; [|split; [|split]].
  - intros a b; rewrite !get_edge_eget, (ef_get _ _ _ _ F2), set_del_id by exact D.
    rewrite (at2_ext u v _ _ _ a b X1), at2_at2, <- E, at2_id; reflexivity.
  - intros a b O; rewrite !get_edge_eget, X1, at2_other by exact O; reflexivity.
  - rewrite (ef_nodes _ _ _ _ F2); apply (ef_nodes _ _ _ _ F1).
  - apply (ef_nodes _ _ _ _ F1).
Qed.

(* ---------- hard remove / restore ---------- *)

Lemma hard_remove_restore g u v : WF g -> undirected_edge_exists g u v = true ->
  exists g1 g2 e e', remove_edge u v false g = (g1, Ok tt) /\ restore_edge u v g1 = (g2, Ok tt) /\
    get_edge g u v = Ok e /\ get_edge g v u = Ok e' /\
    directed_edge_exists g1 u v = false /\ directed_edge_exists g1 v u = false /\
    get_edge g2 u v = Ok (mkEdge u v TUndirected (e_meta e) false) /\
    get_edge g2 v u = Ok (mkEdge v u TUndirected (e_meta e) false) /\
    (forall a b, other u v a b -> get_edge g2 a b = get_edge g a b).
Proof.
  intros W Hun; unfold undirected_edge_exists in Hun; apply andb_true_iff in Hun; destruct Hun as [L1 L2].
  apply dee_iff in L1; [|exact W]; apply dee_iff in L2; [|exact W].
  destruct L1 as (e & E & D); destruct L2 as (e' & E' & D').
  destruct (wf_fwd _ W _ _ _ E) as (Hu & Hv & Hne & _ & _).
  assert (Hs : dmem2 (edges g) u v = dmem2 (edges g) v u).
  { unfold dmem2, eget in *; rewrite E, E'; reflexivity. }
  destruct (remove_edge_hard_ok g u v W Hu Hv Hs) as (g1 & R1 & W1 & F1).
  assert (Eu1 : eget g1 u v = None) by (rewrite (ef_get _ _ _ _ F1), at2_other by congruence; apply at2_same).
  assert (Ev1 : eget g1 v u = None) by (rewrite (ef_get _ _ _ _ F1); apply at2_same).
  assert (Hu1 : dmem (nodes g1) u = true) by (rewrite (ef_nodes _ _ _ _ F1); exact Hu).
  assert (Hv1 : dmem (nodes g1) v = true) by (rewrite (ef_nodes _ _ _ _ F1); exact Hv).
  assert (Du : dget2 (dedges g1) u v = Some e).
  { rewrite (ef_del _ _ _ _ F1), at2_other, at2_same by congruence; rewrite E; reflexivity. }
  destruct (restore_half_ok g1 u v W1 Hu1 Hv1) as (g2 & R2 & W2 & F2); [rewrite Eu1, Du; reflexivity|].
  rewrite Eu1 in F2; destruct F2 as (x & Dx & F2); rewrite Du in Dx; injection Dx as <-.
  assert (Eu2 : eget g2 u v = Some (mkEdge u v TUndirected (e_meta e) false)).
  { rewrite (ef_get _ _ _ _ F2), at2_other by congruence; apply at2_same. }
  assert (Ev2 : eget g2 v u = Some (mkEdge v u TUndirected (e_meta e) false)).
  { rewrite (ef_get _ _ _ _ F2); apply at2_same. }
  assert (Hu2 : dmem (nodes g2) u = true) by (rewrite (ef_nodes _ _ _ _ F2); exact Hu1).
  assert (Hv2 : dmem (nodes g2) v = true) by (rewrite (ef_nodes _ _ _ _ F2); exact Hv1).
  destruct (restore_half_ok g2 v u W2 Hv2 Hu2) as (g3 & R3 & W3 & F3); [rewrite Ev2; reflexivity|].
  rewrite Ev2 in F3.
  exists g1, g3, e, e'; split; [exact R1|]; split.
  { unfold restore_edge. rewrite (bind_ok _ _ _ _ _ (need_node_ok _ _ Hu1)), (bind_ok _ _ _ _ _ (need_node_ok _ _ Hv1)).
    rewrite (bind_ok _ _ _ _ _ R2); exact R3. }
  rewrite !get_edge_eget, E, E'; split; [reflexivity|]; split; [reflexivity|].
  split; [apply dee_false; [exact W1|intros (y & Y & _); congruence]|].
  split; [apply dee_false; [exact W1|intros (y & Y & _); congruence]|].
  split; [|split].
  - rewrite (ef_get _ _ _ _ F3), at2_other, Eu2 by congruence; reflexivity.
  - rewrite (ef_get _ _ _ _ F3), at2_same; reflexivity.
  - intros a b [O1 O2]; rewrite !get_edge_eget, (ef_get _ _ _ _ F3), at2_other by assumption.
    rewrite (ef_get _ _ _ _ F2), !at2_other by assumption.
    rewrite (ef_get _ _ _ _ F1), !at2_other by assumption; reflexivity.
Qed.

(* ---------- purge ---------- *)

Lemma purge_dee g g' : WF g -> purge_soft_deleted_edges g = (g', Ok tt) ->
  forall u v, directed_edge_exists g' u v = directed_edge_exists g u v.
Proof.
  intros W R u v; destruct (purge_ok g W) as (g2 & R2 & W2 & _ & _ & _ & _ & G & _).
  rewrite R in R2; injection R2 as <-.
  apply eq_true_iff_eq; rewrite !dee_iff by assumption; unfold live; rewrite G.
  destruct (eget g u v) as [e|]; [destruct (e_del e) eqn:D|]; split; intros (x & X & Dx).
  - discriminate.
  - injection X as <-; congruence.
  - exists x; auto.
  - injection X as <-; exists e; auto.
  - discriminate.
  - discriminate.
Qed.

Lemma purge_spec g : WF g -> exists g', purge_soft_deleted_edges g = (g', Ok tt) /\ WF g' /\
  (forall u v, directed_edge_exists g' u v = directed_edge_exists g u v) /\
  (forall u v t, edge_of_type_exists g' u v t = edge_of_type_exists g u v t) /\
  (forall v, match parents_of_node g v, parents_of_node g' v with
             | Ok l, Ok l' => forall u, In u l <-> In u l'
             | Err _, Err _ => True
             | _, _ => False
             end) /\
  (forall u v, directed_edge_is_soft_deleted g' u v = false).
Proof.
  intros W; destruct (purge_ok g W) as (g' & R & W' & N & _ & _ & Kk & G & _).
  exists g'; split; [exact R|]; split; [exact W'|].
  assert (D := purge_dee g g' W R).
  split; [exact D|]; split; [|split].
  - intros u v t; unfold edge_of_type_exists; rewrite D.
    destruct (directed_edge_exists g u v) eqn:X; [|reflexivity]. simpl.
    apply dee_iff in X; [|exact W]; destruct X as (e & E & De).
    change (dget2 (edges g') u v) with (eget g' u v); change (dget2 (edges g) u v) with (eget g u v).
    rewrite G, E, De; reflexivity.
  - intros v; destruct (parents_of_node g v) as [l|x] eqn:P; destruct (parents_of_node g' v) as [l'|x'] eqn:P'.
    + apply parents_spec in P; [|exact W]; apply parents_spec in P'; [|exact W'].
      intros u; rewrite (proj2 P u), (proj2 P' u), D; tauto.
    + assert (Hk : forall h y, WF h -> parents_of_node h v = Err y -> dget (redges h) v = None).
      { clear; intros h y W P; assert (P' := P); unfold parents_of_node in P; destruct (dget (redges h) v) as [r|] eqn:R; [|reflexivity].
        exfalso. rewrite nodes_lookup_ok in P; [discriminate|].
        intros n Hn; apply filter_In in Hn; destruct Hn as [Hn _].
        apply (row_keys _ _ _ n R) in Hn; destruct Hn as [z Hz]; rewrite (wf_rev _ W) in Hz.
        destruct (wf_fwd _ W _ _ _ Hz) as (A & _); exact A. }
      apply (Hk g' x' W') in P'. unfold parents_of_node in P.
      apply dget_None in P'; rewrite (wf_rk _ W'), Kk, <- (wf_rk _ W) in P'.
      apply dget_None in P'; rewrite P' in P; discriminate.
    + assert (Hk : forall h y, WF h -> parents_of_node h v = Err y -> dget (redges h) v = None).
      { clear; intros h y W P; unfold parents_of_node in P; destruct (dget (redges h) v) as [r|] eqn:R; [|reflexivity].
        exfalso. rewrite nodes_lookup_ok in P; [discriminate|].
        intros n Hn; apply filter_In in Hn; destruct Hn as [Hn _].
        apply (row_keys _ _ _ n R) in Hn; destruct Hn as [z Hz]; rewrite (wf_rev _ W) in Hz.
        destruct (wf_fwd _ W _ _ _ Hz) as (A & _); exact A. }
      apply (Hk g x W) in P. unfold parents_of_node in P'.
      apply dget_None in P; rewrite (wf_rk _ W), <- Kk, <- (wf_rk _ W') in P.
      apply dget_None in P; rewrite P in P'; discriminate.
    + exact I.
  - intros u v; unfold directed_edge_is_soft_deleted.
    change (dget2 (edges g') u v) with (eget g' u v); rewrite G.
    destruct (eget g u v) as [e|]; [|reflexivity]; destruct (e_del e) eqn:De; [reflexivity|exact De].
Qed.

(* ---------- reading values ---------- *)

Lemma edge_value_live g u v : directed_edge_exists g u v = true ->
  exists e, get_edge g u v = Ok e /\ edge_value g u v = Ok (e_meta e) /\ edge_type g u v = Ok (Some (e_type e)).
Proof.
  intros L; assert (X := L); apply dee_iff0 in X; destruct X as (_ & _ & e & E & D).
  exists e; unfold get_edge, edge_value, edge_type; rewrite edge_exists_or, L; simpl.
  unfold eget in E; rewrite E; auto.
Qed.

Lemma edge_value_fail g u v : edge_exists g u v = true ->
  (edge_value g u v = Err KeyError <-> eget g u v = None) /\
  (edge_type g u v = Err KeyError <-> eget g u v = None).
Proof.
  intros L; unfold edge_value, edge_type, eget; rewrite L; simpl.
  destruct (dget2 (edges g) u v); split; split; congruence.
Qed.
