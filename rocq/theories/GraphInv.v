(* The consistency invariant of GraphManager and its preservation by every mutator. *)
From Verif Require Import Base PyDict PyDictFacts Graph GraphFacts.

Definition eget (g : graph) (u v : id) : option edge := dget2 (edges g) u v.

Record WF (g : graph) : Prop := {
  wf_nodes : NoDup (dkeys (nodes g));
  wf_e : WFd (edges g);
  wf_r : WFd (redges g);
  wf_d : WFd (dedges g);
  wf_rk : dkeys (redges g) = dkeys (edges g);
  wf_dk : dkeys (dedges g) = dkeys (edges g);
  wf_rev : forall a b, dget2 (redges g) a b = dget2 (edges g) b a;
  wf_fwd : forall u v e, eget g u v = Some e ->
      dmem (nodes g) u = true /\ dmem (nodes g) v = true /\ u <> v /\ e_u e = u /\ e_v e = v;
  wf_del : forall u v e, dget2 (dedges g) u v = Some e ->
      dmem (nodes g) u = true /\ dmem (nodes g) v = true /\ u <> v;
  wf_rows : forall u, In u (dkeys (edges g)) -> dmem (nodes g) u = true }.

Lemma WF_empty : WF empty_graph.
Proof.
  constructor; simpl; try (intros; discriminate); try apply WFd_nil; try constructor; try tauto.
Qed.

Lemma dmem_keys_eq {V W} (d : dict id V) (d' : dict id W) u :
  dkeys d = dkeys d' -> dmem d u = dmem d' u.
Proof.
  intros E; destruct (dmem d u) eqn:A; symmetry.
  - apply dmem_In in A; rewrite E in A; apply dmem_In; exact A.
  - apply dmem_not_In in A; rewrite E in A; apply dmem_not_In; exact A.
Qed.

Lemma WF_row_v g u v e : WF g -> eget g u v = Some e ->
  dmem (edges g) u = true /\ dmem (edges g) v = true.
Proof.
  intros W E; split; [eapply dget2_mem; exact E|].
  rewrite <- (dmem_keys_eq _ _ v (wf_rk _ W)).
  apply dget2_mem with (v := u) (e := e); rewrite (wf_rev _ W); exact E.
Qed.

(* Everything but the entry u -> v is the same. *)
Record pair_upd (g g' : graph) (u v : id) (x : option edge) : Prop := {
  pu_nodes : nodes g' = nodes g;
  pu_ded : dedges g' = dedges g;
  pu_eh : ehist g' = ehist g;
  pu_ah : ahist g' = ahist g;
  pu_keys : dkeys (edges g') = dkeys (edges g);
  pu_get : forall a b, eget g' a b = if eqb a u && eqb b v then x else eget g a b }.

Lemma andb_swap_eqb (a b u v : id) : eqb a u && eqb b v = eqb b v && eqb a u.
Proof. apply andb_comm. Qed.

Lemma set_pair_ok g u v e :
  WF g -> dmem (edges g) u = true -> dmem (edges g) v = true ->
  u <> v -> e_u e = u -> e_v e = v ->
  exists g', (on_edges (fun d => dset2 d u v e) ;;; on_redges (fun d => dset2 d v u e)) g = (g', Ok tt)
             /\ WF g' /\ pair_upd g g' u v (Some e).
Proof.
  intros W Hu Hv Hne Eu Ev.
  destruct (dset2_some (edges g) u v e Hu) as [d1 E1].
  assert (Hv' : dmem (redges g) v = true) by (rewrite (dmem_keys_eq _ _ v (wf_rk _ W)); exact Hv).
  destruct (dset2_some (redges g) v u e Hv') as [d2 E2].
  exists (with_redges (with_edges g d1) d2).
  assert (G1 := dset2_get _ _ _ _ _ E1). assert (G2 := dset2_get _ _ _ _ _ E2).
  split.
  { unfold bind, on_edges, on_redges; rewrite E1; simpl; rewrite E2; reflexivity. }
  split.
  - constructor; simpl.
    + apply (wf_nodes _ W).
    + eapply dset2_wf; [apply (wf_e _ W)|exact E1].
    + eapply dset2_wf; [apply (wf_r _ W)|exact E2].
    + apply (wf_d _ W).
    + rewrite (dset2_keys _ _ _ _ _ E1), (dset2_keys _ _ _ _ _ E2); apply (wf_rk _ W).
    + rewrite (dset2_keys _ _ _ _ _ E1); apply (wf_dk _ W).
    + intros a b; rewrite G1, G2, (wf_rev _ W), (andb_comm (eqb a v)); reflexivity.
    + intros a b e'; unfold eget; simpl; rewrite G1.
      destruct (eqb_spec a u) as [->|N]; [destruct (eqb_spec b v) as [->|N']|]; simpl.
      * intros [= <-]; repeat split; auto.
        -- apply (wf_rows _ W); apply dmem_In; exact Hu.
        -- apply (wf_rows _ W); apply dmem_In; exact Hv.
      * apply (wf_fwd _ W).
      * apply (wf_fwd _ W).
    + apply (wf_del _ W).
    + intros a; rewrite (dset2_keys _ _ _ _ _ E1); apply (wf_rows _ W).
  - constructor; simpl; try reflexivity.
    + apply (dset2_keys _ _ _ _ _ E1).
    + intros a b; unfold eget; simpl; apply G1.
Qed.

Lemma upd_pair_ok g u v e f :
  WF g -> eget g u v = Some e -> e_u (f e) = e_u e -> e_v (f e) = e_v e ->
  exists g', (on_edges (fun d => dupd2 d u v f) ;;; on_redges (fun d => dupd2 d v u f)) g = (g', Ok tt)
             /\ WF g' /\ pair_upd g g' u v (Some (f e)).
Proof.
  intros W E Fu Fv.
  destruct (WF_row_v _ _ _ _ W E) as [Hu Hv].
  destruct (wf_fwd _ W _ _ _ E) as (Nu & Nv & Hne & Eu & Ev).
  destruct (set_pair_ok g u v (f e) W Hu Hv Hne) as (g' & R & W' & P).
  { rewrite Fu; exact Eu. } { rewrite Fv; exact Ev. }
  exists g'; split; [|split; assumption].
  rewrite <- R. unfold bind, on_edges, on_redges, dupd2.
  unfold eget in E. rewrite E.
  destruct (dset2 (edges g) u v (f e)) as [d|]; simpl; [|reflexivity].
  rewrite (wf_rev _ W), E; reflexivity.
Qed.

Lemma del_pair_ok g u v e :
  WF g -> eget g u v = Some e ->
  exists g', (on_edges (fun d => ddel2 d u v) ;;; on_redges (fun d => ddel2 d v u)) g = (g', Ok tt)
             /\ WF g' /\ pair_upd g g' u v None.
Proof.
  intros W E.
  destruct (ddel2_some (edges g) u v e E) as [d1 E1].
  destruct (ddel2_some (redges g) v u e) as [d2 E2]; [rewrite (wf_rev _ W); exact E|].
  exists (with_redges (with_edges g d1) d2).
  assert (G1 := ddel2_get _ _ _ _ (wf_e _ W) E1). assert (G2 := ddel2_get _ _ _ _ (wf_r _ W) E2).
  split.
  { unfold bind, on_edges, on_redges; rewrite E1; simpl; rewrite E2; reflexivity. }
  split.
  - constructor; simpl.
    + apply (wf_nodes _ W).
    + eapply ddel2_wf; [apply (wf_e _ W)|exact E1].
    + eapply ddel2_wf; [apply (wf_r _ W)|exact E2].
    + apply (wf_d _ W).
    + rewrite (ddel2_keys _ _ _ _ E1), (ddel2_keys _ _ _ _ E2); apply (wf_rk _ W).
    + rewrite (ddel2_keys _ _ _ _ E1); apply (wf_dk _ W).
    + intros a b; rewrite G1, G2, (wf_rev _ W), (andb_comm (eqb a v)); reflexivity.
    + intros a b e'; unfold eget; simpl; rewrite G1.
      destruct (eqb a u && eqb b v); [discriminate|]; apply (wf_fwd _ W).
    + apply (wf_del _ W).
    + intros a; rewrite (ddel2_keys _ _ _ _ E1); apply (wf_rows _ W).
  - constructor; simpl; try reflexivity.
    + apply (ddel2_keys _ _ _ _ E1).
    + intros a b; unfold eget; simpl; apply G1.
Qed.

(* ---------- initialisation of rows ---------- *)

(* Same edges, nodes, action history; rows and edge histories may have been initialised. *)
Record init_upd (g g' : graph) : Prop := {
  iu_nodes : nodes g' = nodes g;
  iu_ah : ahist g' = ahist g;
  iu_ded : forall a b, dget2 (dedges g') a b = dget2 (dedges g) a b;
  iu_get : forall a b, eget g' a b = eget g a b;
  iu_keys : forall a, dmem (edges g) a = true -> dmem (edges g') a = true;
  iu_eh : forall p, dget (ehist g') p = dget (ehist g) p \/
                    (dget (ehist g) p = None /\ dget (ehist g') p = Some []) }.

Lemma init_upd_refl g : init_upd g g.
Proof. constructor; auto. Qed.

Lemma init_upd_trans g1 g2 g3 : init_upd g1 g2 -> init_upd g2 g3 -> init_upd g1 g3.
Proof.
  intros [A1 A2 A3 A4 A5 A6] [B1 B2 B3 B4 B5 B6]; constructor; try congruence; auto.
  - intros p; destruct (A6 p) as [X|[X Y]]; destruct (B6 p) as [Z|[Z T]].
    + left; congruence.
    + right; split; congruence.
    + right; split; congruence.
    + congruence.
Qed.

Lemma init_entry_ok g u : WF g -> dmem (nodes g) u = true ->
  WF (init_entry u g) /\ init_upd g (init_entry u g) /\ dmem (edges (init_entry u g)) u = true.
Proof.
  intros W Hn; unfold init_entry; destruct (dmem (edges g) u) eqn:E.
  - split; [exact W|split; [apply init_upd_refl|exact E]].
  - assert (Er : dmem (redges g) u = false) by (rewrite (dmem_keys_eq _ _ u (wf_rk _ W)); exact E).
    assert (Ed : dmem (dedges g) u = false) by (rewrite (dmem_keys_eq _ _ u (wf_dk _ W)); exact E).
    assert (Ge := dset_nil_get _ _ E). assert (Gr := dset_nil_get _ _ Er). assert (Gd := dset_nil_get _ _ Ed).
    apply dmem_not_In in E; apply dmem_not_In in Er; apply dmem_not_In in Ed.
    split; [|split].
    + constructor; simpl.
      * apply (wf_nodes _ W).
      * apply dset_nil_wf, (wf_e _ W).
      * apply dset_nil_wf, (wf_r _ W).
      * apply dset_nil_wf, (wf_d _ W).
      * rewrite !dkeys_dset_notin by assumption; rewrite (wf_rk _ W); reflexivity.
      * rewrite !dkeys_dset_notin by assumption; rewrite (wf_dk _ W); reflexivity.
      * intros a b; rewrite Gr, Ge; apply (wf_rev _ W).
      * intros a b e; unfold eget; simpl; rewrite Ge; apply (wf_fwd _ W).
      * intros a b e; rewrite Gd; apply (wf_del _ W).
      * intros a; rewrite In_dkeys_dset; intros [->|Ha]; [exact Hn|apply (wf_rows _ W); exact Ha].
    + constructor; simpl; try reflexivity; auto.
      intros a Ha; apply dmem_In in Ha; apply dmem_In, In_dkeys_dset; auto.
    + simpl; apply dmem_In, In_dkeys_dset; auto.
Qed.

Lemma init_hist_ok g u v : WF g -> WF (init_hist u v g) /\ init_upd g (init_hist u v g).
Proof.
  intros W; unfold init_hist; destruct (dmem (ehist g) (u, v)) eqn:E.
  - split; [exact W|apply init_upd_refl].
  - split.
    + destruct W; constructor; assumption.
    + constructor; simpl; auto.
      intros p; rewrite dget_dset; destruct (eqb_spec p (u, v)) as [->|N]; [right|left; reflexivity].
      split; [|reflexivity]. apply dget_None; apply dmem_not_In; exact E.
Qed.

Lemma init_edge_ok g u v : WF g -> dmem (nodes g) u = true -> dmem (nodes g) v = true ->
  exists g', init_edge u v g = (g', Ok tt) /\ WF g' /\ init_upd g g' /\
             dmem (edges g') u = true /\ dmem (edges g') v = true.
Proof.
  intros W Hu Hv; eexists; split; [reflexivity|].
  destruct (init_entry_ok g u W Hu) as (W1 & I1 & K1).
  assert (Hv1 : dmem (nodes (init_entry u g)) v = true) by (rewrite (iu_nodes _ _ I1); exact Hv).
  destruct (init_entry_ok _ v W1 Hv1) as (W2 & I2 & K2).
  destruct (init_hist_ok _ u v W2) as (W3 & I3).
  destruct (init_hist_ok _ v u W3) as (W4 & I4).
  split; [exact W4|].
  assert (I34 := init_upd_trans _ _ _ I3 I4).
  assert (I24 := init_upd_trans _ _ _ I2 I34).
  split; [exact (init_upd_trans _ _ _ I1 I24)|].
  split; [apply (iu_keys _ _ I24); exact K1 | apply (iu_keys _ _ I34); exact K2].
Qed.

(* ---------- composition ---------- *)

Lemma bind_ok {A B} (m : ST A) (k : A -> ST B) g g' a :
  m g = (g', Ok a) -> bind m k g = k a g'.
Proof. intros E; unfold bind; rewrite E; reflexivity. Qed.

Lemma bind_err {A B} (m : ST A) (k : A -> ST B) g g' e :
  m g = (g', Err e) -> bind m k g = (g', Err e).
Proof. intros E; unfold bind; rewrite E; reflexivity. Qed.

Lemma bind_assoc {A B C} (m : ST A) (k : A -> ST B) (h : B -> ST C) g :
  bind (bind m k) h g = bind m (fun a => bind (k a) h) g.
Proof. unfold bind; destruct (m g) as [g' [a|e]]; reflexivity. Qed.

Lemma need_node_ok g u : dmem (nodes g) u = true -> need_node u g = (g, Ok tt).
Proof. unfold need_node; intros ->; reflexivity. Qed.
Lemma need_node_err g u : dmem (nodes g) u = false -> need_node u g = (g, Err GraphError).
Proof. unfold need_node; intros ->; reflexivity. Qed.

(* Effect of an edge mutator on the view (nodes, entries, deleted store, histories). *)
Record eff (g g' : graph) (f : id -> id -> option edge) (del : id -> id -> option edge) : Prop := {
  ef_nodes : nodes g' = nodes g;
  ef_ah : ahist g' = ahist g;
  ef_get : forall a b, eget g' a b = f a b;
  ef_del : forall a b, dget2 (dedges g') a b = del a b;
  ef_keys : forall a, dmem (edges g) a = true -> dmem (edges g') a = true;
  ef_eh : forall p, dget (ehist g') p = dget (ehist g) p \/
                    (dget (ehist g) p = None /\ dget (ehist g') p = Some []) }.

Definition at2 (u v : id) (x : option edge) (f : id -> id -> option edge) (a b : id) : option edge :=
  if eqb a u && eqb b v then x else f a b.

Lemma eff_refl g : eff g g (eget g) (dget2 (dedges g)).
Proof. constructor; auto. Qed.

(* add_directed_edge *)
Lemma add_directed_edge_ok g u v md t :
  WF g -> dmem (nodes g) u = true -> dmem (nodes g) v = true -> u <> v ->
  exists g', add_directed_edge u v md t g = (g', Ok tt) /\ WF g' /\
    eff g g' (at2 u v (Some (mkEdge u v t md false)) (eget g)) (dget2 (dedges g)).
Proof.
  intros W Hu Hv N; unfold add_directed_edge.
  rewrite (bind_ok _ _ _ _ _ (need_node_ok _ _ Hu)), (bind_ok _ _ _ _ _ (need_node_ok _ _ Hv)).
  rewrite (eqb_neq _ _ N).
  rewrite (bind_ok _ _ _ g tt) by reflexivity.
  destruct (init_edge_ok g u v W Hu Hv) as (g1 & R1 & W1 & I1 & K1 & K2).
  rewrite (bind_ok _ _ _ _ _ R1).
  destruct (set_pair_ok g1 u v (mkEdge u v t md false) W1 K1 K2 N eq_refl eq_refl) as (g2 & R2 & W2 & P2).
  exists g2; split; [exact R2|]; split; [exact W2|].
  destruct I1, P2; constructor; [congruence|congruence| | | |].
  - intros a b; unfold at2; rewrite pu_get0; destruct (eqb a u && eqb b v); auto.
  - intros a b; rewrite pu_ded0; apply iu_ded0.
  - intros a Ha; rewrite (dmem_keys_eq _ _ a pu_keys0); auto.
  - rewrite pu_eh0; assumption.
Qed.

(* add_edge *)
Lemma add_edge_ok g u v md t :
  WF g -> dmem (nodes g) u = true -> dmem (nodes g) v = true -> u <> v ->
  exists g', add_edge u v md t g = (g', Ok tt) /\ WF g' /\
    eff g g' (at2 v u (Some (mkEdge v u t md false)) (at2 u v (Some (mkEdge u v t md false)) (eget g)))
        (dget2 (dedges g)).
Proof.
  intros W Hu Hv N; unfold add_edge.
  rewrite (bind_ok _ _ _ _ _ (need_node_ok _ _ Hu)), (bind_ok _ _ _ _ _ (need_node_ok _ _ Hv)).
  rewrite (eqb_neq _ _ N).
  rewrite (bind_ok _ _ _ g tt) by reflexivity.
  destruct (init_edge_ok g u v W Hu Hv) as (g1 & R1 & W1 & I1 & K1 & K2).
  rewrite (bind_ok _ _ _ _ _ R1).
  destruct (set_pair_ok g1 u v (mkEdge u v t md false) W1 K1 K2 N eq_refl eq_refl) as (g2 & R2 & W2 & P2).
  assert (K1' : dmem (edges g2) u = true) by (rewrite (dmem_keys_eq _ _ u (pu_keys _ _ _ _ _ P2)); exact K1).
  assert (K2' : dmem (edges g2) v = true) by (rewrite (dmem_keys_eq _ _ v (pu_keys _ _ _ _ _ P2)); exact K2).
  assert (N' : v <> u) by congruence.
  destruct (set_pair_ok g2 v u (mkEdge v u t md false) W2 K2' K1' N' eq_refl eq_refl) as (g3 & R3 & W3 & P3).
  exists g3; split.
  - cbv zeta. rewrite <- bind_assoc. rewrite (bind_ok _ _ _ _ _ R2). exact R3.
  - split; [exact W3|].
    destruct I1, P2, P3; constructor; [congruence|congruence| | | |].
    + intros a b; unfold at2; rewrite pu_get1, pu_get0, iu_get0; reflexivity.
    + intros a b; rewrite pu_ded1, pu_ded0; apply iu_ded0.
    + intros a Ha; rewrite (dmem_keys_eq _ _ a pu_keys1), (dmem_keys_eq _ _ a pu_keys0); auto.
    + rewrite pu_eh1, pu_eh0; assumption.
Qed.

Lemma add_edge_reject g u v md t :
  dmem (nodes g) u = false \/ dmem (nodes g) v = false \/ u = v ->
  add_edge u v md t g = (g, Err GraphError) /\ add_directed_edge u v md t g = (g, Err GraphError).
Proof.
  intros Hr; unfold add_edge, add_directed_edge.
  destruct (dmem (nodes g) u) eqn:Hu.
  - rewrite !(bind_ok _ _ _ _ _ (need_node_ok _ _ Hu)).
    destruct (dmem (nodes g) v) eqn:Hv.
    + destruct Hr as [X|[X|X]]; try discriminate; subst v.
      rewrite !(bind_ok _ _ _ _ _ (need_node_ok _ _ Hv)), eqb_refl; split; reflexivity.
    + rewrite !(bind_err _ _ _ _ _ (need_node_err _ _ Hv)); split; reflexivity.
  - rewrite !(bind_err _ _ _ _ _ (need_node_err _ _ Hu)); split; reflexivity.
Qed.

(* soft_flag, upd2 *)
Lemma soft_flag_ok g u v e b : WF g -> eget g u v = Some e ->
  exists g', soft_flag u v b g = (g', Ok tt) /\ WF g' /\ pair_upd g g' u v (Some (set_del b e)).
Proof. intros W E; apply upd_pair_ok; auto. Qed.

Lemma pair_upd_eff g g' u v x : pair_upd g g' u v x -> eff g g' (at2 u v x (eget g)) (dget2 (dedges g)).
Proof.
  intros [A B C D E F]; constructor; auto.
  - intros; rewrite B; reflexivity.
  - intros a Ha; rewrite (dmem_keys_eq _ _ a E); exact Ha.
  - intros p; left; rewrite C; reflexivity.
Qed.

Lemma eff_trans g1 g2 g3 f2 d2 f3 d3 : eff g1 g2 f2 d2 -> eff g2 g3 f3 d3 -> eff g1 g3 f3 d3.
Proof.
  intros [A1 A2 A3 A4 A5 A6] [B1 B2 B3 B4 B5 B6]; constructor; [congruence|congruence|auto|auto|auto|].
  intros p; destruct (A6 p) as [X|[X Y]]; destruct (B6 p) as [Z|[Z T]].
  - left; congruence.
  - right; split; congruence.
  - right; split; congruence.
  - congruence.
Qed.

Lemma eff_ext g g' f f' d d' : eff g g' f d -> (forall a b, f a b = f' a b) ->
  (forall a b, d a b = d' a b) -> eff g g' f' d'.
Proof. intros [A B C D E F] Hf Hd; constructor; auto; intros; [rewrite C|rewrite D]; auto. Qed.
