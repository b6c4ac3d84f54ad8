(* Facts that hold for every operation sequence, including sequences that leave the two edge
   indexes inconsistent: endpoints, locality, append-only history, atomic rejection. *)
From Verif Require Import Base PyDict PyDictFacts Graph GraphFacts GraphInv GraphInv2.

Definition okd (n : dict id node) (d : dict2) : Prop :=
  WFd d /\ forall u v e, dget2 d u v = Some e -> dmem n u = true /\ dmem n v = true /\ u <> v.

Record WF0 (g : graph) : Prop := {
  w0_n : NoDup (dkeys (nodes g));
  w0_e : okd (nodes g) (edges g);
  w0_r : okd (nodes g) (redges g);
  w0_d : okd (nodes g) (dedges g) }.

Lemma WF0_empty : WF0 empty_graph.
Proof. constructor; simpl; [constructor| | |]; (split; [apply WFd_nil|intros; discriminate]). Qed.

Lemma WF_WF0 g : WF g -> WF0 g.
Proof.
  intros W; constructor.
  - apply (wf_nodes _ W).
  - split; [apply (wf_e _ W)|]. intros u v e E; destruct (wf_fwd _ W u v e E) as (A & B & C & _); auto.
  - split; [apply (wf_r _ W)|]. intros u v e E; rewrite (wf_rev _ W) in E.
    destruct (wf_fwd _ W v u e E) as (A & B & C & _); auto.
  - split; [apply (wf_d _ W)|]. intros u v e E; destruct (wf_del _ W u v e E) as (A & B & C); auto.
Qed.

Definition other (u v a b : id) : Prop := (a, b) <> (u, v) /\ (a, b) <> (v, u).

(* nothing but the pair {u,v} changes; histories grow by appending *)
Record loc (u v : id) (g g' : graph) : Prop := {
  lc_n : nodes g' = nodes g;
  lc_ah : ahist g' = ahist g;
  lc_e : forall a b, other u v a b -> dget2 (edges g') a b = dget2 (edges g) a b;
  lc_r : forall a b, other u v a b -> dget2 (redges g') a b = dget2 (redges g) a b;
  lc_d : forall a b, other u v a b -> dget2 (dedges g') a b = dget2 (dedges g) a b;
  lc_h : forall a b, other u v a b -> dget (ehist g') (a, b) = dget (ehist g) (a, b);
  lc_app : forall p l, dget (ehist g) p = Some l -> exists l', dget (ehist g') p = Some (l ++ l') }.

Definition stepR (u v : id) (g g' : graph) : Prop := WF0 g' /\ loc u v g g'.

Lemma loc_refl u v g : loc u v g g.
Proof. constructor; auto. intros p l E; exists []; rewrite app_nil_r; exact E. Qed.

Lemma loc_trans u v g1 g2 g3 : loc u v g1 g2 -> loc u v g2 g3 -> loc u v g1 g3.
Proof.
  intros [A1 A2 A3 A4 A5 A6 A7] [B1 B2 B3 B4 B5 B6 B7]; constructor.
  - congruence.
  - congruence.
  - intros a b O; rewrite B3, A3 by exact O; reflexivity.
  - intros a b O; rewrite B4, A4 by exact O; reflexivity.
  - intros a b O; rewrite B5, A5 by exact O; reflexivity.
  - intros a b O; rewrite B6, A6 by exact O; reflexivity.
  - intros p l E; destruct (A7 p l E) as [l1 E1]; destruct (B7 p _ E1) as [l2 E2].
    exists (l1 ++ l2); rewrite app_assoc; exact E2.
Qed.

Lemma loc_sym u v g g' : loc u v g g' -> loc v u g g'.
Proof.
  intros [A1 A2 A3 A4 A5 A6 A7]; constructor; auto; intros a b [O1 O2]; auto;
    [apply A3|apply A4|apply A5|apply A6]; split; assumption.
Qed.

Lemma stepR_sym u v g g' : stepR u v g g' -> stepR v u g g'.
Proof. intros [A B]; split; [exact A|apply loc_sym; exact B]. Qed.

Lemma stepR_refl u v g : WF0 g -> stepR u v g g.
Proof. intros W; split; [exact W|apply loc_refl]. Qed.

Lemma stepR_trans u v g1 g2 g3 : stepR u v g1 g2 -> stepR u v g2 g3 -> stepR u v g1 g3.
Proof. intros [_ A] [W B]; split; [exact W|eapply loc_trans; eassumption]. Qed.

Lemma bind_step {A B} u v (m : ST A) (k : A -> ST B) g :
  stepR u v g (fst (m g)) ->
  (forall a g', m g = (g', Ok a) -> WF0 g' -> nodes g' = nodes g -> stepR u v g' (fst (k a g'))) ->
  stepR u v g (fst (bind m k g)).
Proof.
  intros S1 S2; unfold bind; destruct (m g) as [g' [a|e]] eqn:E; simpl in S1; [|exact S1].
  eapply stepR_trans; [exact S1|]. apply S2; [reflexivity|apply S1|apply (lc_n _ _ _ _ (proj2 S1))].
Qed.

Lemma need_node_step {B} u v w (k : unit -> ST B) g : WF0 g ->
  (dmem (nodes g) w = true -> stepR u v g (fst (k tt g))) ->
  stepR u v g (fst (bind (need_node w) k g)).
Proof.
  intros W S; unfold bind, need_node; destruct (dmem (nodes g) w); simpl; [auto|apply stepR_refl; exact W].
Qed.

Lemma other_sym u v a b : other u v a b -> other u v b a.
Proof. intros [A B]; split; congruence. Qed.

Lemma other_off u v a b : other u v a b -> eqb a u && eqb b v = false.
Proof.
  intros [A B]; destruct (eqb_spec a u) as [->|]; [destruct (eqb_spec b v) as [->|]|]; simpl; congruence.
Qed.

Lemma okd_dset2 n d u v e d' : okd n d -> dmem n u = true -> dmem n v = true -> u <> v ->
  dset2 d u v e = Some d' -> okd n d'.
Proof.
  intros [W O] Hu Hv Hne E; split; [eapply dset2_wf; eassumption|].
  intros a b x; rewrite (dset2_get _ _ _ _ _ E).
  destruct (eqb_spec a u) as [->|]; [destruct (eqb_spec b v) as [->|]|]; simpl; auto; apply O.
Qed.

Lemma okd_ddel2 n d u v d' : okd n d -> ddel2 d u v = Some d' -> okd n d'.
Proof.
  intros [W O] E; split; [eapply ddel2_wf; eassumption|].
  intros a b x; rewrite (ddel2_get _ _ _ _ W E).
  destruct (eqb a u && eqb b v); [discriminate|apply O].
Qed.

Lemma okd_dupd2 n d u v f d' : okd n d -> dupd2 d u v f = Some d' -> okd n d'.
Proof.
  intros [W O] E; unfold dupd2 in E; destruct (dget2 d u v) as [e|] eqn:G; [|discriminate].
  destruct (O _ _ _ G) as (A & B & C).
  exact (okd_dset2 n d u v (f e) d' (conj W O) A B C E).
Qed.

(* a primitive update of one of the three indexes at u,v *)
Definition dlocal (n : dict id node) (u v : id) (f : dict2 -> option dict2) : Prop :=
  forall d d', okd n d -> f d = Some d' -> okd n d' /\ forall a b, other u v a b -> dget2 d' a b = dget2 d a b.

Lemma dlocal_set n u v e : dmem n u = true -> dmem n v = true -> u <> v -> dlocal n u v (fun d => dset2 d u v e).
Proof.
  intros Hu Hv Hne d d' O E; split; [exact (okd_dset2 n d u v e d' O Hu Hv Hne E)|].
  intros a b Oth; rewrite (dset2_get _ _ _ _ _ E), (other_off _ _ _ _ Oth); reflexivity.
Qed.

Lemma dlocal_del n u v : dlocal n u v (fun d => ddel2 d u v).
Proof.
  intros d d' O E; split; [eapply okd_ddel2; eassumption|].
  intros a b Oth; rewrite (ddel2_get _ _ _ _ (proj1 O) E), (other_off _ _ _ _ Oth); reflexivity.
Qed.

Lemma dlocal_upd n u v f : dlocal n u v (fun d => dupd2 d u v f).
Proof.
  intros d d' O E; split; [eapply okd_dupd2; eassumption|].
  intros a b Oth; unfold dupd2 in E; destruct (dget2 d u v) as [e|]; [|discriminate].
  rewrite (dset2_get _ _ _ _ _ E), (other_off _ _ _ _ Oth); reflexivity.
Qed.

Lemma dlocal_swap n u v f : dlocal n v u f -> dlocal n u v f.
Proof.
  intros Hd d d' O E; destruct (Hd d d' O E) as [A B]; split; [exact A|].
  intros a b [O1 O2]; apply B; split; assumption.
Qed.

Lemma app_self g : forall p l, dget (ehist g) p = Some l -> exists l', dget (ehist g) p = Some (l ++ l').
Proof. intros p l E; exists []; rewrite app_nil_r; exact E. Qed.

Lemma on_edges_step u v f g : WF0 g -> dlocal (nodes g) u v f -> stepR u v g (fst (on_edges f g)).
Proof.
  intros W Hd; unfold on_edges; destruct (f (edges g)) as [d|] eqn:E; [|apply stepR_refl; exact W].
  destruct (Hd _ _ (w0_e _ W) E) as [A B]; simpl; split.
  - destruct W; constructor; assumption.
  - constructor; simpl; auto using app_self.
Qed.

Lemma on_redges_step u v f g : WF0 g -> dlocal (nodes g) u v f -> stepR u v g (fst (on_redges f g)).
Proof.
  intros W Hd; unfold on_redges; destruct (f (redges g)) as [d|] eqn:E; [|apply stepR_refl; exact W].
  destruct (Hd _ _ (w0_r _ W) E) as [A B]; simpl; split.
  - destruct W; constructor; assumption.
  - constructor; simpl; auto using app_self.
Qed.

Lemma on_dedges_step u v f g : WF0 g -> dlocal (nodes g) u v f -> stepR u v g (fst (on_dedges f g)).
Proof.
  intros W Hd; unfold on_dedges; destruct (f (dedges g)) as [d|] eqn:E; [|apply stepR_refl; exact W].
  destruct (Hd _ _ (w0_d _ W) E) as [A B]; simpl; split.
  - destruct W; constructor; assumption.
  - constructor; simpl; auto using app_self.
Qed.

Lemma bind_end u v (m1 m2 : ST unit) g :
  stepR u v g (fst (m1 g)) ->
  (forall g', WF0 g' -> nodes g' = nodes g -> stepR u v g' (fst (m2 g'))) ->
  stepR u v g (fst (bind m1 (fun _ => m2) g)).
Proof. intros A B; apply bind_step; [exact A|intros; auto]. Qed.

Lemma soft_flag_step u v b g : WF0 g -> stepR u v g (fst (soft_flag u v b g)).
Proof.
  intros W; unfold soft_flag; apply bind_end.
  - apply on_edges_step; [exact W|apply dlocal_upd].
  - intros g' W' E; apply on_redges_step; [exact W'|apply dlocal_swap, dlocal_upd].
Qed.

Lemma okd_more_keys n d u : okd n d -> dmem d u = false -> okd n (dset d u []).
Proof.
  intros [W O] Hm; split; [apply dset_nil_wf; exact W|].
  intros a b e; rewrite dset_nil_get by exact Hm; apply O.
Qed.

(* On inconsistent graphs the rows of the two indexes still agree as key sets. *)
Definition samekeys (g : graph) : Prop :=
  dkeys (redges g) = dkeys (edges g) /\ dkeys (dedges g) = dkeys (edges g).

Lemma init_edge_step u v w z g : WF0 g -> samekeys g -> (w = u /\ z = v) \/ (w = v /\ z = u) ->
  stepR u v g (fst (init_edge w z g)).
Proof.
  intros W K Hwz; unfold init_edge; cbv [fst].
  assert (E1 : forall x g, WF0 g -> samekeys g -> stepR u v g (init_entry x g) /\ samekeys (init_entry x g)).
  { clear; intros x g W [K1 K2]; unfold init_entry; destruct (dmem (edges g) x) eqn:E.
    - split; [apply stepR_refl; exact W|split; assumption].
    - assert (Er : dmem (redges g) x = false) by (rewrite (dmem_keys_eq _ _ x K1); exact E).
      assert (Ed : dmem (dedges g) x = false) by (rewrite (dmem_keys_eq _ _ x K2); exact E).
      split; [split|split]; simpl.
      + destruct W; constructor; simpl; auto using okd_more_keys.
      + constructor; simpl; auto using app_self; intros; apply dset_nil_get; assumption.
      + apply dmem_not_In in E; apply dmem_not_In in Er; rewrite !dkeys_dset_notin by assumption; congruence.
      + apply dmem_not_In in E; apply dmem_not_In in Ed; rewrite !dkeys_dset_notin by assumption; congruence. }
  assert (E2 : forall w z g, (w = u /\ z = v) \/ (w = v /\ z = u) -> WF0 g -> stepR u v g (init_hist w z g)).
  { clear; intros w z g Hwz W; unfold init_hist; destruct (dmem (ehist g) (w, z)) eqn:E; [apply stepR_refl; exact W|].
    split; [destruct W; constructor; assumption|].
    constructor; simpl; auto.
    - intros a b [O1 O2]; apply dget_dset_other; destruct Hwz as [[-> ->]|[-> ->]]; congruence.
    - intros p l Ep; exists []; rewrite app_nil_r, dget_dset_other; [exact Ep|].
      intros ->; apply dmem_not_In, dget_None in E; congruence. }
  destruct (E1 w g W K) as [S1 K1].
  destruct (E1 z _ (proj1 S1) K1) as [S2 K2].
  eapply stepR_trans; [exact S1|]. eapply stepR_trans; [exact S2|].
  eapply stepR_trans; [apply (E2 w z); [exact Hwz|apply S2]|].
  apply E2; [tauto|]. apply (E2 w z); [exact Hwz|apply S2].
Qed.

(* samekeys is kept by every primitive *)
Lemma on_edges_sk (f : dict2 -> option dict2) g : (forall d d', f d = Some d' -> dkeys d' = dkeys d) -> samekeys g -> samekeys (fst (on_edges f g)).
Proof. intros Hf [A B]; unfold on_edges; destruct (f (edges g)) eqn:E; [|split; assumption]; apply Hf in E; split; simpl; congruence. Qed.
Lemma on_redges_sk (f : dict2 -> option dict2) g : (forall d d', f d = Some d' -> dkeys d' = dkeys d) -> samekeys g -> samekeys (fst (on_redges f g)).
Proof. intros Hf [A B]; unfold on_redges; destruct (f (redges g)) eqn:E; [|split; assumption]; apply Hf in E; split; simpl; congruence. Qed.
Lemma on_dedges_sk (f : dict2 -> option dict2) g : (forall d d', f d = Some d' -> dkeys d' = dkeys d) -> samekeys g -> samekeys (fst (on_dedges f g)).
Proof. intros Hf [A B]; unfold on_dedges; destruct (f (dedges g)) eqn:E; [|split; assumption]; apply Hf in E; split; simpl; congruence. Qed.
Lemma init_edge_sk u v g : samekeys g -> samekeys (fst (init_edge u v g)).
Proof.
  assert (E1 : forall x g, samekeys g -> samekeys (init_entry x g)).
  { clear; intros x g [K1 K2]; unfold init_entry; destruct (dmem (edges g) x) eqn:E; [split; assumption|].
    assert (Er : dmem (redges g) x = false) by (rewrite (dmem_keys_eq _ _ x K1); exact E).
    assert (Ed : dmem (dedges g) x = false) by (rewrite (dmem_keys_eq _ _ x K2); exact E).
    apply dmem_not_In in E; apply dmem_not_In in Er; apply dmem_not_In in Ed.
    split; simpl; rewrite !dkeys_dset_notin by assumption; congruence. }
  assert (E2 : forall x y g, samekeys g -> samekeys (init_hist x y g)).
  { clear; intros x y g K; unfold init_hist; destruct (dmem (ehist g) (x, y)); [exact K|]; destruct K; split; assumption. }
  intros K; simpl; auto.
Qed.

Lemma bind_sk {A B} (m : ST A) (k : A -> ST B) g :
  samekeys (fst (m g)) -> (forall a g', m g = (g', Ok a) -> samekeys g' -> samekeys (fst (k a g'))) ->
  samekeys (fst (bind m k g)).
Proof. intros K1 K2; unfold bind; destruct (m g) as [g' [a|e]] eqn:E; simpl in K1; [apply K2; auto|exact K1]. Qed.

Lemma need_node_fst u g : fst (need_node u g) = g.
Proof. unfold need_node; destruct (dmem (nodes g) u); reflexivity. Qed.

Ltac sk :=
  repeat first
    [ assumption
    | apply bind_sk; [|intros ? ? ? ?]
    | rewrite need_node_fst
    | apply on_edges_sk; [intros ? ?; first [apply dset2_keys|apply ddel2_keys|apply dupd2_keys]|]
    | apply on_redges_sk; [intros ? ?; first [apply dset2_keys|apply ddel2_keys|apply dupd2_keys]|]
    | apply on_dedges_sk; [intros ? ?; first [apply dset2_keys|apply ddel2_keys|apply dupd2_keys]|]
    | apply init_edge_sk
    | match goal with
      | |- samekeys (fst ((if ?b then _ else _) _)) => destruct b
      | |- samekeys (fst ((match ?b with _ => _ end) _)) => destruct b
      end
    | progress (unfold gget, ret, raise; simpl fst) ].

Lemma add_edge_sk u v md t g : samekeys g -> samekeys (fst (add_edge u v md t g)).
Proof. intros K; unfold add_edge; cbv zeta; sk. Qed.
Lemma add_directed_edge_sk u v md t g : samekeys g -> samekeys (fst (add_directed_edge u v md t g)).
Proof. intros K; unfold add_directed_edge; cbv zeta; sk. Qed.
Lemma remove_directed_edge_sk u v s g : samekeys g -> samekeys (fst (remove_directed_edge u v s g)).
Proof. intros K; unfold remove_directed_edge, soft_flag; sk. Qed.
Lemma restore_half_sk u v g : samekeys g -> samekeys (fst (restore_half u v g)).
Proof. intros K; unfold restore_half, soft_flag; sk. Qed.
Lemma remove_all_sk l g : samekeys g -> samekeys (fst (remove_all_directed l g)).
Proof.
  revert g; induction l as [|[u v] l IH]; intros g K; simpl; [exact K|].
  apply bind_sk; [apply remove_directed_edge_sk; exact K|intros; auto].
Qed.

Lemma run_op_sk o g : samekeys g -> samekeys (fst (run_op o g)).
Proof.
  intros K; destruct o; simpl run_op.
  - unfold add_node; destruct (dmem (nodes g) i); [exact K|]; destruct vals; [|exact K]; destruct K; split; assumption.
  - apply add_edge_sk; exact K.
  - apply add_directed_edge_sk; exact K.
  - unfold remove_edge, soft_flag; sk.
  - unfold restore_edge. apply bind_sk; [rewrite need_node_fst; exact K|intros].
    apply bind_sk; [rewrite need_node_fst; assumption|intros].
    apply bind_sk; [apply restore_half_sk; assumption|intros; apply restore_half_sk; assumption].
  - apply remove_directed_edge_sk; exact K.
  - unfold restore_directed_edge, soft_flag; sk.
  - unfold update_edge, upd4; sk.
  - unfold update_directed_edge, upd2; sk.
  - unfold purge_soft_deleted_edges; sk. apply remove_all_sk; assumption.
  - destruct K; split; assumption.
Qed.

(* ---------- every operation ---------- *)

Definition inv0 (g : graph) : Prop := WF0 g /\ samekeys g.

Lemma add_directed_edge_step u v md t g : WF0 g -> samekeys g -> stepR u v g (fst (add_directed_edge u v md t g)).
Proof.
  intros W K; unfold add_directed_edge.
  apply need_node_step; [exact W|intros Hu]. apply need_node_step; [exact W|intros Hv].
  destruct (eqb_spec u v) as [->|N]; [apply stepR_refl; exact W|].
  rewrite (bind_ok _ _ g g tt) by reflexivity. cbv zeta.
  apply bind_end; [apply init_edge_step; auto|intros g1 W1 N1].
  apply bind_end; [apply on_edges_step; [exact W1|apply dlocal_set; congruence]|intros g2 W2 N2].
  apply on_redges_step; [exact W2|apply dlocal_swap, dlocal_set; congruence].
Qed.

Lemma add_edge_step u v md t g : WF0 g -> samekeys g -> stepR u v g (fst (add_edge u v md t g)).
Proof.
  intros W K; unfold add_edge.
  apply need_node_step; [exact W|intros Hu]. apply need_node_step; [exact W|intros Hv].
  destruct (eqb_spec u v) as [->|N]; [apply stepR_refl; exact W|].
  rewrite (bind_ok _ _ g g tt) by reflexivity. cbv zeta.
  apply bind_end; [apply init_edge_step; auto|intros g1 W1 N1].
  apply bind_end; [apply on_edges_step; [exact W1|apply dlocal_set; congruence]|intros g2 W2 N2].
  apply bind_end; [apply on_redges_step; [exact W2|apply dlocal_swap, dlocal_set; congruence]|intros g3 W3 N3].
  apply bind_end; [apply on_edges_step; [exact W3|apply dlocal_swap, dlocal_set; congruence]|intros g4 W4 N4].
  apply on_redges_step; [exact W4|apply dlocal_set; congruence].
Qed.

Lemma gget_step {B} u v (k : graph -> ST B) g : stepR u v g (fst (k g g)) -> stepR u v g (fst (bind gget k g)).
Proof. intros S; exact S. Qed.

Lemma remove_directed_edge_step u v s g : WF0 g -> stepR u v g (fst (remove_directed_edge u v s g)).
Proof.
  intros W; unfold remove_directed_edge.
  apply need_node_step; [exact W|intros Hu]. apply need_node_step; [exact W|intros Hv].
  apply gget_step. destruct (dget2 (edges g) u v) as [e|] eqn:E; [|apply stepR_refl; exact W].
  destruct (proj2 (w0_e _ W) _ _ _ E) as (_ & _ & Hne).
  destruct s; [apply soft_flag_step; exact W|].
  apply bind_end; [apply on_dedges_step; [exact W|apply dlocal_set; assumption]|intros g1 W1 N1].
  apply bind_end; [apply on_edges_step; [exact W1|apply dlocal_del]|intros g2 W2 N2].
  apply on_redges_step; [exact W2|apply dlocal_swap, dlocal_del].
Qed.

Lemma hard_cross_step u v g : WF0 g -> dmem (nodes g) u = true -> dmem (nodes g) v = true ->
  stepR u v g (fst ((match dget2 (edges g) u v with
     | Some e => on_dedges (fun d => dset2 d u v e) ;;; on_edges (fun d => ddel2 d u v) ;;;
                 on_redges (fun d => ddel2 d u v)
     | None => ret tt
     end) g)).
Proof.
  intros W Hu Hv; destruct (dget2 (edges g) u v) as [e|] eqn:E; [|apply stepR_refl; exact W].
  destruct (proj2 (w0_e _ W) _ _ _ E) as (_ & _ & Hne).
  apply bind_end; [apply on_dedges_step; [exact W|apply dlocal_set; assumption]|intros g1 W1 N1].
  apply bind_end; [apply on_edges_step; [exact W1|apply dlocal_del]|intros g2 W2 N2].
  apply on_redges_step; [exact W2|apply dlocal_del].
Qed.

Lemma remove_edge_step u v s g : WF0 g -> stepR u v g (fst (remove_edge u v s g)).
Proof.
  intros W; unfold remove_edge.
  apply need_node_step; [exact W|intros Hu]. apply need_node_step; [exact W|intros Hv].
  destruct s; apply gget_step.
  - apply bind_end.
    + destruct (dmem2 (edges g) u v); [apply soft_flag_step; exact W|apply stepR_refl; exact W].
    + intros g1 W1 N1; apply gget_step.
      destruct (dmem2 (edges g1) v u); [apply stepR_sym, soft_flag_step; exact W1|apply stepR_refl; exact W1].
  - apply bind_end; [apply hard_cross_step; assumption|].
    intros g1 W1 N1; apply gget_step; apply stepR_sym, hard_cross_step; [exact W1| |]; congruence.
Qed.

Lemma restore_directed_step u v g : WF0 g -> samekeys g -> stepR u v g (fst (restore_directed_edge u v g)).
Proof.
  intros W K; unfold restore_directed_edge.
  apply need_node_step; [exact W|intros Hu]. apply need_node_step; [exact W|intros Hv].
  apply gget_step. destruct (dmem2 (edges g) u v); [apply soft_flag_step; exact W|].
  destruct (dget2 (dedges g) u v) as [e|]; [|apply stepR_refl; exact W].
  apply bind_end; [apply add_directed_edge_step; assumption|intros g1 W1 N1].
  apply on_dedges_step; [exact W1|apply dlocal_del].
Qed.

Lemma restore_half_step u v g : WF0 g -> samekeys g -> stepR u v g (fst (restore_half u v g)).
Proof.
  intros W K; unfold restore_half.
  apply gget_step. destruct (dmem2 (edges g) u v); [apply soft_flag_step; exact W|].
  destruct (dget2 (dedges g) u v) as [e|]; [|apply stepR_refl; exact W].
  apply bind_end; [apply add_edge_step; assumption|intros g1 W1 N1].
  apply on_dedges_step; [exact W1|apply dlocal_del].
Qed.

Lemma restore_edge_step u v g : WF0 g -> samekeys g -> stepR u v g (fst (restore_edge u v g)).
Proof.
  intros W K; unfold restore_edge.
  apply need_node_step; [exact W|intros Hu]. apply need_node_step; [exact W|intros Hv].
  apply bind_step; [apply restore_half_step; assumption|].
  intros a g1 E1 W1 N1; apply stepR_sym, restore_half_step; [exact W1|].
  assert (K1 := restore_half_sk u v g K); rewrite E1 in K1; exact K1.
Qed.

Lemma upd4_step u v f g : WF0 g -> stepR u v g (fst (upd4 u v f g)).
Proof.
  intros W; unfold upd4.
  apply bind_end; [apply on_edges_step; [exact W|apply dlocal_upd]|intros g1 W1 N1].
  apply bind_end; [apply on_edges_step; [exact W1|apply dlocal_swap, dlocal_upd]|intros g2 W2 N2].
  apply bind_end; [apply on_redges_step; [exact W2|apply dlocal_upd]|intros g3 W3 N3].
  apply on_redges_step; [exact W3|apply dlocal_swap, dlocal_upd].
Qed.

Lemma upd2_step u v f g : WF0 g -> stepR u v g (fst (upd2 u v f g)).
Proof.
  intros W; unfold upd2.
  apply bind_end; [apply on_edges_step; [exact W|apply dlocal_upd]|intros g1 W1 N1].
  apply on_redges_step; [exact W1|apply dlocal_swap, dlocal_upd].
Qed.

Lemma update_edge_step u v md t g : WF0 g -> stepR u v g (fst (update_edge u v md t g)).
Proof.
  intros W; unfold update_edge.
  apply need_node_step; [exact W|intros Hu]. apply need_node_step; [exact W|intros Hv].
  apply gget_step.
  destruct (negb (dmem (edges g) u)); [apply stepR_refl; exact W|].
  destruct (negb (dmem (edges g) v)); [apply stepR_refl; exact W|].
  destruct (negb (dmem2 (edges g) v u)); [apply stepR_refl; exact W|].
  destruct (negb (dmem2 (edges g) u v)); [apply stepR_refl; exact W|].
  apply bind_end.
  - destruct md; [apply upd4_step; exact W|apply stepR_refl; exact W].
  - intros g1 W1 N1; destruct t; [apply upd4_step; exact W1|apply stepR_refl; exact W1].
Qed.

Lemma update_directed_step u v md t g : WF0 g -> stepR u v g (fst (update_directed_edge u v md t g)).
Proof.
  intros W; unfold update_directed_edge.
  apply need_node_step; [exact W|intros Hu]. apply need_node_step; [exact W|intros Hv].
  apply gget_step.
  destruct (negb (dmem2 (edges g) u v)); [apply stepR_refl; exact W|].
  apply bind_end.
  - destruct md; [apply upd2_step; exact W|apply stepR_refl; exact W].
  - intros g1 W1 N1; destruct t; [apply upd2_step; exact W1|apply stepR_refl; exact W1].
Qed.

(* the pair an edge operation names *)
Definition op_pair (o : gop) : option (id * id) :=
  match o with
  | OAddNode _ _ _ => None
  | OAddEdge u v _ _ | OAddDirected u v _ _ | ORemove u v _ | ORestore u v | ORemoveDirected u v _
  | ORestoreDirected u v | OUpdate u v _ _ | OUpdateDirected u v _ _ | OHistory u v _ => Some (u, v)
  | OPurge => None
  end.

Lemma add_edge_history_step u v a g : WF0 g -> stepR u v g (fst (add_edge_history u v a g)).
Proof.
  intros W; unfold add_edge_history; cbv zeta; simpl; split; [destruct W; constructor; assumption|].
  constructor; simpl; auto.
  - intros x y [O1 O2]; apply dget_dset_other; congruence.
  - intros p l E; rewrite dget_dset; destruct (eqb_spec p (u, v)) as [->|N].
    + rewrite E; exists [a]; reflexivity.
    + exists []; rewrite app_nil_r; exact E.
Qed.

Lemma run_op_step o u v g : inv0 g -> op_pair o = Some (u, v) -> stepR u v g (fst (run_op o g)).
Proof.
  intros [W K] Ho; destruct o; simpl in Ho; try discriminate; injection Ho as -> ->; simpl run_op.
  - apply add_edge_step; assumption.
  - apply add_directed_edge_step; assumption.
  - apply remove_edge_step; assumption.
  - apply restore_edge_step; assumption.
  - apply remove_directed_edge_step; assumption.
  - apply restore_directed_step; assumption.
  - apply update_edge_step; assumption.
  - apply update_directed_step; assumption.
  - apply add_edge_history_step; assumption.
Qed.

Lemma add_node_w0 n vs i g : WF0 g -> WF0 (fst (add_node n vs i g)).
Proof.
  intros W; unfold add_node; destruct (dmem (nodes g) i) eqn:E; [exact W|].
  destruct vs as [vs|]; [|exact W]; simpl.
  assert (M : forall a, dmem (nodes g) a = true -> dmem (dset (nodes g) i (mkNode n vs)) a = true).
  { intros a Ha; apply dmem_In in Ha; apply dmem_In, In_dkeys_dset; auto. }
  assert (O : forall d, okd (nodes g) d -> okd (dset (nodes g) i (mkNode n vs)) d).
  { intros d [A B]; split; [exact A|]; intros u v e Ed; destruct (B u v e Ed) as (X & Y & Z); auto. }
  destruct W; constructor; simpl; auto. apply NoDup_dset; assumption.
Qed.

Lemma remove_all_hist l g : WF0 g ->
  WF0 (fst (remove_all_directed l g)) /\
  (forall p h, dget (ehist g) p = Some h -> exists h', dget (ehist (fst (remove_all_directed l g))) p = Some (h ++ h')) /\
  nodes (fst (remove_all_directed l g)) = nodes g.
Proof.
  revert g; induction l as [|[u v] l IH]; intros g W.
  - simpl; split; [exact W|split; [apply app_self|reflexivity]].
  - simpl; unfold bind.
    assert (S := remove_directed_edge_step u v false g W).
    destruct (remove_directed_edge u v false g) as [g1 [[]|e]]; simpl in S; destruct S as [W1 L1].
    + destruct (IH g1 W1) as (W2 & H2 & N2); split; [exact W2|split].
      * intros p h E; destruct (lc_app _ _ _ _ L1 p h E) as [h1 E1]; destruct (H2 p _ E1) as [h2 E2].
        exists (h1 ++ h2); rewrite app_assoc; exact E2.
      * rewrite N2; apply (lc_n _ _ _ _ L1).
    + simpl; split; [exact W1|split; [apply (lc_app _ _ _ _ L1)|apply (lc_n _ _ _ _ L1)]].
Qed.

Lemma run_op_inv0 o g : inv0 g -> inv0 (fst (run_op o g)) /\
  (forall p h, dget (ehist g) p = Some h -> exists h', dget (ehist (fst (run_op o g))) p = Some (h ++ h')) /\
  (forall i, dmem (nodes g) i = true -> dmem (nodes (fst (run_op o g))) i = true).
Proof.
  intros I; destruct (op_pair o) as [[u v]|] eqn:Ho.
  - destruct (run_op_step o u v g I Ho) as [W L]; split; [split; [exact W|apply run_op_sk, I]|].
    split; [apply (lc_app _ _ _ _ L)|]. rewrite (lc_n _ _ _ _ L); auto.
  - assert (K := run_op_sk o g (proj2 I)). destruct I as [W K0].
    destruct o; try discriminate; simpl run_op in *.
    + split; [split; [apply add_node_w0; exact W|exact K]|].
      unfold add_node; destruct (dmem (nodes g) i) eqn:E; simpl; [split; [apply app_self|auto]|].
      destruct vals; simpl; (split; [apply app_self|auto]).
      intros j Hj; apply dmem_In in Hj; apply dmem_In, In_dkeys_dset; auto.
    + unfold purge_soft_deleted_edges in *; unfold bind, gget in *.
      destruct (forallb _ _).
      * destruct (remove_all_hist (soft_deleted_entries g) g W) as (W' & H' & N').
        split; [split; assumption|split; [exact H'|rewrite N'; auto]].
      * simpl; split; [split; assumption|split; [apply app_self|auto]].
Qed.

Lemma run_ops_inv0 os g : inv0 g -> inv0 (run_ops os g).
Proof.
  revert g; induction os as [|o os IH]; intros g I; [exact I|].
  unfold run_ops; simpl; apply IH, run_op_inv0, I.
Qed.

Lemma inv0_empty : inv0 empty_graph.
Proof. split; [apply WF0_empty|split; reflexivity]. Qed.

Lemma run_ops_history os g p h : inv0 g -> dget (ehist g) p = Some h ->
  exists h', dget (ehist (run_ops os g)) p = Some (h ++ h').
Proof.
  revert g h; induction os as [|o os IH]; intros g h I E.
  - exists []; rewrite app_nil_r; exact E.
  - destruct (run_op_inv0 o g I) as (I' & Hh & _).
    destruct (Hh p h E) as [h1 E1]. destruct (IH _ _ I' E1) as [h2 E2].
    exists (h1 ++ h2); rewrite app_assoc; exact E2.
Qed.

(* ---------- rejection ---------- *)

Definition rejects (e : exn) : Prop := e = GraphError \/ e = ValueError.

Definition ke_only (m : ST unit) : Prop := forall g g' e, m g = (g', Err e) -> e = KeyError.

Lemma ke_on_edges f : ke_only (on_edges f).
Proof. intros g g' e; unfold on_edges; destruct (f (edges g)); congruence. Qed.
Lemma ke_on_redges f : ke_only (on_redges f).
Proof. intros g g' e; unfold on_redges; destruct (f (redges g)); congruence. Qed.
Lemma ke_on_dedges f : ke_only (on_dedges f).
Proof. intros g g' e; unfold on_dedges; destruct (f (dedges g)); congruence. Qed.
Lemma ke_bind m1 m2 : ke_only m1 -> ke_only m2 -> ke_only (m1 ;;; m2).
Proof.
  intros K1 K2 g g' e; unfold bind; destruct (m1 g) as [g1 [[]|e1]] eqn:E; [apply K2|].
  intros [= <- <-]; eapply K1; exact E.
Qed.
Lemma ke_ret : ke_only (ret tt).
Proof. intros g g' e; discriminate. Qed.
Lemma ke_init u v : ke_only (init_edge u v).
Proof. intros g g' e; discriminate. Qed.
#[local] Hint Resolve ke_on_edges ke_on_redges ke_on_dedges ke_bind ke_ret ke_init : ke.

Lemma ke_soft u v b : ke_only (soft_flag u v b).
Proof. unfold soft_flag; auto with ke. Qed.
#[local] Hint Resolve ke_soft : ke.

Lemma add_edge_rej u v md t g g' e : add_edge u v md t g = (g', Err e) -> e = KeyError \/ g' = g.
Proof.
  unfold add_edge, bind at 1 2 3, need_node, raise, ret.
  destruct (dmem (nodes g) u); [|intros [= <- <-]; auto].
  destruct (dmem (nodes g) v); [|intros [= <- <-]; auto].
  destruct (eqb u v); [intros [= <- <-]; auto|].
  intros E; left; revert E; cbv zeta.
  match goal with |- ?m g = _ -> _ => assert (K : ke_only m) by auto 10 with ke; apply K end.
Qed.

Lemma add_directed_edge_rej u v md t g g' e : add_directed_edge u v md t g = (g', Err e) -> e = KeyError \/ g' = g.
Proof.
  unfold add_directed_edge, bind at 1 2 3, need_node, raise, ret.
  destruct (dmem (nodes g) u); [|intros [= <- <-]; auto].
  destruct (dmem (nodes g) v); [|intros [= <- <-]; auto].
  destruct (eqb u v); [intros [= <- <-]; auto|].
  intros E; left; revert E; cbv zeta.
  match goal with |- ?m g = _ -> _ => assert (K : ke_only m) by auto 10 with ke; apply K end.
Qed.

(* when both endpoints are distinct nodes the add operations can only raise KeyError *)
Lemma add_edge_ke u v md t g g' e : dmem (nodes g) u = true -> dmem (nodes g) v = true -> u <> v ->
  add_edge u v md t g = (g', Err e) -> e = KeyError.
Proof.
  intros Hu Hv N; unfold add_edge, bind at 1 2 3, need_node, raise, ret.
  rewrite Hu, Hv, (eqb_neq _ _ N). cbv zeta.
  match goal with |- ?m g = _ -> _ => assert (K : ke_only m) by auto 10 with ke; apply K end.
Qed.
Lemma add_directed_edge_ke u v md t g g' e : dmem (nodes g) u = true -> dmem (nodes g) v = true -> u <> v ->
  add_directed_edge u v md t g = (g', Err e) -> e = KeyError.
Proof.
  intros Hu Hv N; unfold add_directed_edge, bind at 1 2 3, need_node, raise, ret.
  rewrite Hu, Hv, (eqb_neq _ _ N). cbv zeta.
  match goal with |- ?m g = _ -> _ => assert (K : ke_only m) by auto 10 with ke; apply K end.
Qed.

Lemma restore_half_ke u v g g' e : WF0 g ->
  restore_half u v g = (g', Err e) -> e = KeyError.
Proof.
  intros W; unfold restore_half, bind at 1, gget.
  destruct (dmem2 (edges g) u v); [apply ke_soft|].
  destruct (dget2 (dedges g) u v) as [x|] eqn:Ed; [|intros [= <- <-]; reflexivity].
  destruct (proj2 (w0_d _ W) _ _ _ Ed) as (Hu & Hv & N).
  unfold bind; destruct (add_edge u v (e_meta x) TUndirected g) as [g1 [[]|e1]] eqn:E1.
  - apply ke_on_dedges.
  - intros [= <- <-]; exact (add_edge_ke _ _ _ _ _ _ _ Hu Hv N E1).
Qed.

Lemma run_op_reject o g g' e : inv0 g -> run_op o g = (g', Err e) -> rejects e -> g' = g.
Proof.
  intros [W K] E R.
  assert (NK : e <> KeyError) by (destruct R; congruence).
  assert (X : e = KeyError \/ g' = g); [|destruct X; [contradiction|assumption]].
  revert E; destruct o; simpl run_op.
  - unfold add_node; destruct (dmem (nodes g) i); [intros [= <- <-]; auto|]; destruct vals; [discriminate|intros [= <- <-]; auto].
  - apply add_edge_rej.
  - apply add_directed_edge_rej.
  - unfold remove_edge, bind at 1 2, need_node.
    destruct (dmem (nodes g) u); [|intros [= <- <-]; auto].
    destruct (dmem (nodes g) v); [|intros [= <- <-]; auto].
    intros E; left. destruct soft; revert E; unfold bind at 1, gget.
    + unfold bind at 1. destruct ((if dmem2 (edges g) u v then soft_flag u v true else ret tt) g) as [g1 [[]|e1]] eqn:E1.
      * unfold bind; destruct (dmem2 (edges g1) v u); [apply ke_soft|apply ke_ret].
      * intros [= <- <-]; destruct (dmem2 (edges g) u v); [eapply ke_soft; exact E1|discriminate].
    + unfold bind at 1.
      match goal with |- match ?m g with _ => _ end = _ -> _ => destruct (m g) as [g1 [[]|e1]] eqn:E1 end.
      * unfold bind at 1; destruct (dget2 (edges g1) v u); [|apply ke_ret].
        match goal with |- ?m g1 = _ -> _ => assert (K' : ke_only m) by auto 10 with ke; apply K' end.
      * intros [= <- <-]; revert E1; destruct (dget2 (edges g) u v); [|discriminate].
        match goal with |- ?m g = _ -> _ => assert (K' : ke_only m) by auto 10 with ke; apply K' end.
  - unfold restore_edge, bind at 1 2, need_node.
    destruct (dmem (nodes g) u); [|intros [= <- <-]; auto].
    destruct (dmem (nodes g) v); [|intros [= <- <-]; auto].
    intros E; left; revert E; unfold bind.
    assert (S1 := restore_half_step u v g W K).
    destruct (restore_half u v g) as [g1 [[]|e1]] eqn:E1.
    + apply restore_half_ke, S1.
    + intros [= <- <-]; exact (restore_half_ke _ _ _ _ _ W E1).
  - unfold remove_directed_edge, bind at 1 2, need_node.
    destruct (dmem (nodes g) u); [|intros [= <- <-]; auto].
    destruct (dmem (nodes g) v); [|intros [= <- <-]; auto].
    intros E; left; revert E; unfold bind at 1, gget.
    destruct (dget2 (edges g) u v); [|apply ke_ret]. destruct soft; [apply ke_soft|].
    match goal with |- ?m g = _ -> _ => assert (K' : ke_only m) by auto 10 with ke; apply K' end.
  - unfold restore_directed_edge, bind at 1 2, need_node.
    destruct (dmem (nodes g) u) eqn:Hu; [|intros [= <- <-]; auto].
    destruct (dmem (nodes g) v) eqn:Hv; [|intros [= <- <-]; auto].
    intros E; left; revert E; unfold bind at 1, gget.
    destruct (dmem2 (edges g) u v); [apply ke_soft|].
    destruct (dget2 (dedges g) u v) as [x|] eqn:Ed; [|intros [= <- <-]; reflexivity].
    destruct (proj2 (w0_d _ W) _ _ _ Ed) as (_ & _ & N).
    unfold bind; destruct (add_directed_edge u v (e_meta x) TDirected g) as [g1 [[]|e1]] eqn:E1.
    + apply ke_on_dedges.
    + intros [= <- <-]; exact (add_directed_edge_ke _ _ _ _ _ _ _ Hu Hv N E1).
  - unfold update_edge, bind at 1 2, need_node.
    destruct (dmem (nodes g) u); [|intros [= <- <-]; auto].
    destruct (dmem (nodes g) v); [|intros [= <- <-]; auto].
    unfold bind at 1, gget, raise.
    destruct (negb (dmem (edges g) u)); [intros [= <- <-]; auto|].
    destruct (negb (dmem (edges g) v)); [intros [= <- <-]; auto|].
    destruct (negb (dmem2 (edges g) v u)); [intros [= <- <-]; auto|].
    destruct (negb (dmem2 (edges g) u v)); [intros [= <- <-]; auto|].
    intros E; left; revert E.
    assert (K4 : forall f, ke_only (upd4 u v f)) by (intros f; unfold upd4; auto 10 with ke).
    match goal with |- ?m g = _ -> _ => assert (K' : ke_only m) end; [|apply K'].
    apply ke_bind; [destruct md; auto with ke|destruct t; auto with ke].
  - unfold update_directed_edge, bind at 1 2, need_node.
    destruct (dmem (nodes g) u); [|intros [= <- <-]; auto].
    destruct (dmem (nodes g) v); [|intros [= <- <-]; auto].
    unfold bind at 1, gget, raise.
    destruct (negb (dmem2 (edges g) u v)); [intros [= <- <-]; auto|].
    intros E; left; revert E.
    assert (K4 : forall f, ke_only (upd2 u v f)) by (intros f; unfold upd2; auto 10 with ke).
    match goal with |- ?m g = _ -> _ => assert (K' : ke_only m) end; [|apply K'].
    apply ke_bind; [destruct md; auto with ke|destruct t; auto with ke].
  - (* purge: every collected pair consists of nodes, so no GraphError can occur *)
    unfold purge_soft_deleted_edges, bind at 1, gget, raise.
    intros E; left; revert E.
    destruct (forallb _ _) eqn:Fb; [|intros [= <- <-]; reflexivity].
    assert (Hl : forall p, In p (soft_deleted_entries g) -> dmem (nodes g) (fst p) = true /\ dmem (nodes g) (snd p) = true).
    { intros p Hp; rewrite forallb_forall in Fb; specialize (Fb p Hp); apply andb_true_iff in Fb; exact Fb. }
    clear Fb NK R K. revert Hl. generalize (soft_deleted_entries g) as l. intros l; revert g W.
    induction l as [|[u v] l IH]; intros h Wh Hl; simpl; [discriminate|].
    unfold bind at 1. assert (S := remove_directed_edge_step u v false h Wh).
    destruct (remove_directed_edge u v false h) as [g1 [[]|e1]] eqn:E1.
    + simpl in S; apply (IH g1 (proj1 S)).
      intros p Hp; rewrite (lc_n _ _ _ _ (proj2 S)); apply Hl; right; exact Hp.
    + intros [= <- <-]. destruct (Hl (u, v) (or_introl eq_refl)) as [Hu Hv]; simpl in Hu, Hv.
      revert E1. unfold remove_directed_edge, bind at 1 2, need_node; rewrite Hu, Hv; unfold bind at 1, gget.
      destruct (dget2 (edges h) u v); [|discriminate].
      match goal with |- ?m h = _ -> _ => assert (K' : ke_only m) by auto 10 with ke; apply K' end.
  - discriminate.
Qed.
