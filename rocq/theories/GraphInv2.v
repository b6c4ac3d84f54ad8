(* Effects of the remaining mutators on a consistent graph. *)
From Verif Require Import Base PyDict PyDictFacts Graph GraphFacts GraphInv.

Lemma at2_same u v x f : at2 u v x f u v = x.
Proof. unfold at2; rewrite !eqb_refl; reflexivity. Qed.

Lemma at2_other u v x f a b : (a, b) <> (u, v) -> at2 u v x f a b = f a b.
Proof.
  intros N; unfold at2; destruct (eqb_spec a u) as [->|]; [destruct (eqb_spec b v) as [->|]|]; simpl; congruence.
Qed.

Lemma at2_id u v f a b : at2 u v (f u v) f a b = f a b.
Proof.
  unfold at2; destruct (eqb_spec a u) as [->|]; [destruct (eqb_spec b v) as [->|]|]; simpl; congruence.
Qed.

Definition setd (x : option edge) (b : bool) : option edge := option_map (set_del b) x.

(* Effect of a soft removal of u -> v: the deleted flag is set if there is an entry. *)
Definition softd (u v : id) (b : bool) (f : id -> id -> option edge) := at2 u v (setd (f u v) b) f.

Lemma at2_ext u v x f f' a b : (forall a b, f a b = f' a b) -> at2 u v x f a b = at2 u v x f' a b.
Proof. intros E; unfold at2; rewrite E; reflexivity. Qed.

Lemma softd_ext u v c f f' a b : (forall a b, f a b = f' a b) -> softd u v c f a b = softd u v c f' a b.
Proof. intros E; unfold softd; rewrite E; apply at2_ext; exact E. Qed.

Lemma soft_opt_ok g u v b : WF g ->
  exists g', (if dmem2 (edges g) u v then soft_flag u v b else ret tt) g = (g', Ok tt) /\ WF g' /\
    eff g g' (softd u v b (eget g)) (dget2 (dedges g)).
Proof.
  intros W; destruct (dmem2 (edges g) u v) eqn:E.
  - apply dmem2_get in E; destruct E as [e E].
    destruct (soft_flag_ok g u v e b W E) as (g' & R & W' & P).
    exists g'; split; [exact R|split; [exact W'|]].
    unfold softd, eget; rewrite E; simpl. apply pair_upd_eff in P; exact P.
  - exists g; split; [reflexivity|split; [exact W|]].
    apply dmem2_none in E. eapply eff_ext; [apply eff_refl| |reflexivity].
    intros a c; unfold softd, eget; rewrite E; simpl. rewrite <- E at 1.
    symmetry; apply (at2_id u v (dget2 (edges g))).
Qed.

Lemma remove_edge_soft_ok g u v : WF g -> dmem (nodes g) u = true -> dmem (nodes g) v = true ->
  exists g', remove_edge u v true g = (g', Ok tt) /\ WF g' /\
    eff g g' (softd v u true (softd u v true (eget g))) (dget2 (dedges g)).
Proof.
  intros W Hu Hv; unfold remove_edge.
  rewrite (bind_ok _ _ _ _ _ (need_node_ok _ _ Hu)), (bind_ok _ _ _ _ _ (need_node_ok _ _ Hv)).
  rewrite (bind_ok _ _ g g g) by reflexivity.
  destruct (soft_opt_ok g u v true W) as (g1 & R1 & W1 & F1).
  rewrite (bind_ok _ _ _ _ _ R1), (bind_ok _ _ g1 g1 g1) by reflexivity.
  destruct (soft_opt_ok g1 v u true W1) as (g2 & R2 & W2 & F2).
  exists g2; split; [exact R2|split; [exact W2|]].
  eapply eff_ext; [eapply eff_trans; [exact F1|exact F2]| |].
  - intros a b; apply softd_ext; intros; apply (ef_get _ _ _ _ F1).
  - intros a b; apply (ef_del _ _ _ _ F1).
Qed.

Lemma remove_edge_reject g u v s : dmem (nodes g) u = false \/ dmem (nodes g) v = false ->
  remove_edge u v s g = (g, Err GraphError).
Proof.
  intros Hr; unfold remove_edge.
  destruct (dmem (nodes g) u) eqn:Hu.
  - rewrite (bind_ok _ _ _ _ _ (need_node_ok _ _ Hu)).
    destruct Hr as [X|X]; [discriminate|].
    apply bind_err, need_node_err; exact X.
  - apply bind_err, need_node_err; exact Hu.
Qed.

(* hard deletion of one existing direction, with the entry kept in the deleted store *)
Lemma hard_half_ok g u v e : WF g -> eget g u v = Some e ->
  exists g', (on_dedges (fun d => dset2 d u v e) ;;; on_edges (fun d => ddel2 d u v) ;;;
              on_redges (fun d => ddel2 d v u)) g = (g', Ok tt) /\ WF g' /\
    eff g g' (at2 u v None (eget g)) (at2 u v (Some e) (dget2 (dedges g))).
Proof.
  intros W E.
  destruct (WF_row_v _ _ _ _ W E) as [Hu Hv].
  destruct (wf_fwd _ W _ _ _ E) as (Nu & Nv & Hne & Eu & Ev).
  assert (Hd : dmem (dedges g) u = true) by (rewrite (dmem_keys_eq _ _ u (wf_dk _ W)); exact Hu).
  destruct (dset2_some (dedges g) u v e Hd) as [d1 E1].
  assert (G1 := dset2_get _ _ _ _ _ E1).
  set (g1 := with_dedges g d1).
  assert (W1 : WF g1).
  { constructor; simpl.
    - apply (wf_nodes _ W).
    - apply (wf_e _ W).
    - apply (wf_r _ W).
    - eapply dset2_wf; [apply (wf_d _ W)|exact E1].
    - apply (wf_rk _ W).
    - rewrite (dset2_keys _ _ _ _ _ E1); apply (wf_dk _ W).
    - apply (wf_rev _ W).
    - apply (wf_fwd _ W).
    - intros a b e'; rewrite G1.
      destruct (eqb_spec a u) as [->|]; [destruct (eqb_spec b v) as [->|]|]; simpl; auto; apply (wf_del _ W).
    - apply (wf_rows _ W). }
  destruct (del_pair_ok g1 u v e W1 E) as (g2 & R2 & W2 & P2).
  exists g2; split; [|split; [exact W2|]].
  - erewrite bind_ok; [exact R2|]. unfold on_dedges; rewrite E1; reflexivity.
  - destruct P2 as [A1 A2 A3 A4 A5 A6]; simpl in *; constructor; auto.
    + intros a b; rewrite A2; apply G1.
    + intros a Ha; rewrite (dmem_keys_eq _ _ a A5); exact Ha.
    + intros p; left; rewrite A3; reflexivity.
Qed.

Definition is_some {A} (x : option A) : bool := match x with Some _ => true | None => false end.

Definition orel {A} (x y : option A) : option A := match x with Some _ => x | None => y end.

Lemma remove_directed_soft_ok g u v : WF g -> dmem (nodes g) u = true -> dmem (nodes g) v = true ->
  exists g', remove_directed_edge u v true g = (g', Ok tt) /\ WF g' /\
    eff g g' (softd u v true (eget g)) (dget2 (dedges g)).
Proof.
  intros W Hu Hv; unfold remove_directed_edge.
  rewrite (bind_ok _ _ _ _ _ (need_node_ok _ _ Hu)), (bind_ok _ _ _ _ _ (need_node_ok _ _ Hv)).
  rewrite (bind_ok _ _ g g g) by reflexivity.
  destruct (soft_opt_ok g u v true W) as (g1 & R1 & W1 & F1).
  exists g1; split; [|split; assumption].
  revert R1; unfold dmem2; destruct (dget2 (edges g) u v); auto.
Qed.

Lemma remove_directed_hard_ok g u v : WF g -> dmem (nodes g) u = true -> dmem (nodes g) v = true ->
  exists g', remove_directed_edge u v false g = (g', Ok tt) /\ WF g' /\
    eff g g' (at2 u v None (eget g))
        (at2 u v (orel (eget g u v) (dget2 (dedges g) u v)) (dget2 (dedges g))).
Proof.
  intros W Hu Hv; unfold remove_directed_edge.
  rewrite (bind_ok _ _ _ _ _ (need_node_ok _ _ Hu)), (bind_ok _ _ _ _ _ (need_node_ok _ _ Hv)).
  rewrite (bind_ok _ _ g g g) by reflexivity.
  destruct (dget2 (edges g) u v) as [e|] eqn:E.
  - destruct (hard_half_ok g u v e W E) as (g' & R & W' & F).
    exists g'; split; [exact R|split; [exact W'|]].
    unfold eget at 2; rewrite E; exact F.
  - exists g; split; [reflexivity|split; [exact W|]].
    eapply eff_ext; [apply eff_refl| |].
    + intros a b; rewrite <- (at2_id u v (eget g) a b).
      replace (eget g u v) with (@None edge) by (symmetry; exact E); reflexivity.
    + intros a b; unfold eget; rewrite E; simpl; symmetry; apply at2_id.
Qed.

Lemma remove_directed_reject g u v s : dmem (nodes g) u = false \/ dmem (nodes g) v = false ->
  remove_directed_edge u v s g = (g, Err GraphError).
Proof.
  intros Hr; unfold remove_directed_edge.
  destruct (dmem (nodes g) u) eqn:Hu.
  - rewrite (bind_ok _ _ _ _ _ (need_node_ok _ _ Hu)).
    destruct Hr as [X|X]; [discriminate|].
    apply bind_err, need_node_err; exact X.
  - apply bind_err, need_node_err; exact Hu.
Qed.

(* hard removal in both directions of a pair that has both entries, or neither *)
Lemma remove_edge_hard_ok g u v : WF g -> dmem (nodes g) u = true -> dmem (nodes g) v = true ->
  dmem2 (edges g) u v = dmem2 (edges g) v u ->
  exists g', remove_edge u v false g = (g', Ok tt) /\ WF g' /\
    eff g g' (at2 v u None (at2 u v None (eget g)))
        (at2 v u (orel (eget g v u) (dget2 (dedges g) v u))
           (at2 u v (orel (eget g u v) (dget2 (dedges g) u v)) (dget2 (dedges g)))).
Proof.
  intros W Hu Hv Hs; unfold remove_edge.
  rewrite (bind_ok _ _ _ _ _ (need_node_ok _ _ Hu)), (bind_ok _ _ _ _ _ (need_node_ok _ _ Hv)).
  rewrite (bind_ok _ _ g g g) by reflexivity.
  unfold dmem2 in Hs.
  destruct (dget2 (edges g) u v) as [e|] eqn:E; destruct (dget2 (edges g) v u) as [e'|] eqn:E'; try discriminate.
  - destruct (wf_fwd _ W _ _ _ E) as (_ & _ & Hne & _ & _).
    destruct (hard_half_ok g u v e W E) as (g1 & R1 & W1 & F1).
    assert (E1 : eget g1 v u = Some e').
    { rewrite (ef_get _ _ _ _ F1), at2_other by congruence; exact E'. }
    destruct (hard_half_ok g1 v u e' W1 E1) as (g2 & R2 & W2 & F2).
    exists g2; split; [|split; [exact W2|]].
    + (* the code deletes the reverse entries crosswise; the final state is the same *)
      clear W2 F2 F1 Hs.
      revert R1 R2; unfold bind, on_dedges, on_edges, on_redges, gget.
      destruct (dset2 (dedges g) u v e) as [x1|] eqn:X1; [|intros; discriminate].
      simpl. destruct (ddel2 (edges g) u v) as [x2|] eqn:X2; [|intros; discriminate].
      simpl. destruct (ddel2 (redges g) v u) as [x3|] eqn:X3; [|intros; discriminate].
      simpl. intros [= <-]. simpl.
      destruct (dset2 x1 v u e') as [y1|] eqn:Y1; [|intros; discriminate].
      simpl. destruct (ddel2 x2 v u) as [y2|] eqn:Y2; [|intros; discriminate].
      simpl. destruct (ddel2 x3 u v) as [y3|] eqn:Y3; [|intros; discriminate].
      intros [= <-].
      assert (Z : exists z, ddel2 (redges g) u v = Some z /\ ddel2 z v u = Some y3).
      { revert X3 Y3; unfold ddel2.
        destruct (dget (redges g) v) as [rv|] eqn:Dv; [|discriminate].
        destruct (dmem rv u) eqn:Mv; [|discriminate].
        intros [= <-]; rewrite dget_dset, (eqb_neq u v) by congruence.
        destruct (dget (redges g) u) as [ru|] eqn:Du; [|discriminate].
        destruct (dmem ru v) eqn:Mu; [|discriminate].
        intros [= <-]. eexists; split; [reflexivity|].
        rewrite dget_dset, (eqb_neq v u) by congruence. rewrite Dv, Mv.
        f_equal. apply dict_ext_keys.
        - apply NoDup_dset, NoDup_dset, (wf_r _ W).
        - rewrite !dkeys_dset_in; try reflexivity;
            try (apply In_dkeys_dset; right); apply dmem_In; unfold dmem; rewrite ?Du, ?Dv; reflexivity.
        - intros k; rewrite !dget_dset.
          destruct (eqb_spec k v), (eqb_spec k u); congruence. }
      destruct Z as (z & Z1 & Z2).
      rewrite Z1. simpl.
      assert (E2 : dget2 x2 v u = Some e').
      { rewrite (ddel2_get _ _ _ _ (wf_e _ W) X2).
        rewrite (eqb_neq v u) by congruence; exact E'. }
      rewrite E2. simpl. rewrite Y1. simpl. rewrite Y2. simpl. rewrite Z2. reflexivity.
    + eapply eff_ext; [eapply eff_trans; [exact F1|exact F2]| |].
      * intros a b; unfold at2 at 1 2; rewrite (ef_get _ _ _ _ F1); reflexivity.
      * intros a b; unfold eget; rewrite E, E'; simpl.
        unfold at2 at 1 2; rewrite (ef_del _ _ _ _ F1); reflexivity.
  - rewrite (bind_ok _ _ g g tt) by reflexivity.
    rewrite (bind_ok _ _ g g g) by reflexivity. rewrite E'.
    exists g; split; [reflexivity|split; [exact W|]].
    eapply eff_ext; [apply eff_refl| |].
    + intros a b; unfold at2, eget; destruct (eqb_spec a v), (eqb_spec b u), (eqb_spec a u), (eqb_spec b v); simpl; congruence.
    + intros a b; unfold eget; rewrite E, E'; simpl.
      unfold at2; destruct (eqb_spec a v), (eqb_spec b u), (eqb_spec a u), (eqb_spec b v); simpl; congruence.
Qed.

(* ---------- restore ---------- *)

Lemma ddel_dedges_ok g u v e : WF g -> dget2 (dedges g) u v = Some e ->
  exists g', on_dedges (fun d => ddel2 d u v) g = (g', Ok tt) /\ WF g' /\
    eff g g' (eget g) (at2 u v None (dget2 (dedges g))).
Proof.
  intros W E; destruct (ddel2_some _ _ _ _ E) as [d1 E1].
  exists (with_dedges g d1); unfold on_dedges; rewrite E1; split; [reflexivity|].
  assert (G1 := ddel2_get _ _ _ _ (wf_d _ W) E1).
  split.
  - constructor; simpl; try apply W.
    + eapply ddel2_wf; [apply (wf_d _ W)|exact E1].
    + rewrite (ddel2_keys _ _ _ _ E1); apply (wf_dk _ W).
    + intros a b e'; rewrite G1; destruct (eqb a u && eqb b v); [discriminate|apply (wf_del _ W)].
  - constructor; simpl; auto.
Qed.

(* entry restored by restore_edge / restore_directed_edge *)
Definition revived (t : etype) (x : option edge) (u v : id) (d : option edge) : option edge :=
  match x with
  | Some e => Some (set_del false e)
  | None => option_map (fun e => mkEdge u v t (e_meta e) false) d
  end.

Lemma restore_directed_ok g u v : WF g -> dmem (nodes g) u = true -> dmem (nodes g) v = true ->
  (is_some (eget g u v) || is_some (dget2 (dedges g) u v)) = true ->
  exists g', restore_directed_edge u v g = (g', Ok tt) /\ WF g' /\
    eff g g' (at2 u v (revived TDirected (eget g u v) u v (dget2 (dedges g) u v)) (eget g))
        (match eget g u v with Some _ => dget2 (dedges g) | None => at2 u v None (dget2 (dedges g)) end).
Proof.
  intros W Hu Hv Hx; unfold restore_directed_edge.
  rewrite (bind_ok _ _ _ _ _ (need_node_ok _ _ Hu)), (bind_ok _ _ _ _ _ (need_node_ok _ _ Hv)).
  rewrite (bind_ok _ _ g g g) by reflexivity.
  unfold eget in *; unfold dmem2; destruct (dget2 (edges g) u v) as [e|] eqn:E.
  - destruct (soft_flag_ok g u v e false W E) as (g' & R & W' & P).
    exists g'; split; [exact R|split; [exact W'|]]; apply pair_upd_eff in P; exact P.
  - destruct (dget2 (dedges g) u v) as [e|] eqn:Ed; [|discriminate].
    destruct (wf_del _ W _ _ _ Ed) as (_ & _ & Hne).
    destruct (add_directed_edge_ok g u v (e_meta e) TDirected W Hu Hv Hne) as (g1 & R1 & W1 & F1).
    rewrite (bind_ok _ _ _ _ _ R1).
    assert (Ed1 : dget2 (dedges g1) u v = Some e) by (rewrite (ef_del _ _ _ _ F1); exact Ed).
    destruct (ddel_dedges_ok g1 u v e W1 Ed1) as (g2 & R2 & W2 & F2).
    exists g2; split; [exact R2|split; [exact W2|]].
    eapply eff_ext; [eapply eff_trans; [exact F1|exact F2]| |].
    + intros a b; rewrite (ef_get _ _ _ _ F1); reflexivity.
    + intros a b; unfold at2; rewrite (ef_del _ _ _ _ F1); reflexivity.
Qed.

Lemma restore_half_ok g u v : WF g -> dmem (nodes g) u = true -> dmem (nodes g) v = true ->
  (is_some (eget g u v) || is_some (dget2 (dedges g) u v)) = true ->
  exists g', restore_half u v g = (g', Ok tt) /\ WF g' /\
    match eget g u v with
    | Some e => eff g g' (at2 u v (Some (set_del false e)) (eget g)) (dget2 (dedges g))
    | None => exists e, dget2 (dedges g) u v = Some e /\
        eff g g' (at2 v u (Some (mkEdge v u TUndirected (e_meta e) false))
                   (at2 u v (Some (mkEdge u v TUndirected (e_meta e) false)) (eget g)))
            (at2 u v None (dget2 (dedges g)))
    end.
Proof.
  intros W Hu Hv Hx; unfold restore_half.
  rewrite (bind_ok _ _ g g g) by reflexivity.
  unfold eget in *; unfold dmem2; destruct (dget2 (edges g) u v) as [e|] eqn:E.
  - destruct (soft_flag_ok g u v e false W E) as (g' & R & W' & P).
    exists g'; split; [exact R|split; [exact W'|]]; apply pair_upd_eff in P; exact P.
  - destruct (dget2 (dedges g) u v) as [e|] eqn:Ed; [|discriminate].
    destruct (wf_del _ W _ _ _ Ed) as (_ & _ & Hne).
    destruct (add_edge_ok g u v (e_meta e) TUndirected W Hu Hv Hne) as (g1 & R1 & W1 & F1).
    rewrite (bind_ok _ _ _ _ _ R1).
    assert (Ed1 : dget2 (dedges g1) u v = Some e) by (rewrite (ef_del _ _ _ _ F1); exact Ed).
    destruct (ddel_dedges_ok g1 u v e W1 Ed1) as (g2 & R2 & W2 & F2).
    exists g2; split; [exact R2|split; [exact W2|]].
    exists e; split; [reflexivity|].
    eapply eff_ext; [eapply eff_trans; [exact F1|exact F2]| |].
    + intros a b; rewrite (ef_get _ _ _ _ F1); reflexivity.
    + intros a b; unfold at2; rewrite (ef_del _ _ _ _ F1); reflexivity.
Qed.

Lemma restore_half_err g u v : eget g u v = None -> dget2 (dedges g) u v = None ->
  restore_half u v g = (g, Err KeyError).
Proof.
  intros E Ed; unfold restore_half; rewrite (bind_ok _ _ g g g) by reflexivity.
  unfold eget in E; unfold dmem2; rewrite E, Ed; reflexivity.
Qed.

Lemma restore_half_wf g u v : WF g -> dmem (nodes g) u = true -> dmem (nodes g) v = true ->
  WF (fst (restore_half u v g)) /\ nodes (fst (restore_half u v g)) = nodes g.
Proof.
  intros W Hu Hv.
  destruct (is_some (eget g u v) || is_some (dget2 (dedges g) u v)) eqn:Hx.
  - destruct (restore_half_ok g u v W Hu Hv Hx) as (g' & R & W' & F); rewrite R; simpl.
    split; [exact W'|]. destruct (eget g u v).
    + apply (ef_nodes _ _ _ _ F).
    + destruct F as (e' & _ & F); apply (ef_nodes _ _ _ _ F).
  - destruct (eget g u v) eqn:E; [discriminate|]; destruct (dget2 (dedges g) u v) eqn:Ed; [discriminate|].
    rewrite restore_half_err by assumption; simpl; auto.
Qed.

(* ---------- update ---------- *)

Lemma upd2_ok g u v e f : WF g -> eget g u v = Some e -> e_u (f e) = e_u e -> e_v (f e) = e_v e ->
  exists g', upd2 u v f g = (g', Ok tt) /\ WF g' /\ eff g g' (at2 u v (Some (f e)) (eget g)) (dget2 (dedges g)).
Proof.
  intros W E Fu Fv; destruct (upd_pair_ok g u v e f W E Fu Fv) as (g' & R & W' & P).
  exists g'; split; [exact R|split; [exact W'|apply pair_upd_eff; exact P]].
Qed.

Definition upd_entry (md : option meta) (t : option etype) (e : edge) : edge :=
  let e1 := match md with Some m => set_meta (Some m) e | None => e end in
  match t with Some t => set_type t e1 | None => e1 end.

Lemma at2_at2 u v x y f a b : at2 u v x (at2 u v y f) a b = at2 u v x f a b.
Proof. unfold at2; destruct (eqb a u && eqb b v); reflexivity. Qed.

Lemma update_directed_ok g u v e md t : WF g -> eget g u v = Some e ->
  exists g', update_directed_edge u v md t g = (g', Ok tt) /\ WF g' /\
    eff g g' (at2 u v (Some (upd_entry md t e)) (eget g)) (dget2 (dedges g)).
Proof.
  intros W E; destruct (wf_fwd _ W _ _ _ E) as (Hu & Hv & Hne & Eu & Ev).
  unfold update_directed_edge.
  rewrite (bind_ok _ _ _ _ _ (need_node_ok _ _ Hu)), (bind_ok _ _ _ _ _ (need_node_ok _ _ Hv)).
  rewrite (bind_ok _ _ g g g) by reflexivity.
  assert (M : dmem2 (edges g) u v = true) by (apply dmem2_get; eauto); rewrite M; simpl.
  assert (H1 : exists g1, (match md with Some m => upd2 u v (set_meta (Some m)) | None => ret tt end) g = (g1, Ok tt)
     /\ WF g1 /\ eff g g1 (at2 u v (Some (upd_entry md None e)) (eget g)) (dget2 (dedges g))).
  { destruct md as [m|].
    - apply (upd2_ok g u v e (set_meta (Some m)) W E); reflexivity.
    - exists g; split; [reflexivity|split; [exact W|]].
      eapply eff_ext; [apply eff_refl| |reflexivity].
      intros a b; simpl; rewrite <- E; symmetry; apply at2_id. }
  destruct H1 as (g1 & R1 & W1 & F1); rewrite (bind_ok _ _ _ _ _ R1).
  destruct t as [t|].
  - assert (E1 : eget g1 u v = Some (upd_entry md None e)) by (rewrite (ef_get _ _ _ _ F1); apply at2_same).
    destruct (upd2_ok g1 u v _ (set_type t) W1 E1) as (g2 & R2 & W2 & F2); [reflexivity|reflexivity|].
    exists g2; split; [exact R2|split; [exact W2|]].
    eapply eff_ext; [eapply eff_trans; [exact F1|exact F2]| |].
    + intros a b; rewrite (at2_ext u v _ _ _ a b (ef_get _ _ _ _ F1)), at2_at2; reflexivity.
    + intros a b; apply (ef_del _ _ _ _ F1).
  - exists g1; split; [reflexivity|split; [exact W1|exact F1]].
Qed.

Lemma update_directed_reject g u v md t :
  dmem (nodes g) u = false \/ dmem (nodes g) v = false \/ eget g u v = None ->
  update_directed_edge u v md t g = (g, Err GraphError).
Proof.
  intros Hr; unfold update_directed_edge.
  destruct (dmem (nodes g) u) eqn:Hu.
  - rewrite (bind_ok _ _ _ _ _ (need_node_ok _ _ Hu)).
    destruct (dmem (nodes g) v) eqn:Hv.
    + rewrite (bind_ok _ _ _ _ _ (need_node_ok _ _ Hv)).
      destruct Hr as [X|[X|X]]; try discriminate.
      rewrite (bind_ok _ _ g g g) by reflexivity.
      unfold eget in X; unfold dmem2; rewrite X; reflexivity.
    + apply bind_err, need_node_err; exact Hv.
  - apply bind_err, need_node_err; exact Hu.
Qed.

Lemma upd4_ok g u v e e' f : WF g -> eget g u v = Some e -> eget g v u = Some e' ->
  (forall x, e_u (f x) = e_u x) -> (forall x, e_v (f x) = e_v x) ->
  exists g', upd4 u v f g = (g', Ok tt) /\ WF g' /\
    eff g g' (at2 v u (Some (f e')) (at2 u v (Some (f e)) (eget g))) (dget2 (dedges g)).
Proof.
  intros W E E' Fu Fv.
  destruct (wf_fwd _ W _ _ _ E) as (Hu & Hv & Hne & _ & _).
  destruct (upd2_ok g u v e f W E (Fu e) (Fv e)) as (g1 & R1 & W1 & F1).
  assert (E1 : eget g1 v u = Some e') by (rewrite (ef_get _ _ _ _ F1), at2_other by congruence; exact E').
  destruct (upd2_ok g1 v u e' f W1 E1 (Fu e') (Fv e')) as (g2 & R2 & W2 & F2).
  exists g2; split; [|split; [exact W2|]].
  - clear W2 F2 F1. revert R1 R2; unfold upd4, upd2, bind, on_edges, on_redges.
    destruct (dupd2 (edges g) u v f) as [x1|] eqn:X1; [|intros; discriminate].
    simpl. destruct (dupd2 (redges g) v u f) as [x2|] eqn:X2; [|intros; discriminate].
    intros [= <-]; simpl.
    destruct (dupd2 x1 v u f) as [y1|] eqn:Y1; [|intros; discriminate].
    simpl. destruct (dupd2 x2 u v f) as [y2|] eqn:Y2; [|intros; discriminate].
    intros [= <-].
    assert (Z : exists z, dupd2 (redges g) u v f = Some z /\ dupd2 z v u f = Some y2).
    { unfold dupd2, dset2, dget2 in *.
      destruct (dget (redges g) v) as [rv|] eqn:Dv; [|discriminate].
      destruct (dget rv u) as [a|] eqn:Da; [|discriminate].
      injection X2 as <-. revert Y2.
      rewrite dget_dset, (eqb_neq u v) by congruence.
      destruct (dget (redges g) u) as [ru|] eqn:Du; [|discriminate].
      destruct (dget ru v) as [b|] eqn:Db; [|discriminate].
      intros [= <-]. eexists; split; [reflexivity|].
      rewrite dget_dset, (eqb_neq v u) by congruence. rewrite Dv, Da.
      f_equal. apply dict_ext_keys.
      - apply NoDup_dset, NoDup_dset, (wf_r _ W).
      - rewrite !dkeys_dset_in; try reflexivity;
          try (apply In_dkeys_dset; right); apply dmem_In; unfold dmem; rewrite ?Du, ?Dv; reflexivity.
      - intros k; rewrite !dget_dset.
        destruct (eqb_spec k v), (eqb_spec k u); congruence. }
    destruct Z as (z & Z1 & Z2). rewrite Z1; simpl. rewrite Z2; reflexivity.
  - eapply eff_ext; [eapply eff_trans; [exact F1|exact F2]| |].
    + intros a b; unfold at2 at 1 2; rewrite (ef_get _ _ _ _ F1); reflexivity.
    + intros a b; apply (ef_del _ _ _ _ F1).
Qed.

Lemma at2_comm u v x u' v' y f a b : (u, v) <> (u', v') ->
  at2 u v x (at2 u' v' y f) a b = at2 u' v' y (at2 u v x f) a b.
Proof.
  intros N; unfold at2.
  destruct (eqb_spec a u) as [->|]; destruct (eqb_spec b v) as [->|]; simpl; try reflexivity.
  destruct (eqb_spec u u') as [->|]; destruct (eqb_spec v v') as [->|]; simpl; congruence.
Qed.

Lemma update_edge_ok g u v e e' md t : WF g -> eget g u v = Some e -> eget g v u = Some e' ->
  exists g', update_edge u v md t g = (g', Ok tt) /\ WF g' /\
    eff g g' (at2 v u (Some (upd_entry md t e')) (at2 u v (Some (upd_entry md t e)) (eget g))) (dget2 (dedges g)).
Proof.
  intros W E E'; destruct (wf_fwd _ W _ _ _ E) as (Hu & Hv & Hne & Eu & Ev).
  unfold update_edge.
  rewrite (bind_ok _ _ _ _ _ (need_node_ok _ _ Hu)), (bind_ok _ _ _ _ _ (need_node_ok _ _ Hv)).
  rewrite (bind_ok _ _ g g g) by reflexivity.
  destruct (WF_row_v _ _ _ _ W E) as [Ru Rv]; rewrite Ru, Rv; simpl.
  assert (M : dmem2 (edges g) u v = true) by (apply dmem2_get; eauto); rewrite M.
  assert (M' : dmem2 (edges g) v u = true) by (apply dmem2_get; eauto); rewrite M'; simpl.
  assert (H1 : exists g1, (match md with Some m => upd4 u v (set_meta (Some m)) | None => ret tt end) g = (g1, Ok tt)
     /\ WF g1 /\ eff g g1 (at2 v u (Some (upd_entry md None e')) (at2 u v (Some (upd_entry md None e)) (eget g))) (dget2 (dedges g))).
  { destruct md as [m|].
    - apply (upd4_ok g u v e e' (set_meta (Some m)) W E E'); reflexivity.
    - exists g; split; [reflexivity|split; [exact W|]].
      eapply eff_ext; [apply eff_refl| |reflexivity].
      intros a b; simpl. symmetry. rewrite <- E, <- E'.
      rewrite (at2_ext v u _ _ _ a b (at2_id u v (eget g))). apply at2_id. }
  destruct H1 as (g1 & R1 & W1 & F1); rewrite (bind_ok _ _ _ _ _ R1).
  destruct t as [t|].
  - assert (E1 : eget g1 u v = Some (upd_entry md None e)).
    { rewrite (ef_get _ _ _ _ F1), at2_other by congruence; apply at2_same. }
    assert (E1' : eget g1 v u = Some (upd_entry md None e')).
    { rewrite (ef_get _ _ _ _ F1); apply at2_same. }
    destruct (upd4_ok g1 u v _ _ (set_type t) W1 E1 E1') as (g2 & R2 & W2 & F2); [reflexivity|reflexivity|].
    exists g2; split; [exact R2|split; [exact W2|]].
    eapply eff_ext; [eapply eff_trans; [exact F1|exact F2]| |].
    + intros a b; rewrite (at2_ext v u _ _ _ a b (fun a b => at2_ext u v _ _ _ a b (ef_get _ _ _ _ F1))).
      unfold at2, upd_entry. destruct (eqb a v && eqb b u); [reflexivity|].
      destruct (eqb a u && eqb b v); reflexivity.
    + intros a b; apply (ef_del _ _ _ _ F1).
  - exists g1; split; [reflexivity|split; [exact W1|exact F1]].
Qed.

Lemma update_edge_reject g u v md t : WF g ->
  dmem (nodes g) u = false \/ dmem (nodes g) v = false \/ eget g u v = None \/ eget g v u = None ->
  update_edge u v md t g = (g, Err GraphError).
Proof.
  intros W Hr; unfold update_edge.
  destruct (dmem (nodes g) u) eqn:Hu.
  - rewrite (bind_ok _ _ _ _ _ (need_node_ok _ _ Hu)).
    destruct (dmem (nodes g) v) eqn:Hv.
    + rewrite (bind_ok _ _ _ _ _ (need_node_ok _ _ Hv)).
      rewrite (bind_ok _ _ g g g) by reflexivity.
      unfold eget in Hr.
      destruct (dmem (edges g) u); [|reflexivity]. destruct (dmem (edges g) v); [|reflexivity]. simpl.
      unfold dmem2.
      destruct Hr as [X|[X|[X|X]]]; try discriminate; rewrite X; [|reflexivity].
      destruct (dget2 (edges g) v u); reflexivity.
    + apply bind_err, need_node_err; exact Hv.
  - apply bind_err, need_node_err; exact Hu.
Qed.

(* ---------- purge ---------- *)

Definition inl2 (l : list (id * id)) (a b : id) : bool := mem (a, b) l.

Lemma remove_all_ok l g : WF g ->
  (forall a b, In (a, b) l -> dmem (nodes g) a = true /\ dmem (nodes g) b = true) ->
  exists g', remove_all_directed l g = (g', Ok tt) /\ WF g' /\
    nodes g' = nodes g /\ ahist g' = ahist g /\ ehist g' = ehist g /\ dkeys (edges g') = dkeys (edges g) /\
    (forall a b, eget g' a b = if mem (a, b) l then None else eget g a b) /\
    (forall a b, dget2 (dedges g') a b =
       if mem (a, b) l then orel (eget g a b) (dget2 (dedges g) a b) else dget2 (dedges g) a b).
Proof.
  revert g; induction l as [|[u v] l IH]; intros g W Hl.
  - exists g; split; [reflexivity|split; [exact W|auto 10]].
  - assert (Huv : dmem (nodes g) u = true /\ dmem (nodes g) v = true) by (apply Hl; left; reflexivity).
    destruct Huv as [Hu Hv].
    destruct (remove_directed_hard_ok g u v W Hu Hv) as (g1 & R1 & W1 & F1).
    assert (X1 : ehist g1 = ehist g /\ dkeys (edges g1) = dkeys (edges g)).
    { clear - R1 W Hu Hv. revert R1; unfold remove_directed_edge, bind, need_node, gget, on_dedges, on_edges, on_redges, ret.
      rewrite Hu, Hv. destruct (dget2 (edges g) u v) as [e|]; [|intros [= <-]; auto].
      destruct (dset2 (dedges g) u v e) as [x1|]; [|discriminate]. simpl.
      destruct (ddel2 (edges g) u v) as [x2|] eqn:X2; [|discriminate]. simpl.
      destruct (ddel2 (redges g) v u) as [x3|]; [|discriminate]. intros [= <-]; simpl; split; [reflexivity|].
      eapply ddel2_keys; exact X2. }
    destruct X1 as [X1 X2].
    assert (Hl1 : forall a b, In (a, b) l -> dmem (nodes g1) a = true /\ dmem (nodes g1) b = true).
    { intros a b Hin; rewrite (ef_nodes _ _ _ _ F1); apply Hl; right; exact Hin. }
    destruct (IH g1 W1 Hl1) as (g2 & R2 & W2 & A1 & A2 & A3 & A4 & A5 & A6).
    exists g2; split; [simpl; rewrite (bind_ok _ _ _ _ _ R1); exact R2|].
    split; [exact W2|].
    split; [rewrite A1; apply (ef_nodes _ _ _ _ F1)|].
    split; [rewrite A2; apply (ef_ah _ _ _ _ F1)|].
    split; [congruence|]. split; [congruence|].
    assert (Hm : forall a b, mem (a, b) ((u, v) :: l) = eqb a u && eqb b v || mem (a, b) l) by reflexivity.
    split; intros a b; rewrite Hm.
    + rewrite A5, (ef_get _ _ _ _ F1); unfold at2.
      destruct (eqb a u && eqb b v), (mem (a, b) l); reflexivity.
    + rewrite A6, (ef_get _ _ _ _ F1), (ef_del _ _ _ _ F1); unfold at2.
      destruct (eqb_spec a u) as [->|]; [destruct (eqb_spec b v) as [->|]|]; simpl;
        destruct (mem _ l); reflexivity.
Qed.

Lemma soft_deleted_In g u v : WF g ->
  In (u, v) (soft_deleted_entries g) <-> exists e, eget g u v = Some e /\ e_del e = true.
Proof.
  intros W; unfold soft_deleted_entries; rewrite in_map_iff; split.
  - intros [[[a b] e] [[= -> ->] Hin]]. apply filter_In in Hin; destruct Hin as [Hin Hd].
    apply all_entries_In in Hin; [|apply (wf_e _ W)]. exists e; auto.
  - intros [e [E Hd]]; exists (u, v, e); split; [reflexivity|].
    apply filter_In; split; [apply all_entries_In; [apply (wf_e _ W)|exact E]|exact Hd].
Qed.

Lemma purge_ok g : WF g ->
  exists g', purge_soft_deleted_edges g = (g', Ok tt) /\ WF g' /\
    nodes g' = nodes g /\ ahist g' = ahist g /\ ehist g' = ehist g /\ dkeys (edges g') = dkeys (edges g) /\
    (forall a b, eget g' a b = match eget g a b with Some e => if e_del e then None else Some e | None => None end) /\
    (forall a b, dget2 (dedges g') a b =
       match eget g a b with Some e => if e_del e then Some e else dget2 (dedges g) a b
                           | None => dget2 (dedges g) a b end).
Proof.
  intros W; unfold purge_soft_deleted_edges; rewrite (bind_ok _ _ g g g) by reflexivity.
  assert (Hn : forall a b, In (a, b) (soft_deleted_entries g) -> dmem (nodes g) a = true /\ dmem (nodes g) b = true).
  { intros a b Hin; apply soft_deleted_In in Hin; [|exact W]; destruct Hin as [e [E _]].
    destruct (wf_fwd _ W _ _ _ E) as (X & Y & _); auto. }
  replace (forallb _ _) with true.
  - destruct (remove_all_ok _ g W Hn) as (g' & R & W' & A1 & A2 & A3 & A4 & A5 & A6).
    exists g'; repeat (split; [assumption|]).
    assert (M : forall a b, mem (a, b) (soft_deleted_entries g) =
               match eget g a b with Some e => e_del e | None => false end).
    { intros a b; destruct (mem (a, b) (soft_deleted_entries g)) eqn:M.
      - apply mem_In, soft_deleted_In in M; [|exact W]; destruct M as [e [E D]]; rewrite E; auto.
      - apply mem_not_In in M; rewrite soft_deleted_In in M by exact W.
        destruct (eget g a b) as [e|] eqn:E; [|reflexivity].
        destruct (e_del e) eqn:D; [|reflexivity]. exfalso; apply M; eauto. }
    split; intros a b; [rewrite A5|rewrite A6]; rewrite M; destruct (eget g a b) as [e|]; try reflexivity;
      destruct (e_del e); reflexivity.
  - symmetry; apply forallb_forall; intros [a b] Hin; simpl.
    destruct (Hn a b Hin) as [-> ->]; reflexivity.
Qed.

(* ---------- nodes and history ---------- *)

Lemma add_node_wf g n vs i : WF g -> WF (fst (add_node n vs i g)).
Proof.
  intros W; unfold add_node; destruct (dmem (nodes g) i) eqn:E; [exact W|].
  destruct vs as [vs|]; [|exact W]; simpl.
  assert (M : forall a, dmem (nodes g) a = true -> dmem (dset (nodes g) i (mkNode n vs)) a = true).
  { intros a Ha; apply dmem_In in Ha; apply dmem_In, In_dkeys_dset; auto. }
  constructor; simpl; try apply W.
  - apply NoDup_dset; apply W.
  - intros u v e Eg; destruct (wf_fwd _ W u v e Eg) as (A & B & C & D & F); auto.
  - intros u v e Eg; destruct (wf_del _ W u v e Eg) as (A & B & C); auto.
  - intros u Hu; apply M, (wf_rows _ W); exact Hu.
Qed.

Lemma add_edge_history_wf g u v a : WF g -> WF (fst (add_edge_history u v a g)).
Proof. intros W; destruct W; constructor; assumption. Qed.

(* ---------- every operation keeps a consistent graph consistent ---------- *)

(* A hard undirected removal is regular when the pair has entries in both directions or in neither. *)
Definition regular_op (g : graph) (o : gop) : Prop :=
  match o with
  | ORemove u v false => dmem2 (edges g) u v = dmem2 (edges g) v u
  | _ => True
  end.

Lemma run_op_wf g o : WF g -> regular_op g o -> WF (fst (run_op o g)).
Proof.
  intros W Hr; destruct o as [n vs i|u v md t|u v md t|u v s|u v|u v s|u v|u v md t|u v md t| |u v a]; simpl.
  - apply add_node_wf; exact W.
  - destruct (dmem (nodes g) u) eqn:Hu; [destruct (dmem (nodes g) v) eqn:Hv; [destruct (id_dec u v) as [->|N]|]|].
    + rewrite (proj1 (add_edge_reject g v v md t (or_intror (or_intror eq_refl)))); exact W.
    + destruct (add_edge_ok g u v md t W Hu Hv N) as (g' & R & W' & _); rewrite R; exact W'.
    + rewrite (proj1 (add_edge_reject g u v md t (or_intror (or_introl Hv)))); exact W.
    + rewrite (proj1 (add_edge_reject g u v md t (or_introl Hu))); exact W.
  - destruct (dmem (nodes g) u) eqn:Hu; [destruct (dmem (nodes g) v) eqn:Hv; [destruct (id_dec u v) as [->|N]|]|].
    + rewrite (proj2 (add_edge_reject g v v md t (or_intror (or_intror eq_refl)))); exact W.
    + destruct (add_directed_edge_ok g u v md t W Hu Hv N) as (g' & R & W' & _); rewrite R; exact W'.
    + rewrite (proj2 (add_edge_reject g u v md t (or_intror (or_introl Hv)))); exact W.
    + rewrite (proj2 (add_edge_reject g u v md t (or_introl Hu))); exact W.
  - destruct (dmem (nodes g) u) eqn:Hu; [destruct (dmem (nodes g) v) eqn:Hv|].
    + destruct s.
      * destruct (remove_edge_soft_ok g u v W Hu Hv) as (g' & R & W' & _); rewrite R; exact W'.
      * destruct (remove_edge_hard_ok g u v W Hu Hv Hr) as (g' & R & W' & _); rewrite R; exact W'.
    + rewrite remove_edge_reject by auto; exact W.
    + rewrite remove_edge_reject by auto; exact W.
  - unfold restore_edge, bind, need_node.
    destruct (dmem (nodes g) u) eqn:Hu; [|exact W]. destruct (dmem (nodes g) v) eqn:Hv; [|exact W].
    destruct (restore_half_wf g u v W Hu Hv) as [W1 N1].
    destruct (restore_half u v g) as [g1 [[]|e]]; simpl in *; [|exact W1].
    apply restore_half_wf; [exact W1|rewrite N1; exact Hv|rewrite N1; exact Hu].
  - destruct (dmem (nodes g) u) eqn:Hu; [destruct (dmem (nodes g) v) eqn:Hv|].
    + destruct s.
      * destruct (remove_directed_soft_ok g u v W Hu Hv) as (g' & R & W' & _); rewrite R; exact W'.
      * destruct (remove_directed_hard_ok g u v W Hu Hv) as (g' & R & W' & _); rewrite R; exact W'.
    + rewrite remove_directed_reject by auto; exact W.
    + rewrite remove_directed_reject by auto; exact W.
  - destruct (dmem (nodes g) u) eqn:Hu; [destruct (dmem (nodes g) v) eqn:Hv|].
    + destruct (is_some (eget g u v) || is_some (dget2 (dedges g) u v)) eqn:Hx.
      * destruct (restore_directed_ok g u v W Hu Hv Hx) as (g' & R & W' & _); rewrite R; exact W'.
      * unfold restore_directed_edge.
        rewrite (bind_ok _ _ _ _ _ (need_node_ok _ _ Hu)), (bind_ok _ _ _ _ _ (need_node_ok _ _ Hv)).
        rewrite (bind_ok _ _ g g g) by reflexivity.
        unfold eget in Hx; unfold dmem2.
        destruct (dget2 (edges g) u v); [discriminate|]; destruct (dget2 (dedges g) u v); [discriminate|exact W].
    + unfold restore_directed_edge, bind, need_node; rewrite Hu, Hv; exact W.
    + unfold restore_directed_edge, bind, need_node; rewrite Hu; exact W.
  - destruct (eget g u v) as [e|] eqn:E; [destruct (eget g v u) as [e'|] eqn:E'|].
    + destruct (update_edge_ok g u v e e' md t W E E') as (g' & R & W' & _); rewrite R; exact W'.
    + rewrite update_edge_reject by auto; exact W.
    + rewrite update_edge_reject by auto; exact W.
  - destruct (eget g u v) as [e|] eqn:E.
    + destruct (update_directed_ok g u v e md t W E) as (g' & R & W' & _); rewrite R; exact W'.
    + rewrite update_directed_reject by auto; exact W.
  - destruct (purge_ok g W) as (g' & R & W' & _); rewrite R; exact W'.
  - apply add_edge_history_wf; exact W.
Qed.

Fixpoint regular (os : list gop) (g : graph) : Prop :=
  match os with
  | [] => True
  | o :: r => regular_op g o /\ regular r (fst (run_op o g))
  end.

Lemma run_ops_wf os g : WF g -> regular os g -> WF (run_ops os g).
Proof.
  revert g; induction os as [|o os IH]; intros g W Hr; [exact W|].
  destruct Hr as [H1 H2]; unfold run_ops; simpl; apply IH; [apply run_op_wf; assumption|exact H2].
Qed.
