(* Facts about the graph model: two-level dicts, consistency invariant, effect of each mutator. *)
From Verif Require Import Base PyDict PyDictFacts Graph.

Lemma id_dec (a b : id) : {a = b} + {a <> b}.
Proof. exact (string_dec a b). Qed.

(* ---------- two-level dicts ---------- *)

Definition WFd (d : dict2) : Prop :=
  NoDup (dkeys d) /\ (forall u r, dget d u = Some r -> NoDup (dkeys r)).

Lemma dget2_mem d u v e : dget2 d u v = Some e -> dmem d u = true.
Proof. unfold dget2, dmem; destruct (dget d u); congruence. Qed.

Lemma dmem2_get d u v : dmem2 d u v = true <-> exists e, dget2 d u v = Some e.
Proof.
  unfold dmem2; destruct (dget2 d u v) as [e|]; split; intros Hx; try congruence; eauto.
  destruct Hx; congruence.
Qed.

Lemma dmem2_none d u v : dmem2 d u v = false <-> dget2 d u v = None.
Proof. unfold dmem2; destruct (dget2 d u v); split; congruence. Qed.

Lemma dset2_some d u v e : dmem d u = true -> exists d', dset2 d u v e = Some d'.
Proof. unfold dset2, dmem; destruct (dget d u); [eauto|discriminate]. Qed.

Lemma dset2_get d u v e d' : dset2 d u v e = Some d' ->
  forall a b, dget2 d' a b = if eqb a u && eqb b v then Some e else dget2 d a b.
Proof.
  unfold dset2, dget2; destruct (dget d u) as [r|] eqn:E; [|discriminate].
  intros [= <-] a b; rewrite dget_dset.
  destruct (eqb_spec a u) as [->|N]; simpl; [|reflexivity].
  rewrite E, dget_dset; reflexivity.
Qed.

Lemma dset2_keys d u v e d' : dset2 d u v e = Some d' -> dkeys d' = dkeys d.
Proof.
  unfold dset2; destruct (dget d u) as [r|] eqn:E; [|discriminate]; intros [= <-].
  apply dkeys_dset_in; apply dmem_In; unfold dmem; rewrite E; reflexivity.
Qed.

Lemma dset2_wf d u v e d' : WFd d -> dset2 d u v e = Some d' -> WFd d'.
Proof.
  intros [H1 H2] Hs; split; [rewrite (dset2_keys _ _ _ _ _ Hs); exact H1|].
  unfold dset2 in Hs; destruct (dget d u) as [r|] eqn:E; [|discriminate]; injection Hs as <-.
  intros a q; rewrite dget_dset; destruct (eqb_spec a u) as [->|N].
  - intros [= <-]; apply NoDup_dset; eapply H2; exact E.
  - apply H2.
Qed.

Lemma ddel2_some d u v e : dget2 d u v = Some e -> exists d', ddel2 d u v = Some d'.
Proof.
  unfold ddel2, dget2; destruct (dget d u) as [r|]; [|discriminate].
  intros E; unfold dmem; rewrite E; eauto.
Qed.

Lemma ddel2_none d u v : dget2 d u v = None -> ddel2 d u v = None.
Proof.
  unfold ddel2, dget2; destruct (dget d u) as [r|]; [|reflexivity].
  intros E; unfold dmem; rewrite E; reflexivity.
Qed.

Lemma ddel2_get d u v d' : WFd d -> ddel2 d u v = Some d' ->
  forall a b, dget2 d' a b = if eqb a u && eqb b v then None else dget2 d a b.
Proof.
  intros [H1 H2]; unfold ddel2, dget2; destruct (dget d u) as [r|] eqn:E; [|discriminate].
  destruct (dmem r v); [|discriminate].
  intros [= <-] a b; rewrite dget_dset.
  destruct (eqb_spec a u) as [->|N]; simpl; [|reflexivity].
  rewrite E, dget_ddel by (eapply H2; exact E); reflexivity.
Qed.

Lemma ddel2_keys d u v d' : ddel2 d u v = Some d' -> dkeys d' = dkeys d.
Proof.
  unfold ddel2; destruct (dget d u) as [r|] eqn:E; [|discriminate].
  destruct (dmem r v); [|discriminate]; intros [= <-].
  apply dkeys_dset_in; apply dmem_In; unfold dmem; rewrite E; reflexivity.
Qed.

Lemma ddel2_wf d u v d' : WFd d -> ddel2 d u v = Some d' -> WFd d'.
Proof.
  intros [H1 H2] Hs; split; [rewrite (ddel2_keys _ _ _ _ Hs); exact H1|].
  unfold ddel2 in Hs; destruct (dget d u) as [r|] eqn:E; [|discriminate].
  destruct (dmem r v); [|discriminate]; injection Hs as <-.
  intros a q; rewrite dget_dset; destruct (eqb_spec a u) as [->|N].
  - intros [= <-]; apply NoDup_ddel; eapply H2; exact E.
  - apply H2.
Qed.

Lemma dupd2_some d u v f e : dget2 d u v = Some e -> exists d', dupd2 d u v f = Some d'.
Proof.
  intros E; unfold dupd2; rewrite E; apply dset2_some; eapply dget2_mem; exact E.
Qed.

Lemma dupd2_none d u v f : dget2 d u v = None -> dupd2 d u v f = None.
Proof. intros E; unfold dupd2; rewrite E; reflexivity. Qed.

Lemma dupd2_get d u v f e d' : dget2 d u v = Some e -> dupd2 d u v f = Some d' ->
  forall a b, dget2 d' a b = if eqb a u && eqb b v then Some (f e) else dget2 d a b.
Proof. intros E; unfold dupd2; rewrite E; apply dset2_get. Qed.

Lemma dupd2_keys d u v f d' : dupd2 d u v f = Some d' -> dkeys d' = dkeys d.
Proof. unfold dupd2; destruct (dget2 d u v); [apply dset2_keys|discriminate]. Qed.

Lemma dupd2_wf d u v f d' : WFd d -> dupd2 d u v f = Some d' -> WFd d'.
Proof. unfold dupd2; destruct (dget2 d u v); [apply dset2_wf|discriminate]. Qed.

Lemma dset_nil_get d u : dmem d u = false ->
  forall a b, dget2 (dset d u []) a b = dget2 d a b.
Proof.
  intros Hm a b; unfold dget2; rewrite dget_dset.
  destruct (eqb_spec a u) as [->|N]; [|reflexivity].
  apply dmem_not_In, dget_None in Hm; rewrite Hm; reflexivity.
Qed.

Lemma dset_nil_wf d u : WFd d -> WFd (dset d u []).
Proof.
  intros [H1 H2]; split; [apply NoDup_dset; exact H1|].
  intros a r; rewrite dget_dset; destruct (eqb a u); [intros [= <-]; constructor|apply H2].
Qed.

Lemma WFd_nil : WFd [].
Proof. split; [constructor|discriminate]. Qed.

Lemma all_entries_In d u v e : WFd d -> In (u, v, e) (all_entries d) <-> dget2 d u v = Some e.
Proof.
  intros [H1 H2]; unfold all_entries; rewrite in_flat_map; split.
  - intros [[u' r] [Hin Hm]]; simpl in Hm; apply in_map_iff in Hm.
    destruct Hm as [[v' e'] [Heq Hin']]; simpl in Heq; injection Heq as -> -> ->.
    apply NoDup_dget in Hin; [|exact H1].
    unfold dget2; rewrite Hin; apply NoDup_dget; [eapply H2; exact Hin|exact Hin'].
  - unfold dget2; destruct (dget d u) as [r|] eqn:E; [|discriminate].
    intros Hv; exists (u, r); split; [apply dget_In; exact E|].
    simpl; apply in_map_iff; exists (v, e); split; [reflexivity|apply dget_In; exact Hv].
Qed.

Lemma NoDup_app_intro {A} (l1 l2 : list A) :
  NoDup l1 -> NoDup l2 -> (forall x, In x l1 -> ~ In x l2) -> NoDup (l1 ++ l2).
Proof.
  induction l1 as [|x l IH]; simpl; [auto|].
  intros H1 H2 Hd; inversion H1 as [|? ? Hni Hn]; subst; constructor.
  - rewrite in_app_iff; intros [Hi|Hi]; [contradiction|]; apply (Hd x); auto.
  - apply IH; auto.
Qed.

Lemma NoDup_all_entries d : WFd d -> NoDup (map (fun p => fst p) (all_entries d)).
Proof.
  unfold all_entries; induction d as [|[u r] d IH]; intros [H1 H2]; simpl; [constructor|].
  rewrite map_app.
  inversion H1 as [|? ? Hni H1']; subst.
  assert (Hr : NoDup (dkeys r)) by (apply (H2 u); simpl; rewrite eqb_refl; reflexivity).
  assert (IHd : WFd d).
  { split; [exact H1'|]. intros a q Hq; apply (H2 a); simpl.
    rewrite eqb_neq; [exact Hq|]. intros ->; apply Hni.
    apply dmem_In; unfold dmem; rewrite Hq; reflexivity. }
  apply NoDup_app_intro; [| apply IH; exact IHd |].
  - rewrite map_map; simpl.
    replace (map (fun x : id * edge => (u, fst x)) r) with (map (pair u) (dkeys r))
      by (unfold dkeys; rewrite map_map; reflexivity).
    clear -Hr; induction Hr as [|x l Hx Hl IHl]; simpl; constructor; [|exact IHl].
    intros Hi; apply in_map_iff in Hi; destruct Hi as [y [E Hy]]; congruence.
  - intros p Hp Hq.
    apply in_map_iff in Hp; destruct Hp as [t [E Ht]]; apply in_map_iff in Ht.
    destruct Ht as [q [E2 _]]; subst t; simpl in E; subst p.
    apply in_map_iff in Hq; destruct Hq as [[[a b] e] [E3 Hin]]; simpl in E3.
    injection E3 as -> ->.
    change (In (u, fst q, e) (all_entries d)) in Hin.
    apply (all_entries_In d) in Hin; [|exact IHd].
    apply Hni; apply dmem_In; eapply dget2_mem; exact Hin.
Qed.
