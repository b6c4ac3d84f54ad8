(* Laws of the dict model. *)
From Verif Require Import Base PyDict.

Section DictFacts.
Context {K V : Type} `{EqB K}.
Implicit Types (d : dict K V) (k : K) (v : V).

Lemma dget_In d k v : dget d k = Some v -> In (k, v) d.
Proof.
  induction d as [|[k' v'] r IH]; simpl; [discriminate|].
  destruct (eqb_spec k k') as [->|N]; intros E; [left; congruence | right; auto].
Qed.

Lemma dget_None d k : dget d k = None <-> ~ In k (dkeys d).
Proof.
  induction d as [|[k' v'] r IH]; simpl; [tauto|].
  destruct (eqb_spec k k') as [->|N]; split; try congruence.
  - intros Hn; exfalso; apply Hn; auto.
  - intros E [E'|E']; [congruence|]; apply IH in E; contradiction.
  - intros Hn; apply IH; intros Hi; apply Hn; auto.
Qed.

Lemma dmem_In d k : dmem d k = true <-> In k (dkeys d).
Proof.
  unfold dmem; destruct (dget d k) eqn:E.
  - split; [intros _|reflexivity].
    apply dget_In in E; apply in_map_iff; exists (k, v); auto.
  - apply dget_None in E; split; [discriminate|contradiction].
Qed.

Lemma dmem_not_In d k : dmem d k = false <-> ~ In k (dkeys d).
Proof. rewrite <- dmem_In; destruct (dmem d k); split; congruence. Qed.

Lemma dmem_get d k : dmem d k = true <-> exists v, dget d k = Some v.
Proof.
  unfold dmem; destruct (dget d k); split; intros Hx; try congruence; eauto.
  destruct Hx; congruence.
Qed.

Lemma NoDup_dget d k v : NoDup (dkeys d) -> In (k, v) d -> dget d k = Some v.
Proof.
  induction d as [|[k' v'] r IH]; simpl; [tauto|].
  intros Hn Hi; inversion Hn as [|? ? Hni Hn']; subst.
  destruct (eqb_spec k k') as [->|N].
  - destruct Hi as [E|Hi]; [congruence|].
    exfalso; apply Hni; apply in_map_iff; exists (k', v); auto.
  - destruct Hi as [E|Hi]; [congruence|]; auto.
Qed.

Lemma dget_dset_same d k v : dget (dset d k v) k = Some v.
Proof.
  induction d as [|[k' v'] r IH]; simpl.
  - rewrite eqb_refl; reflexivity.
  - destruct (eqb k k') eqn:E; simpl; rewrite E; auto.
Qed.

Lemma dget_dset_other d k k' v : k' <> k -> dget (dset d k v) k' = dget d k'.
Proof.
  intros N; induction d as [|[k0 v0] r IH]; simpl.
  - rewrite eqb_neq by exact N; reflexivity.
  - destruct (eqb_spec k k0) as [->|N0]; simpl.
    + rewrite eqb_neq by exact N; reflexivity.
    + destruct (eqb k' k0); auto.
Qed.

Lemma dget_dset d k k' v : dget (dset d k v) k' = if eqb k' k then Some v else dget d k'.
Proof.
  destruct (eqb_spec k' k) as [->|N]; [apply dget_dset_same | apply dget_dset_other; exact N].
Qed.

Lemma dkeys_dset_in d k v : In k (dkeys d) -> dkeys (dset d k v) = dkeys d.
Proof.
  induction d as [|[k0 v0] r IH]; simpl; [tauto|].
  destruct (eqb_spec k k0) as [->|N]; simpl; [reflexivity|].
  intros [E|Hi]; [congruence|]; rewrite IH by exact Hi; reflexivity.
Qed.

Lemma dkeys_dset_notin d k v : ~ In k (dkeys d) -> dkeys (dset d k v) = dkeys d ++ [k].
Proof.
  induction d as [|[k0 v0] r IH]; simpl; [reflexivity|].
  intros Hn; destruct (eqb_spec k k0) as [->|N]; [exfalso; auto|]; simpl.
  rewrite IH; auto.
Qed.

Lemma In_dkeys_dset d k v k' : In k' (dkeys (dset d k v)) <-> k' = k \/ In k' (dkeys d).
Proof.
  induction d as [|[k0 v0] r IH]; simpl; [intuition|].
  destruct (eqb_spec k k0) as [->|N]; simpl; [intuition congruence|].
  rewrite IH; intuition.
Qed.

Lemma NoDup_dset d k v : NoDup (dkeys d) -> NoDup (dkeys (dset d k v)).
Proof.
  intros Hn; destruct (in_dec (fun x y => reflect_dec _ _ (eqb_spec x y)) k (dkeys d)) as [Hi|Hi].
  - rewrite dkeys_dset_in by exact Hi; exact Hn.
  - rewrite dkeys_dset_notin by exact Hi.
    apply NoDup_incl_NoDup with (l := k :: dkeys d).
    + constructor; assumption.
    + rewrite app_length; simpl; lia.
    + intros x [->|Hx]; apply in_or_app; simpl; auto.
Qed.

Lemma dget_ddel_same d k : NoDup (dkeys d) -> dget (ddel d k) k = None.
Proof.
  induction d as [|[k0 v0] r IH]; simpl; [reflexivity|].
  intros Hn; inversion Hn as [|? ? Hni Hn']; subst.
  destruct (eqb_spec k k0) as [->|N]; simpl.
  - apply dget_None; exact Hni.
  - rewrite eqb_neq by exact N; auto.
Qed.

Lemma dget_ddel_other d k k' : k' <> k -> dget (ddel d k) k' = dget d k'.
Proof.
  intros N; induction d as [|[k0 v0] r IH]; simpl; [reflexivity|].
  destruct (eqb_spec k k0) as [->|N0]; simpl.
  - rewrite eqb_neq by exact N; reflexivity.
  - destruct (eqb k' k0); auto.
Qed.

Lemma dget_ddel d k k' : NoDup (dkeys d) -> dget (ddel d k) k' = if eqb k' k then None else dget d k'.
Proof.
  intros Hn; destruct (eqb_spec k' k) as [->|N];
    [apply dget_ddel_same; exact Hn | apply dget_ddel_other; exact N].
Qed.

Lemma dkeys_ddel_incl d k : incl (dkeys (ddel d k)) (dkeys d).
Proof.
  induction d as [|[k0 v0] r IH]; simpl; [intros x Hx; exact Hx|].
  destruct (eqb k k0); simpl; [apply incl_tl, incl_refl|].
  intros x [->|Hx]; [left; reflexivity | right; apply IH; exact Hx].
Qed.

Lemma NoDup_ddel d k : NoDup (dkeys d) -> NoDup (dkeys (ddel d k)).
Proof.
  induction d as [|[k0 v0] r IH]; simpl; [auto|].
  intros Hn; inversion Hn as [|? ? Hni Hn']; subst.
  destruct (eqb k k0); [exact Hn'|]; simpl; constructor; [|auto].
  intros Hi; apply Hni; eapply dkeys_ddel_incl; exact Hi.
Qed.

Lemma dset_self d k v : dget d k = Some v -> dset d k v = d.
Proof.
  induction d as [|[k0 v0] r IH]; simpl; [discriminate|].
  destruct (eqb_spec k k0) as [->|N]; intros E; [congruence|]; rewrite IH; auto.
Qed.

Lemma dset_dset d k v v' : dset (dset d k v) k v' = dset d k v'.
Proof.
  induction d as [|[k0 v0] r IH]; simpl.
  - rewrite eqb_refl; reflexivity.
  - destruct (eqb k k0) eqn:E; simpl; rewrite E; [reflexivity|]; rewrite IH; reflexivity.
Qed.

Lemma dict_ext_keys d d' :
  NoDup (dkeys d) -> dkeys d = dkeys d' -> (forall k, dget d k = dget d' k) -> d = d'.
Proof.
  revert d'; induction d as [|[k v] r IH]; intros [|[k' v'] r'] Hn Hk Hg; simpl in *; try discriminate.
  - reflexivity.
  - injection Hk as E1 E2; subst k'. inversion Hn as [|? ? Hni Hn']; subst.
    assert (v = v') as ->.
    { specialize (Hg k); rewrite eqb_refl in Hg; congruence. }
    f_equal; apply IH; [exact Hn'|exact E2|].
    intros k0; specialize (Hg k0).
    destruct (eqb_spec k0 k) as [E|N]; [|exact Hg]; rewrite E.
    transitivity (@None V); [|symmetry]; apply dget_None; [exact Hni|].
    unfold dkeys in *; rewrite <- E2; exact Hni.
Qed.

End DictFacts.
