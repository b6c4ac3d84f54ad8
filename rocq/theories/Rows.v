(* Actions and purges never remove a row of the edge table. *)
From Verif Require Import Base PyDict PyDictFacts Graph Actions.

Definition rows_le (g g' : graph) : Prop := forall a, dmem (edges g) a = true -> dmem (edges g') a = true.
Definition mono {A} (m : ST A) : Prop := forall g, rows_le g (fst (m g)).

Lemma rows_refl g : rows_le g g. Proof. intros a; auto. Qed.
Lemma rows_trans g1 g2 g3 : rows_le g1 g2 -> rows_le g2 g3 -> rows_le g1 g3. Proof. intros A B a H; auto. Qed.
Lemma mono_ret {A} (a : A) : mono (ret a). Proof. intros g; apply rows_refl. Qed.
Lemma mono_raise {A} e : mono (@raise A e). Proof. intros g; apply rows_refl. Qed.
Lemma mono_gget : mono gget. Proof. intros g; apply rows_refl. Qed.
Lemma mono_bind {A B} (m : ST A) (k : A -> ST B) : mono m -> (forall a, mono (k a)) -> mono (bind m k).
Proof.
  intros M K g. unfold bind. specialize (M g). destruct (m g) as [g1 [a|e]]; [|exact M]. eapply rows_trans; [exact M|apply K].
Qed.
Lemma mono_need u : mono (need_node u).
Proof. intros g. unfold need_node. destruct (dmem (nodes g) u); apply rows_refl. Qed.
Definition keeps_rows (f : dict2 -> option dict2) : Prop := forall d d' a, f d = Some d' -> dmem d a = true -> dmem d' a = true.
Lemma mono_edges f : keeps_rows f -> mono (on_edges f).
Proof. intros K g a Ha. unfold on_edges. destruct (f (edges g)) as [d|] eqn:F; cbn; [eapply K; eassumption|exact Ha]. Qed.
Lemma mono_redges f : mono (on_redges f).
Proof. intros g a Ha. unfold on_redges. destruct (f (redges g)); exact Ha. Qed.
Lemma mono_dedges f : mono (on_dedges f).
Proof. intros g a Ha. unfold on_dedges. destruct (f (dedges g)); exact Ha. Qed.
Lemma dset_rows (d : dict2) u r a : dmem d a = true -> dmem (dset d u r) a = true.
Proof. intros H. apply dmem_In in H. apply dmem_In, In_dkeys_dset. auto. Qed.
Lemma rows_dset2 u v e : keeps_rows (fun d => dset2 d u v e).
Proof. intros d d' a F H. unfold dset2 in F. destruct (dget d u); [|discriminate]. injection F as <-. apply dset_rows; exact H. Qed.
Lemma rows_ddel2 u v : keeps_rows (fun d => ddel2 d u v).
Proof. intros d d' a F H. unfold ddel2 in F. destruct (dget d u) as [r|]; [|discriminate]. destruct (dmem r v); [|discriminate]. injection F as <-. apply dset_rows; exact H. Qed.
Lemma rows_dupd2 u v f : keeps_rows (fun d => dupd2 d u v f).
Proof. intros d d' a F H. unfold dupd2 in F. destruct (dget2 d u v); [|discriminate]. eapply rows_dset2; eassumption. Qed.
Lemma mono_init u v : mono (init_edge u v).
Proof.
  intros g. unfold init_edge; cbn [fst]. assert (IE : forall w g, rows_le g (init_entry w g)).
  { intros w g1 a Ha. unfold init_entry. destruct (dmem (edges g1) w); [exact Ha|]. cbn. apply dset_rows; exact Ha. }
  assert (IH : forall x y g, rows_le g (init_hist x y g)).
  { intros x y g1 a Ha. unfold init_hist. destruct (dmem (ehist g1) (x, y)); exact Ha. }
  eapply rows_trans; [apply IE|]. eapply rows_trans; [apply IE|]. eapply rows_trans; [apply IH|]. apply IH.
Qed.
Lemma mono_hist u v i : mono (add_edge_history u v i).
Proof. intros g a Ha. exact Ha. Qed.

Ltac mono_tac := repeat first
  [ apply mono_ret | apply mono_raise | apply mono_gget | apply mono_need | apply mono_redges | apply mono_dedges | apply mono_init | apply mono_hist
  | (apply mono_edges; first [apply rows_dset2|apply rows_ddel2|apply rows_dupd2])
  | (apply mono_bind; [|intros ?])
  | match goal with |- mono (if ?b then _ else _) => destruct b end
  | match goal with |- mono (match ?b with _ => _ end) => destruct b end ].

Lemma mono_action i : mono (apply_action i).
Proof.
  unfold apply_action, remove_edge, update_edge, update_directed_edge, remove_directed_edge, restore_edge, restore_half, restore_directed_edge,
    add_edge, add_directed_edge, soft_flag, upd4, upd2. mono_tac.
Qed.
Lemma mono_purge : mono purge_soft_deleted_edges.
Proof.
  unfold purge_soft_deleted_edges. apply mono_bind; [apply mono_gget|]. intros g. destruct (forallb _ _); [|apply mono_raise].
  generalize (soft_deleted_entries g). induction l as [|[u v] l IH]; cbn [remove_all_directed]; [apply mono_ret|].
  apply mono_bind; [|intros _; exact IH]. unfold remove_directed_edge, soft_flag. mono_tac.
Qed.
