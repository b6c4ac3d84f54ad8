(* Facts about Python string functions. *)
From Coq Require Import Ascii.
From Coq Require DecimalString DecimalZ DecimalPos DecimalFacts.
From Verif Require Import Base PyStr.
Open Scope string_scope.
Open Scope list_scope.

Notation chars := list_ascii_of_string.
Lemma chars_app a b : chars (a ++ b)%string = chars a ++ chars b.
Proof. induction a as [|x a IH]; cbn; [reflexivity|]. rewrite IH. reflexivity. Qed.
Lemma chars_inj a b : chars a = chars b -> a = b.
Proof. intros H. rewrite <- (string_of_list_ascii_of_string a), <- (string_of_list_ascii_of_string b), H. reflexivity. Qed.
Lemma app_assoc_s a b c : ((a ++ b) ++ c)%string = (a ++ (b ++ c))%string.
Proof. induction a as [|x a IH]; cbn; [reflexivity|]. rewrite IH. reflexivity. Qed.
Lemma app_nil_s a : (a ++ "")%string = a.
Proof. induction a as [|x a IH]; cbn; [reflexivity|]. rewrite IH. reflexivity. Qed.
Lemma prefix_cons x p y s : String.prefix (String x p) (String y s) = if Ascii.ascii_dec x y then String.prefix p s else false.
Proof. reflexivity. Qed.
Lemma prefix_iff p s : String.prefix p s = true <-> exists t, s = (p ++ t)%string.
Proof.
  revert s. induction p as [|x p IH]; intros s.
  - split; [intros _; exists s; reflexivity|intros _; destruct s; reflexivity].
  - destruct s as [|y s]; [split; [discriminate|intros [t H]; discriminate]|]. rewrite prefix_cons. destruct (Ascii.ascii_dec x y) as [->|N].
    + rewrite IH. split; intros [t H]; exists t; [rewrite H; reflexivity|injection H; auto].
    + split; [discriminate|]. intros [t H]. injection H. congruence.
Qed.
Lemma startswith_iff s p : startswith s p = true <-> exists t, s = (p ++ t)%string.
Proof. apply prefix_iff. Qed.
Lemma rev_chars s : chars (rev_string s) = rev (chars s).
Proof. unfold rev_string. apply list_ascii_of_string_of_list_ascii. Qed.
Lemma rev_string_inv s : rev_string (rev_string s) = s.
Proof. apply chars_inj. rewrite !rev_chars. apply rev_involutive. Qed.
Lemma rev_string_app a b : rev_string (a ++ b)%string = (rev_string b ++ rev_string a)%string.
Proof. apply chars_inj. rewrite rev_chars, !chars_app, !rev_chars. apply rev_app_distr. Qed.
Lemma endswith_iff s p : endswith s p = true <-> exists t, s = (t ++ p)%string.
Proof.
  unfold endswith. rewrite prefix_iff. split; intros [t H].
  - exists (rev_string t). rewrite <- (rev_string_inv s), H, rev_string_app, rev_string_inv. reflexivity.
  - exists (rev_string t). rewrite H. apply rev_string_app.
Qed.

(* split and join *)
Lemma split_nonempty c s : split c s <> [].
Proof. destruct s as [|x s]; cbn; [discriminate|]. destruct (Ascii.eqb x c); [discriminate|]. destruct (split c s); discriminate. Qed.
Lemma split_clean c s : ~ In c (chars s) -> split c s = [s].
Proof.
  induction s as [|x s IH]; cbn; intros N; [reflexivity|]. destruct (Ascii.eqb_spec x c) as [->|Nx]; [exfalso; apply N; left; reflexivity|]. rewrite IH by tauto. reflexivity.
Qed.
Lemma split_app c a b : split c (a ++ String c b)%string = split c a ++ split c b.
Proof.
  induction a as [|x a IH]; cbn; [rewrite Ascii.eqb_refl; reflexivity|]. destruct (Ascii.eqb x c); [rewrite IH; reflexivity|]. rewrite IH.
  destruct (split c a) as [|y t] eqn:E; [destruct (split_nonempty c a E)|]. reflexivity.
Qed.
Lemma concat_cons sep x y l : String.concat sep (x :: y :: l) = (x ++ sep ++ String.concat sep (y :: l))%string.
Proof. reflexivity. Qed.
Lemma join_split c s : join (String c "") (split c s) = s.
Proof.
  induction s as [|x s IH]; cbn [split]; [reflexivity|]. destruct (Ascii.eqb_spec x c) as [->|N].
  - unfold join in *. destruct (split c s) as [|y t] eqn:E; [destruct (split_nonempty c s E)|]. rewrite concat_cons, IH. reflexivity.
  - destruct (split c s) as [|y t] eqn:E; [destruct (split_nonempty c s E)|]. unfold join in *. rewrite <- IH. destruct t; reflexivity.
Qed.
Lemma split_last c a b : ~ In c (chars b) -> last_seg (split c (a ++ String c b)%string) = b /\ join (String c "") (removelast (split c (a ++ String c b)%string)) = a.
Proof.
  intros N. rewrite split_app, (split_clean c b N). unfold last_seg. rewrite last_last, removelast_last. split; [reflexivity|apply join_split].
Qed.

(* decimals *)
Definition is_digit (a : ascii) : bool := Nat.leb 48 (nat_of_ascii a) && Nat.leb (nat_of_ascii a) 57.
Lemma uint_digits u a : In a (chars (DecimalString.NilEmpty.string_of_uint u)) -> is_digit a = true.
Proof. induction u; cbn; intros H; try (destruct H as [<-|H]; [reflexivity|auto]); destruct H. Qed.
Lemma uint_digits0 u a : In a (chars (DecimalString.NilZero.string_of_uint u)) -> is_digit a = true.
Proof. destruct u; try apply uint_digits. cbn. intros [<-|[]]. reflexivity. Qed.
Definition numeral_char (a : ascii) : bool := is_digit a || Ascii.eqb a "-"%char.
Lemma str_Z_chars z a : In a (chars (str_Z z)) -> numeral_char a = true.
Proof.
  unfold numeral_char. destruct z as [|p|p]; cbn [str_Z].
  - cbn. intros [<-|[]]. reflexivity.
  - intros H. rewrite (uint_digits0 _ _ H). reflexivity.
  - cbn [chars]. intros [<-|H]; [reflexivity|]. rewrite (uint_digits0 _ _ H). reflexivity.
Qed.
Lemma numeral_no a z : numeral_char a = false -> ~ In a (chars (str_Z z)).
Proof. intros H I. apply str_Z_chars in I. congruence. Qed.
Lemma digit_range a : is_digit a = true -> 48 <= nat_of_ascii a <= 57.
Proof. unfold is_digit. rewrite andb_true_iff, !Nat.leb_le. auto. Qed.
Lemma numeral_nospace a : numeral_char a = true -> is_space a = false.
Proof.
  unfold numeral_char. rewrite orb_true_iff. intros [H|H]; [|apply Ascii.eqb_eq in H; subst; reflexivity]. apply digit_range in H. unfold is_space.
  rewrite !orb_false_iff, !andb_false_iff. repeat split; [apply Nat.eqb_neq; lia|right; apply Nat.leb_gt; lia|right; apply Nat.leb_gt; lia].
Qed.
Lemma lstrip_id s : (forall a, In a (chars s) -> is_space a = false) -> lstrip s = s.
Proof. destruct s as [|a s]; cbn; intros H; [reflexivity|]. rewrite (H a) by (left; reflexivity). reflexivity. Qed.
Lemma strip_id s : (forall a, In a (chars s) -> is_space a = false) -> strip s = s.
Proof.
  intros H. unfold strip. rewrite (lstrip_id s H), lstrip_id; [apply rev_string_inv|]. intros a I. rewrite rev_chars in I. apply H. apply in_rev. exact I.
Qed.
Lemma pos_not_nil p : Pos.to_uint p <> Decimal.Nil.
Proof. apply DecimalPos.Unsigned.to_uint_nonnil. Qed.
Lemma usu0 u : u <> Decimal.Nil -> DecimalString.NilZero.uint_of_string (DecimalString.NilZero.string_of_uint u) = Some u.
Proof. intros H. apply DecimalString.NilZero.usu. exact H. Qed.
Lemma string_of_uint_cons u : exists a r, DecimalString.NilZero.string_of_uint u = String a r /\ is_digit a = true.
Proof. destruct u; cbn; do 2 eexists; (split; [reflexivity|reflexivity]). Qed.
Lemma of_to_uint p : Z.of_uint (Pos.to_uint p) = Zpos p.
Proof. unfold Z.of_uint. rewrite DecimalPos.Unsigned.of_to. reflexivity. Qed.
Lemma py_int_str z : py_int (str_Z z) = Some z.
Proof.
  unfold py_int. rewrite strip_id; [|intros a I; apply numeral_nospace; eapply str_Z_chars; exact I]. destruct z as [|p|p]; cbn [str_Z].
  - reflexivity.
  - destruct (string_of_uint_cons (Pos.to_uint p)) as (a & r & E & Da). rewrite E. apply digit_range in Da.
    destruct (Ascii.eqb_spec a "-"%char) as [->|]; [cbn in Da; lia|]. destruct (Ascii.eqb_spec a "+"%char) as [->|]; [cbn in Da; lia|].
    rewrite <- E, usu0 by apply pos_not_nil. cbn [option_map]. rewrite of_to_uint. reflexivity.
  - rewrite Ascii.eqb_refl, usu0 by apply pos_not_nil. cbn [option_map]. rewrite of_to_uint. reflexivity.
Qed.
Lemma str_Z_inj a b : str_Z a = str_Z b -> a = b.
Proof. intros H. assert (E := f_equal py_int H). rewrite !py_int_str in E. injection E; auto. Qed.

Lemma commonprefix_iff a b : commonprefix a b = a <-> exists t, b = (a ++ t)%string.
Proof.
  revert b. induction a as [|x a IH]; intros b; cbn.
  - split; [intros _; exists b; reflexivity|reflexivity].
  - destruct b as [|y b]; [split; [discriminate|intros [t H]; discriminate]|]. destruct (Ascii.eqb_spec x y) as [->|N].
    + split.
      * intros H. injection H as H. apply IH in H. destruct H as [t ->]. exists t. reflexivity.
      * intros [t H]. injection H as H. f_equal. apply IH. exists t. exact H.
    + split; [discriminate|]. intros [t H]. injection H. congruence.
Qed.
