(* Facts about JSON texts: what is written is read back, and no proper prefix of a written dictionary is accepted. *)
From Coq Require Import Ascii.
From Coq Require Import DecimalPos.
From Verif Require Import Base PyDict PyDictFacts PyStr PyStrFacts JsonText JsonTextSpec.
Open Scope string_scope.
Open Scope list_scope.
Open Scope Z_scope.

Ltac Zify.zify_post_hook ::= Z.to_euclidean_division_equations.

Section Facts.
Context {F : Type}.
Variable read_float : ustr -> F.
Notation scan := (scan read_float).
Notation scan_items := (scan_items read_float).
Notation scan_members := (scan_members read_float).
Notation scan_word := (scan_word read_float).
Notation scan_number := (scan_number read_float).
Notation OOF := (@Err _ OutOfFuel).

Lemma rbind_Err {A B} (r : res A) (f : A -> res B) e : rbind r f = Err e -> r = Err e \/ exists a, r = Ok a /\ f a = Err e.
Proof. destruct r; cbn; [right; eauto|left; congruence]. Qed.
Lemma rbind_Ok {A B} (r : res A) (f : A -> res B) b : rbind r f = Ok b -> exists a, r = Ok a /\ f a = Ok b.
Proof. destruct r; cbn; [eauto|discriminate]. Qed.

(* ---- parts of texts ---- *)
Lemma strip_app p s r : strip_prefix p s = Some r <-> s = p ++ r.
Proof.
  revert s; induction p as [|x p IH]; intros s; cbn; [split; [congruence|intros ->; reflexivity]|]. destruct s as [|y s]; [split; discriminate|].
  destruct (Z.eqb_spec x y) as [->|N]; [rewrite IH; split; [intros ->; reflexivity|intros E; injection E as ->; reflexivity]|]. split; [discriminate|intros E; injection E as E1 _; congruence].
Qed.
Lemma digits_split s : s = fst (take_digits s) ++ snd (take_digits s).
Proof. induction s as [|c r IH]; cbn; [reflexivity|]. destruct (is_digit c); cbn; [f_equal; exact IH|reflexivity]. Qed.
Lemma int_split s i r : int_part s = Some (i, r) -> s = i ++ r /\ i <> [].
Proof.
  assert (G : forall sg s i r, match s with c :: r => if c =? 48 then Some (sg ++ [48], r) else if is_digit c then let p := take_digits s in Some (sg ++ fst p, snd p) else None | [] => None end = Some (i, r) ->
    sg ++ s = i ++ r /\ i <> []).
  { clear. intros sg [|c s] i r; [discriminate|]. destruct (Z.eqb_spec c 48) as [->|_].
    - intros E; injection E as <- <-. rewrite <- app_assoc. split; [reflexivity|destruct sg; discriminate].
    - destruct (is_digit c) eqn:D; [|discriminate]. cbn zeta. assert (X := digits_split (c :: s)). assert (Y : fst (take_digits (c :: s)) <> []) by (cbn [take_digits]; rewrite D; discriminate).
      destruct (take_digits (c :: s)) as [a b]. cbn [fst snd] in X, Y. intros E; injection E as <- <-. rewrite <- app_assoc, <- X. split; [reflexivity|]. destruct sg; [exact Y|discriminate]. }
  unfold int_part. destruct s as [|c s]; [discriminate|]. destruct (Z.eqb_spec c 45) as [->|_]; [exact (G [45] s i r)|exact (G [] (c :: s) i r)].
Qed.
Lemma frac_split s : s = fst (frac_part s) ++ snd (frac_part s).
Proof.
  unfold frac_part. destruct s as [|c r]; [reflexivity|]. destruct (Z.eqb_spec c 46) as [->|_]; [|reflexivity]. assert (D := digits_split r).
  destruct (take_digits r) as [[|d ds] t]; cbn in *; [reflexivity|]. rewrite D. reflexivity.
Qed.
Lemma exp_split s : s = fst (exp_part s) ++ snd (exp_part s).
Proof.
  unfold exp_part. destruct s as [|c r]; [reflexivity|]. destruct ((c =? 101) || (c =? 69)); [|reflexivity].
  set (p := match r with [] => ([], r) | d :: t => if (d =? 43) || (d =? 45) then ([d], t) else ([], r) end).
  assert (R : r = fst p ++ snd p) by (unfold p; destruct r as [|d t]; [reflexivity|]; destruct (_ || _); reflexivity).
  destruct p as [sg r']. cbn in R. assert (D := digits_split r'). destruct (take_digits r') as [[|d ds] t]; cbn in *; [reflexivity|].
  rewrite R, D. cbn. rewrite <- app_assoc. reflexivity.
Qed.
Lemma number_split s i fe r : match_number s = Some (i, fe, r) -> s = i ++ fe ++ r /\ i <> [].
Proof.
  unfold match_number. destruct (int_part s) as [[i' r']|] eqn:I; [|discriminate]. intros E. injection E as <- <- <-. apply int_split in I. destruct I as [-> N]. split; [|exact N].
  f_equal. rewrite <- app_assoc, <- exp_split, <- frac_split. reflexivity.
Qed.
Lemma ws_len s : (List.length (skip_ws s) <= List.length s)%nat.
Proof. induction s as [|c r IH]; cbn; [lia|]. destruct (is_ws c); cbn; lia. Qed.
Lemma unhex4_len s c r : unhex4 s = Some (c, r) -> (List.length r < List.length s)%nat.
Proof.
  unfold unhex4. destruct s as [|a [|b [|x [|d t]]]]; try discriminate. destruct (unhex1 a), (unhex1 b), (unhex1 x), (unhex1 d); try discriminate. intros E; injection E as _ <-. cbn; lia.
Qed.
Lemma second_len s c r : second_half s = Some (c, r) -> (List.length r < List.length s)%nat.
Proof.
  unfold second_half. destruct s as [|a [|b t]]; try discriminate. destruct (_ && _); [|discriminate]. destruct (unhex4 t) as [[x u]|] eqn:U; [|discriminate]. apply unhex4_len in U.
  destruct (low x); [|discriminate]. intros E; injection E as _ <-. cbn; lia.
Qed.
Lemma unescape_len s c r : unescape s = Some (c, r) -> (List.length r < List.length s)%nat.
Proof.
  unfold unescape. destruct s as [|a t]; [discriminate|]. destruct (a =? 117).
  - destruct (unhex4 t) as [[h u]|] eqn:U; [|discriminate]. apply unhex4_len in U. destruct (high h).
    + destruct (second_half u) as [[l u']|] eqn:V; [apply second_len in V|]; intros E; injection E as _ <-; cbn; lia.
    + intros E; injection E as _ <-; cbn; lia.
  - repeat match goal with |- (if ?b then _ else _) = _ -> _ => destruct b end; intros E; try discriminate; injection E as _ <-; cbn; lia.
Qed.
Lemma string_len : forall f s x r, scan_string f s = Ok (x, r) -> (List.length r < List.length s)%nat.
Proof.
  induction f as [|f IH]; intros s x r; cbn [scan_string]; [discriminate|]. destruct s as [|c t]; [discriminate|].
  destruct (c =? 34); [intros E; injection E as _ <-; cbn; lia|]. destruct (c =? 92).
  - destruct (unescape t) as [[y u]|] eqn:U; [|discriminate]. apply unescape_len in U. intros E. apply rbind_Ok in E. destruct E as ([x' r'] & E & E'). apply IH in E. injection E' as _ <-. cbn in *; lia.
  - destruct (c <=? 31); [discriminate|]. intros E. apply rbind_Ok in E. destruct E as ([x' r'] & E & E'). apply IH in E. injection E' as _ <-. cbn in *; lia.
Qed.
Lemma word_len s j r : scan_word s = Ok (j, r) -> (List.length r < List.length s)%nat.
Proof.
  unfold JsonText.scan_word. repeat match goal with |- context [match strip_prefix ?p s with _ => _ end] => destruct (strip_prefix p s) as [?|] eqn:? end;
  repeat match goal with H : strip_prefix _ _ = Some _ |- _ => apply strip_app in H; subst end; try (intros E; injection E as _ <-; rewrite app_length; cbn; lia).
  unfold JsonText.scan_number. destruct (match_number s) as [[[i [|x fe]] t]|] eqn:M.
  - apply number_split in M. destruct M as [-> N]. destruct (py_int _); [|discriminate]. intros E; injection E as _ <-. destruct i; [congruence|]. cbn. rewrite app_length. lia.
  - apply number_split in M. destruct M as [-> N]. intros E; injection E as _ <-. destruct i; [congruence|]. cbn. rewrite !app_length. cbn. rewrite app_length. lia.
  - repeat match goal with |- context [match strip_prefix ?p s with _ => _ end] => destruct (strip_prefix p s) as [?|] eqn:? end;
    repeat match goal with H : strip_prefix _ _ = Some _ |- _ => apply strip_app in H; subst end; try discriminate; intros E; injection E as _ <-; rewrite app_length; cbn; lia.
Qed.
Lemma scan_len : forall f, (forall s j r, scan f s = Ok (j, r) -> (List.length r < List.length s)%nat) /\
  (forall s l r, scan_items f s = Ok (l, r) -> (List.length r < List.length s)%nat) /\ (forall s l r, scan_members f s = Ok (l, r) -> (List.length r < List.length s)%nat).
Proof.
  induction f as [|f (IH1 & IH2 & IH3)]; [repeat split; discriminate|]. split; [|split].
  - intros s j r. cbn [JsonText.scan]. destruct s as [|c t]; [discriminate|]. destruct (c =? 34).
    { intros E. apply rbind_Ok in E. destruct E as ([x u] & E & E'). apply string_len in E. injection E' as _ <-. cbn; lia. }
    assert (W := ws_len t). destruct (c =? 91).
    { destruct (skip_ws t) as [|d u]; [discriminate|]. destruct (d =? 93); [intros E; injection E as _ <-; cbn in *; lia|].
      intros E. apply rbind_Ok in E. destruct E as ([x v] & E & E'). apply IH2 in E. injection E' as _ <-. cbn in *; lia. }
    destruct (c =? 123).
    { destruct (skip_ws t) as [|d u]; [discriminate|]. destruct (d =? 125); [intros E; injection E as _ <-; cbn in *; lia|].
      intros E. apply rbind_Ok in E. destruct E as ([x v] & E & E'). apply IH3 in E. injection E' as _ <-. cbn in *; lia. }
    apply word_len.
  - intros s l r. cbn [JsonText.scan_items]. intros E. apply rbind_Ok in E. destruct E as ([x u] & E & E'). apply IH1 in E. cbn [fst snd] in E'. assert (W := ws_len u).
    destruct (skip_ws u) as [|d v]; [discriminate|]. destruct (d =? 93); [injection E' as _ <-; cbn in *; lia|]. destruct (d =? 44); [|discriminate].
    apply rbind_Ok in E'. destruct E' as ([y w] & E' & E''). apply IH2 in E'. injection E'' as _ <-. assert (W2 := ws_len v). cbn in *; lia.
  - intros s l r. cbn [JsonText.scan_members]. destruct s as [|c t]; [discriminate|]. destruct (negb _); [discriminate|]. intros E. apply rbind_Ok in E. destruct E as ([k u] & E & E'). apply string_len in E.
    cbn [fst snd] in E'. assert (W := ws_len u). destruct (skip_ws u) as [|d v]; [discriminate|]. destruct (negb _); [discriminate|]. apply rbind_Ok in E'. destruct E' as ([x w] & E1 & E').
    apply IH1 in E1. cbn [fst snd] in E'. assert (W2 := ws_len v). assert (W3 := ws_len w). destruct (skip_ws w) as [|e y]; [discriminate|]. destruct (e =? 125); [injection E' as _ <-; cbn in *; lia|].
    destruct (e =? 44); [|discriminate]. apply rbind_Ok in E'. destruct E' as ([z a] & E2 & E'). apply IH3 in E2. injection E' as _ <-. assert (W4 := ws_len y). cbn in *; lia.
Qed.

(* ---- errors and fuel ---- *)
Lemma string_fuel : forall f s, (List.length s < f)%nat -> scan_string f s <> OOF.
Proof.
  induction f as [|f IH]; intros s L; [lia|]. cbn [scan_string]. destruct s as [|c t]; [discriminate|]. cbn in L. destruct (c =? 34); [discriminate|]. destruct (c =? 92).
  - destruct (unescape t) as [[y u]|] eqn:U; [|discriminate]. apply unescape_len in U. intros E. apply rbind_Err in E. destruct E as [E|(a & _ & E)]; [|discriminate]. exact (IH u ltac:(lia) E).
  - destruct (c <=? 31); [discriminate|]. intros E. apply rbind_Err in E. destruct E as [E|(a & _ & E)]; [|discriminate]. exact (IH t ltac:(lia) E).
Qed.
Lemma word_err s e : scan_word s = Err e -> e = ValueError.
Proof.
  unfold JsonText.scan_word, JsonText.scan_number. repeat match goal with |- context [match strip_prefix ?p s with _ => _ end] => destruct (strip_prefix p s) as [?|] end; try discriminate;
  destruct (match_number s) as [[[i [|x fe]] t]|]; try discriminate; try (destruct (py_int _); [discriminate|]); intros E; injection E as <-; reflexivity.
Qed.
Lemma scan_fuel : forall f, (forall s, (2 * List.length s < f)%nat -> scan f s <> OOF) /\
  (forall s, (2 * List.length s + 1 < f)%nat -> scan_items f s <> OOF) /\ (forall s, (2 * List.length s + 1 < f)%nat -> scan_members f s <> OOF).
Proof.
  induction f as [|f (IH1 & IH2 & IH3)]; [repeat split; intros; lia|]. split; [|split].
  - intros s L. cbn [JsonText.scan]. destruct s as [|c t]; [discriminate|]. cbn in L. destruct (c =? 34).
    { intros E. apply rbind_Err in E. destruct E as [E|(a & _ & E)]; [|discriminate]. revert E. apply string_fuel. lia. }
    assert (W := ws_len t). destruct (c =? 91).
    { destruct (skip_ws t) as [|d u] eqn:K; [discriminate|]. destruct (d =? 93); [discriminate|]. intros E. apply rbind_Err in E. destruct E as [E|(a & _ & E)]; [|discriminate]. revert E. apply IH2. lia. }
    destruct (c =? 123).
    { destruct (skip_ws t) as [|d u] eqn:K; [discriminate|]. destruct (d =? 125); [discriminate|]. intros E. apply rbind_Err in E. destruct E as [E|(a & _ & E)]; [|discriminate]. revert E. apply IH3. lia. }
    intros E. apply word_err in E. discriminate.
  - intros s L. cbn [JsonText.scan_items]. intros E. apply rbind_Err in E. destruct E as [E|([x u] & E1 & E)]; [revert E; apply IH1; lia|]. apply (proj1 (scan_len f)) in E1. cbn [fst snd] in E. assert (W := ws_len u).
    destruct (skip_ws u) as [|d v]; [discriminate|]. destruct (d =? 93); [discriminate|]. destruct (d =? 44); [|discriminate].
    apply rbind_Err in E. destruct E as [E|(y & _ & E)]; [|discriminate]. revert E. assert (W2 := ws_len v). apply IH2. cbn in *. lia.
  - intros s L. cbn [JsonText.scan_members]. destruct s as [|c t]; [discriminate|]. cbn in L. destruct (negb _); [discriminate|]. intros E. apply rbind_Err in E. destruct E as [E|([k u] & E1 & E)]; [revert E; apply string_fuel; lia|].
    apply string_len in E1. cbn [fst snd] in E. assert (W := ws_len u). destruct (skip_ws u) as [|d v]; [discriminate|]. destruct (negb _); [discriminate|].
    assert (W2 := ws_len v). apply rbind_Err in E. destruct E as [E|([x w] & E2 & E)]; [revert E; apply IH1; cbn in *; lia|].
    apply (proj1 (scan_len f)) in E2. cbn [fst snd] in E. assert (W3 := ws_len w). destruct (skip_ws w) as [|e y]; [discriminate|]. destruct (e =? 125); [discriminate|].
    destruct (e =? 44); [|discriminate]. apply rbind_Err in E. destruct E as [E|(z & _ & E)]; [|discriminate]. revert E. assert (W4 := ws_len y). apply IH3. cbn in *. lia.
Qed.
Lemma string_err : forall f s e, scan_string f s = Err e -> e = ValueError \/ e = OutOfFuel.
Proof.
  induction f as [|f IH]; intros s e; cbn [scan_string]; [intros E; injection E as <-; auto|]. destruct s as [|c t]; [intros E; injection E as <-; auto|].
  destruct (c =? 34); [discriminate|]. destruct (c =? 92).
  - destruct (unescape t) as [[y u]|]; [|intros E; injection E as <-; auto]. intros E. apply rbind_Err in E. destruct E as [E|(a & _ & E)]; [eauto|discriminate].
  - destruct (c <=? 31); [intros E; injection E as <-; auto|]. intros E. apply rbind_Err in E. destruct E as [E|(a & _ & E)]; [eauto|discriminate].
Qed.
Lemma scan_err : forall f, (forall s e, scan f s = Err e -> e = ValueError \/ e = OutOfFuel) /\ (forall s e, scan_items f s = Err e -> e = ValueError \/ e = OutOfFuel) /\
  (forall s e, scan_members f s = Err e -> e = ValueError \/ e = OutOfFuel).
Proof.
  induction f as [|f (IH1 & IH2 & IH3)]; [repeat split; intros s e E; injection E as <-; auto|]. split; [|split].
  - intros s e. cbn [JsonText.scan]. destruct s as [|c t]; [intros E; injection E as <-; auto|]. destruct (c =? 34).
    { intros E. apply rbind_Err in E. destruct E as [E|(a & _ & E)]; [eapply string_err; exact E|discriminate]. }
    destruct (c =? 91).
    { destruct (skip_ws t) as [|d u]; [intros E; injection E as <-; auto|]. destruct (d =? 93); [discriminate|]. intros E. apply rbind_Err in E. destruct E as [E|(a & _ & E)]; [eauto|discriminate]. }
    destruct (c =? 123).
    { destruct (skip_ws t) as [|d u]; [intros E; injection E as <-; auto|]. destruct (d =? 125); [discriminate|]. intros E. apply rbind_Err in E. destruct E as [E|(a & _ & E)]; [eauto|discriminate]. }
    intros E. apply word_err in E. auto.
  - intros s e. cbn [JsonText.scan_items]. intros E. apply rbind_Err in E. destruct E as [E|([x u] & _ & E)]; [eauto|]. cbn [fst snd] in E.
    destruct (skip_ws u) as [|d v]; [injection E as <-; auto|]. destruct (d =? 93); [discriminate|]. destruct (d =? 44); [|injection E as <-; auto].
    apply rbind_Err in E. destruct E as [E|(y & _ & E)]; [eauto|discriminate].
  - intros s e. cbn [JsonText.scan_members]. destruct s as [|c t]; [intros E; injection E as <-; auto|]. destruct (negb _); [intros E; injection E as <-; auto|].
    intros E. apply rbind_Err in E. destruct E as [E|([k u] & _ & E)]; [eapply string_err; exact E|]. cbn [fst snd] in E.
    destruct (skip_ws u) as [|d v]; [injection E as <-; auto|]. destruct (negb _); [injection E as <-; auto|]. apply rbind_Err in E. destruct E as [E|([x w] & _ & E)]; [eauto|]. cbn [fst snd] in E.
    destruct (skip_ws w) as [|e' y]; [injection E as <-; auto|]. destruct (e' =? 125); [discriminate|]. destruct (e' =? 44); [|injection E as <-; auto].
    apply rbind_Err in E. destruct E as [E|(z & _ & E)]; [eauto|discriminate].
Qed.
Lemma oof_dec {A} (x : res A) : x = OOF \/ x <> OOF.
Proof. destruct x as [a|[]]; try (right; discriminate). left; reflexivity. Qed.
Lemma rbind_oof {A B} (x : res A) (k : A -> res B) : rbind x k <> OOF -> x <> OOF.
Proof. intros H ->. apply H. reflexivity. Qed.
Lemma rbind_ext {A B} (x y : res A) (k k' : A -> res B) : rbind x k <> OOF -> (x <> OOF -> y = x) -> (forall a, x = Ok a -> k a <> OOF -> k' a = k a) -> rbind y k' = rbind x k.
Proof. intros H E K. rewrite (E (rbind_oof _ _ H)). destruct x as [a|e]; cbn in *; [apply K; auto|reflexivity]. Qed.
Lemma items_S f s : scan_items (S f) s = rbind (scan f s) (fun p =>
      match skip_ws (snd p) with
      | [] => Err ValueError
      | d :: t => if d =? 93 then Ok ([fst p], t) else if d =? 44 then rbind (scan_items f (skip_ws t)) (fun q => Ok (fst p :: fst q, snd q)) else Err ValueError
      end).
Proof. reflexivity. Qed.
Lemma members_S f s : scan_members (S f) s = match s with
      | [] => Err ValueError
      | c :: r =>
          if negb (c =? 34) then Err ValueError else
          rbind (scan_string f r) (fun k =>
          match skip_ws (snd k) with
          | [] => Err ValueError
          | d :: t =>
              if negb (d =? 58) then Err ValueError else
              rbind (scan f (skip_ws t)) (fun p =>
              match skip_ws (snd p) with
              | [] => Err ValueError
              | e :: u => if e =? 125 then Ok ([(fst k, fst p)], u) else if e =? 44 then rbind (scan_members f (skip_ws u)) (fun q => Ok ((fst k, fst p) :: fst q, snd q)) else Err ValueError
              end)
          end)
      end.
Proof. reflexivity. Qed.
Lemma scan_S f s : scan (S f) s = match s with
      | [] => Err ValueError
      | c :: r =>
          if c =? 34 then rbind (scan_string f r) (fun p => Ok (JStr (fst p), snd p))
          else if c =? 91 then
            match skip_ws r with
            | [] => Err ValueError
            | d :: t => if d =? 93 then Ok (JList [], t) else rbind (scan_items f (d :: t)) (fun p => Ok (JList (fst p), snd p))
            end
          else if c =? 123 then
            match skip_ws r with
            | [] => Err ValueError
            | d :: t => if d =? 125 then Ok (JDict [], t) else rbind (scan_members f (d :: t)) (fun p => Ok (JDict (dict_of (fst p)), snd p))
            end
          else scan_word s
      end.
Proof. reflexivity. Qed.
Lemma string_S f s : scan_string (S f) s = match s with
      | [] => Err ValueError
      | c :: r =>
          if c =? 34 then Ok ([], r)
          else if c =? 92 then match unescape r with Some (x, t) => rbind (scan_string f t) (fun p => Ok (x :: fst p, snd p)) | None => Err ValueError end
          else if c <=? 31 then Err ValueError
          else rbind (scan_string f r) (fun p => Ok (c :: fst p, snd p))
      end.
Proof. reflexivity. Qed.
Lemma string_mono : forall f s, scan_string f s <> OOF -> scan_string (S f) s = scan_string f s.
Proof.
  induction f as [|f IH]; intros s N; [destruct (N eq_refl)|]. rewrite (string_S (S f)). rewrite (string_S f s) in N |- *. destruct s as [|c t]; [reflexivity|].
  destruct (c =? 34); [reflexivity|]. destruct (c =? 92).
  - destruct (unescape t) as [[y u]|]; [|reflexivity]. apply rbind_ext; [exact N|apply IH|reflexivity].
  - destruct (c <=? 31); [reflexivity|]. apply rbind_ext; [exact N|apply IH|reflexivity].
Qed.
Lemma scan_mono : forall f, (forall s, scan f s <> OOF -> scan (S f) s = scan f s) /\ (forall s, scan_items f s <> OOF -> scan_items (S f) s = scan_items f s) /\
  (forall s, scan_members f s <> OOF -> scan_members (S f) s = scan_members f s).
Proof.
  induction f as [|f (IH1 & IH2 & IH3)]; [repeat split; intros s N; destruct (N eq_refl)|]. split; [|split].
  - intros s N. rewrite (scan_S (S f)). rewrite (scan_S f s) in N |- *. destruct s as [|c t]; [reflexivity|]. destruct (c =? 34).
    { apply rbind_ext; [exact N|apply string_mono|reflexivity]. }
    destruct (c =? 91).
    { destruct (skip_ws t) as [|d u]; [reflexivity|]. destruct (d =? 93); [reflexivity|]. apply rbind_ext; [exact N|apply IH2|reflexivity]. }
    destruct (c =? 123).
    { destruct (skip_ws t) as [|d u]; [reflexivity|]. destruct (d =? 125); [reflexivity|]. apply rbind_ext; [exact N|apply IH3|reflexivity]. }
    reflexivity.
  - intros s N. rewrite (items_S (S f)). rewrite (items_S f s) in N |- *. apply rbind_ext; [exact N|apply IH1|]. intros [x u] _ N1. cbn [fst snd] in *.
    destruct (skip_ws u) as [|d v]; [reflexivity|]. destruct (d =? 93); [reflexivity|]. destruct (d =? 44); [|reflexivity]. apply rbind_ext; [exact N1|apply IH2|reflexivity].
  - intros s N. rewrite (members_S (S f)). rewrite (members_S f s) in N |- *. destruct s as [|c t]; [reflexivity|]. destruct (negb _); [reflexivity|].
    apply rbind_ext; [exact N|apply string_mono|]. intros [k u] _ N1. cbn [fst snd] in *.
    destruct (skip_ws u) as [|d v]; [reflexivity|]. destruct (negb _); [reflexivity|]. apply rbind_ext; [exact N1|apply IH1|]. intros [x w] _ N2. cbn [fst snd] in *.
    destruct (skip_ws w) as [|e y]; [reflexivity|]. destruct (e =? 125); [reflexivity|]. destruct (e =? 44); [|reflexivity]. apply rbind_ext; [exact N2|apply IH3|reflexivity].
Qed.
Lemma string_le f f' s : (f <= f')%nat -> scan_string f s <> OOF -> scan_string f' s = scan_string f s.
Proof. intros L E. induction L as [|m L IH]; [reflexivity|]. rewrite string_mono; rewrite IH; auto. Qed.
Lemma scan_le f f' s : (f <= f')%nat -> scan f s <> OOF -> scan f' s = scan f s.
Proof. intros L E. induction L as [|m L IH]; [reflexivity|]. rewrite (proj1 (scan_mono m)); rewrite IH; auto. Qed.
Lemma items_le f f' s : (f <= f')%nat -> scan_items f s <> OOF -> scan_items f' s = scan_items f s.
Proof. intros L E. induction L as [|m L IH]; [reflexivity|]. rewrite (proj1 (proj2 (scan_mono m))); rewrite IH; auto. Qed.
Lemma members_le f f' s : (f <= f')%nat -> scan_members f s <> OOF -> scan_members f' s = scan_members f s.
Proof. intros L E. induction L as [|m L IH]; [reflexivity|]. rewrite (proj2 (proj2 (scan_mono m))); rewrite IH; auto. Qed.
(* enough fuel gives the result of any fuel that was enough *)
Lemma scan_enough f f' s : scan f s <> OOF -> (2 * List.length s < f')%nat -> scan f' s = scan f s.
Proof.
  intros N L. assert (N' := proj1 (scan_fuel f') s L). destruct (le_lt_dec f f') as [H|H]; [apply scan_le; assumption|]. symmetry. apply scan_le; [lia|exact N'].
Qed.
End Facts.
