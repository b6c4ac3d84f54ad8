(* Facts about JSON texts: what is written is read back, and no proper prefix of a written dictionary is accepted. *)
From Coq Require Import Ascii.
From Coq Require Import DecimalPos.
From Verif Require Import Base PyDict PyDictFacts PyStr PyStrFacts JsonText JsonTextSpec JsonTextFacts.
Open Scope string_scope.
Open Scope list_scope.
Open Scope Z_scope.

Ltac Zify.zify_post_hook ::= Z.to_euclidean_division_equations.

Lemma high_iff c : high c = true <-> high_surrogate c.
Proof. unfold high, high_surrogate. lia. Qed.
Lemma low_iff c : low c = true <-> low_surrogate c.
Proof. unfold low, low_surrogate. lia. Qed.
(* a test for sound strings, for examples *)
Fixpoint sound_b (s : ustr) : bool := match s with [] => true | a :: t => ((0 <=? a) && (a <? 1114112)) && negb (high a && match t with b :: _ => low b | [] => false end) && sound_b t end.
Lemma sound_b_ok s : sound_b s = true -> sound_string s.
Proof.
  induction s as [|a t IH]; cbn [sound_b]; intros H.
  - split; [intros c []|]. intros [|? ?] q a b E; discriminate.
  - apply andb_prop in H. destruct H as (H & Ht). apply andb_prop in H. destruct H as (Ha & Hp). destruct (IH Ht) as (A & B). split.
    + intros c [<-|Hc]; [unfold code_point; lia|exact (A c Hc)].
    + intros [|x p] q a' b E; [|cbn [app] in E; injection E as _ E; exact (B p q a' b E)]. cbn [app] in E. injection E as -> ->. intros (X & Y). apply high_iff in X. apply low_iff in Y. rewrite X, Y in Hp. discriminate.
Qed.

Section Main.
Context {F : Type}.
Variable float_text : F -> ustr.
Variable read_float : ustr -> F.
Notation scan := (scan read_float).
Notation scan_items := (scan_items read_float).
Notation scan_members := (scan_members read_float).
Notation scan_word := (scan_word read_float).
Notation scan_number := (scan_number read_float).
Notation OOF := (@Err _ OutOfFuel).

(* ---- reading a longer text ---- *)
(* the text starts with a character that cannot belong to a number *)
Definition ends_value (c : Z) : bool := is_ws c || (c =? 44) || (c =? 93) || (c =? 125).
Definition safe (r : ustr) : Prop := exists c t, r = c :: t /\ ends_value c = true.
Definition is_num (j : jval F) : bool := match j with JInt _ | JFloat _ => true | _ => false end.
Lemma ws_app s d t q : skip_ws s = d :: t -> skip_ws (s ++ q) = d :: t ++ q.
Proof. induction s as [|c r IH]; cbn; [discriminate|]. destruct (is_ws c); [exact IH|]. intros E; injection E as -> ->. reflexivity. Qed.
Lemma ws_head s d t : skip_ws s = d :: t -> is_ws d = false.
Proof. induction s as [|c r IH]; cbn; [discriminate|]. destruct (is_ws c) eqn:W; [exact IH|]. intros E; injection E as -> ->. exact W. Qed.
Lemma ws_safe s d t : skip_ws s = d :: t -> ends_value d = true -> safe s.
Proof.
  destruct s as [|c r]; cbn; [discriminate|]. destruct (is_ws c) eqn:W; intros E H; exists c, r; (split; [reflexivity|]); unfold ends_value; [rewrite W; reflexivity|].
  injection E as -> _. exact H.
Qed.
Lemma unhex4_app s c r q : unhex4 s = Some (c, r) -> unhex4 (s ++ q) = Some (c, r ++ q).
Proof.
  unfold unhex4. destruct s as [|a [|b [|x [|d t]]]]; try discriminate. cbn. destruct (unhex1 a), (unhex1 b), (unhex1 x), (unhex1 d); try discriminate. intros E; injection E as <- <-. reflexivity.
Qed.
Lemma unescape_app f s c r p q : unescape s = Some (c, r) -> scan_string f r = Ok p -> unescape (s ++ q) = Some (c, r ++ q).
Proof.
  unfold unescape. destruct s as [|a t]; [discriminate|]. cbn [app]. destruct (a =? 117).
  - destruct (unhex4 t) as [[h u]|] eqn:U; [|discriminate]. rewrite (unhex4_app _ _ _ q U). destruct (high h).
    + unfold second_half. destruct u as [|x [|y v]].
      * intros E; injection E as <- <-. destruct f; discriminate.
      * intros E; injection E as <- <-. cbn. destruct f as [|f]; [discriminate|]. cbn [scan_string]. destruct (Z.eqb_spec x 34) as [->|N].
        { intros _. destruct q as [|? ?]; reflexivity. }
        destruct (Z.eqb_spec x 92) as [->|N2]; [cbn; discriminate|]. intros _. destruct q as [|y q]; [reflexivity|]. destruct (Z.eqb_spec x 92); [congruence|reflexivity].
      * cbn [app]. destruct ((x =? 92) && (y =? 117)) eqn:B; [|intros E; injection E as <- <-; reflexivity].
        destruct (unhex4 v) as [[l w]|] eqn:V.
        { rewrite (unhex4_app _ _ _ q V). destruct (low l); intros E; injection E as <- <-; reflexivity. }
        intros E; injection E as <- <-. apply andb_prop in B. destruct B as [B1 B2]. apply Z.eqb_eq in B1, B2. subst x y. destruct f as [|f]; [discriminate|]. cbn [scan_string].
        change (92 =? 34) with false. change (92 =? 92) with true. unfold unescape. change (117 =? 117) with true. cbv iota. rewrite V. discriminate.
    + intros E _; injection E as <- <-. reflexivity.
  - repeat match goal with |- (if ?b then _ else _) = _ -> _ => destruct b end; intros E _; try discriminate; injection E as <- <-; reflexivity.
Qed.
Lemma string_app q : forall f s x r, scan_string f s = Ok (x, r) -> scan_string f (s ++ q) = Ok (x, r ++ q).
Proof.
  induction f as [|f IH]; intros s x r; [discriminate|]. cbn [scan_string]. destruct s as [|c t]; [discriminate|]. cbn [app]. destruct (c =? 34); [intros E; injection E as <- <-; reflexivity|]. destruct (c =? 92).
  - destruct (unescape t) as [[y u]|] eqn:U; [|discriminate]. intros E. apply rbind_Ok in E. destruct E as ([x' r'] & E & E'). rewrite (unescape_app f t y u _ q U E), (IH _ _ _ E). injection E' as <- <-. reflexivity.
  - destruct (c <=? 31); [discriminate|]. intros E. apply rbind_Ok in E. destruct E as ([x' r'] & E & E'). rewrite (IH _ _ _ E). injection E' as <- <-. reflexivity.
Qed.
Lemma digits_app q s : snd (take_digits s) <> [] -> take_digits (s ++ q) = (fst (take_digits s), snd (take_digits s) ++ q).
Proof. induction s as [|c r IH]; cbn; [congruence|]. destruct (is_digit c); cbn; [|reflexivity]. intros N. rewrite (IH N). reflexivity. Qed.
Lemma int_app q s i r : int_part s = Some (i, r) -> r <> [] -> int_part (s ++ q) = Some (i, r ++ q).
Proof.
  assert (G : forall sg s i r, match s with c :: r => if c =? 48 then Some (sg ++ [48], r) else if is_digit c then let p := take_digits s in Some (sg ++ fst p, snd p) else None | [] => None end = Some (i, r) -> r <> [] ->
    match s ++ q with c :: r => if c =? 48 then Some (sg ++ [48], r) else if is_digit c then let p := take_digits (s ++ q) in Some (sg ++ fst p, snd p) else None | [] => None end = Some (i, r ++ q)).
  { clear. intros sg [|c s] i r; [discriminate|]. cbn [app]. destruct (c =? 48); [intros E _; injection E as <- <-; reflexivity|]. destruct (is_digit c); [|discriminate]. cbn zeta.
    assert (X := digits_app q (c :: s)). change (c :: s ++ q) with ((c :: s) ++ q). destruct (take_digits (c :: s)) as [a b]. cbn [fst snd] in *. intros E; injection E as <- <-. intros N. rewrite (X N). reflexivity. }
  unfold int_part. destruct s as [|c s]; [discriminate|]. cbn [app]. destruct (Z.eqb_spec c 45) as [->|_]; [exact (G [45] s i r)|exact (G [] (c :: s) i r)].
Qed.
Lemma frac_app q s : snd (frac_part s) <> [] -> ~ (exists t, snd (frac_part s) = 46 :: t) -> frac_part (s ++ q) = (fst (frac_part s), snd (frac_part s) ++ q).
Proof.
  unfold frac_part. destruct s as [|c r]; [cbn; congruence|]. cbn [app]. destruct (Z.eqb_spec c 46) as [->|_]; [|reflexivity]. assert (X := digits_app q r).
  destruct (take_digits r) as [[|d ds] t]; cbn [fst snd] in *; [intros _ H; destruct H; eauto|]. intros N _. rewrite (X N). reflexivity.
Qed.
Lemma exp_app q s : snd (exp_part s) <> [] -> ~ (exists c t, snd (exp_part s) = c :: t /\ (c = 101 \/ c = 69)) -> exp_part (s ++ q) = (fst (exp_part s), snd (exp_part s) ++ q).
Proof.
  unfold exp_part. destruct s as [|c r]; [cbn; congruence|]. cbn [app]. destruct ((c =? 101) || (c =? 69)) eqn:B; [|reflexivity].
  assert (Bc : c = 101 \/ c = 69) by lia.
  destruct r as [|d t]; [cbn; intros _ H; destruct H; eauto|]. cbn [app].
  destruct ((d =? 43) || (d =? 45)).
  - assert (X := digits_app q t). destruct (take_digits t) as [[|y ds] u]; cbn [fst snd] in *; [intros _ H; destruct H; eauto|]. intros N _. rewrite (X N). reflexivity.
  - assert (X := digits_app q (d :: t)). change (d :: t ++ q) with ((d :: t) ++ q). destruct (take_digits (d :: t)) as [[|y ds] u]; cbn [fst snd] in *; [intros _ H; destruct H; eauto|]. intros N _. rewrite (X N). reflexivity.
Qed.
Lemma safe_not r : safe r -> r <> [] /\ ~ (exists t, r = 46 :: t) /\ ~ (exists c t, r = c :: t /\ (c = 101 \/ c = 69)).
Proof.
  intros (c & t & -> & E). unfold ends_value, is_ws in E. split; [discriminate|]. split; [intros (u & H); injection H as -> _; discriminate|]. intros (d & u & H & Hd). injection H as -> _. destruct Hd as [->| ->]; discriminate.
Qed.
Lemma exp_safe s : ~ (exists t, snd (exp_part s) = 46 :: t) -> ~ (exists t, s = 46 :: t).
Proof. intros H (t & ->). apply H. exists t. reflexivity. Qed.
Lemma exp_nonempty s : snd (exp_part s) <> [] -> s <> [].
Proof. intros H ->. apply H. reflexivity. Qed.
Lemma number_app q s i fe r : match_number s = Some (i, fe, r) -> safe r -> match_number (s ++ q) = Some (i, fe, r ++ q).
Proof.
  intros M S. destruct (safe_not r S) as (N1 & N2 & N3). unfold match_number in *. destruct (int_part s) as [[i' r']|] eqn:I; [|discriminate]. injection M as <- <- <-.
  assert (X := exp_nonempty _ N1). assert (Y := exp_safe _ N2).
  assert (R : r' <> []) by (intros ->; apply X; reflexivity).
  rewrite (int_app q s i' r' I R). rewrite (frac_app q r' X Y). cbn [fst snd]. rewrite (exp_app q _ N1 N3). reflexivity.
Qed.
Definition numhead (c : Z) : bool := is_digit c || (c =? 45) || (c =? 78) || (c =? 73).
Lemma int_head s i r : int_part s = Some (i, r) -> exists c t, s = c :: t /\ numhead c = true.
Proof.
  unfold int_part. destruct s as [|c s]; [discriminate|]. intros E. exists c, s. split; [reflexivity|]. unfold numhead. destruct (Z.eqb_spec c 45) as [->|_]; [reflexivity|].
  destruct (Z.eqb_spec c 48) as [->|_]; [reflexivity|]. destruct (is_digit c); [reflexivity|discriminate].
Qed.
Lemma word_is_number c t : numhead c = true -> scan_word (c :: t) = scan_number (c :: t).
Proof.
  intros H. unfold JsonText.scan_word. assert (N : c <> 110 /\ c <> 116 /\ c <> 102) by (unfold numhead, is_digit in H; lia). destruct N as (A & B & C).
  cbn [lit map list_ascii_of_string strip_prefix]. change (Z.of_nat (nat_of_ascii "n")) with 110. change (Z.of_nat (nat_of_ascii "t")) with 116. change (Z.of_nat (nat_of_ascii "f")) with 102.
  destruct (Z.eqb_spec 110 c); [congruence|]. destruct (Z.eqb_spec 116 c); [congruence|]. destruct (Z.eqb_spec 102 c); [congruence|]. reflexivity.
Qed.
Lemma scan_number_app q s j r : scan_number s = Ok (j, r) -> safe r -> scan_number (s ++ q) = Ok (j, r ++ q).
Proof.
  unfold JsonText.scan_number. destruct (match_number s) as [[[i fe] t]|] eqn:M.
  - assert (K : safe t -> match_number (s ++ q) = Some (i, fe, t ++ q)) by exact (number_app q s i fe t M). destruct fe as [|x fe].
    + destruct (py_int (unlit i)) eqn:P; [|discriminate]. intros E S. injection E as <- <-. rewrite (K S). rewrite P. reflexivity.
    + intros E S. injection E as <- <-. rewrite (K S). reflexivity.
  - destruct (strip_prefix (lit "NaN") s) as [u|] eqn:X; [apply strip_app in X; subst s; intros E _; injection E as <- <-; reflexivity|].
    destruct (strip_prefix (lit "Infinity") s) as [u|] eqn:Y; [apply strip_app in Y; subst s; intros E _; injection E as <- <-; reflexivity|].
    destruct (strip_prefix (lit "-Infinity") s) as [u|] eqn:Z'; [apply strip_app in Z'; subst s; intros E _; injection E as <- <-; reflexivity|discriminate].
Qed.
Lemma scan_number_head s j r : scan_number s = Ok (j, r) -> exists c t, s = c :: t /\ numhead c = true.
Proof.
  unfold JsonText.scan_number. destruct (match_number s) as [[[i fe] t]|] eqn:M.
  - intros _. unfold match_number in M. destruct (int_part s) as [[i' r']|] eqn:I; [|discriminate]. exact (int_head _ _ _ I).
  - destruct (strip_prefix (lit "NaN") s) as [u|] eqn:X; [apply strip_app in X; subst s; intros _; eexists; eexists; split; reflexivity|].
    destruct (strip_prefix (lit "Infinity") s) as [u|] eqn:Y; [apply strip_app in Y; subst s; intros _; eexists; eexists; split; reflexivity|].
    destruct (strip_prefix (lit "-Infinity") s) as [u|] eqn:Z'; [apply strip_app in Z'; subst s; intros _; eexists; eexists; split; reflexivity|discriminate].
Qed.
Lemma scan_number_num s j r : scan_number s = Ok (j, r) -> is_num j = true.
Proof.
  unfold JsonText.scan_number. destruct (match_number s) as [[[i [|x fe]] t]|].
  - destruct (py_int _); [|discriminate]. intros E; injection E as <- <-; reflexivity.
  - intros E; injection E as <- <-; reflexivity.
  - repeat match goal with |- context [match strip_prefix ?p s with _ => _ end] => destruct (strip_prefix p s) end; try discriminate; intros E; injection E as <- <-; reflexivity.
Qed.
Lemma word_app q s j r : scan_word s = Ok (j, r) -> (is_num j = true -> safe r) -> scan_word (s ++ q) = Ok (j, r ++ q).
Proof.
  intros E S. unfold JsonText.scan_word in E.
  destruct (strip_prefix (lit "null") s) as [u|] eqn:X; [apply strip_app in X; subst s; injection E as <- <-; reflexivity|].
  destruct (strip_prefix (lit "true") s) as [u|] eqn:Y; [apply strip_app in Y; subst s; injection E as <- <-; reflexivity|].
  destruct (strip_prefix (lit "false") s) as [u|] eqn:Z'; [apply strip_app in Z'; subst s; injection E as <- <-; reflexivity|].
  assert (Nm := scan_number_num _ _ _ E). assert (A := scan_number_app q s j r E (S Nm)). destruct (scan_number_head _ _ _ E) as (c & t & -> & H). cbn [app]. rewrite (word_is_number _ _ H). exact A.
Qed.
Lemma scan_app q : forall f, (forall s j r, scan f s = Ok (j, r) -> (is_num j = true -> safe r) -> scan f (s ++ q) = Ok (j, r ++ q)) /\
  (forall s l r, scan_items f s = Ok (l, r) -> scan_items f (s ++ q) = Ok (l, r ++ q)) /\ (forall s l r, scan_members f s = Ok (l, r) -> scan_members f (s ++ q) = Ok (l, r ++ q)).
Proof.
  induction f as [|f (IH1 & IH2 & IH3)]; [repeat split; discriminate|]. split; [|split].
  - intros s j r. rewrite !scan_S. destruct s as [|c t]; [discriminate|]. cbn [app]. destruct (c =? 34).
    { intros E _. apply rbind_Ok in E. destruct E as ([x u] & E & E'). rewrite (string_app q _ _ _ _ E). injection E' as <- <-. reflexivity. }
    destruct (c =? 91).
    { destruct (skip_ws t) as [|d u] eqn:K; [discriminate|]. rewrite (ws_app _ _ _ q K). destruct (d =? 93); [intros E _; injection E as <- <-; reflexivity|].
      intros E _. apply rbind_Ok in E. destruct E as ([x v] & E & E'). apply IH2 in E. cbn [app] in E. rewrite E. injection E' as <- <-. reflexivity. }
    destruct (c =? 123).
    { destruct (skip_ws t) as [|d u] eqn:K; [discriminate|]. rewrite (ws_app _ _ _ q K). destruct (d =? 125); [intros E _; injection E as <- <-; reflexivity|].
      intros E _. apply rbind_Ok in E. destruct E as ([x v] & E & E'). apply IH3 in E. cbn [app] in E. rewrite E. injection E' as <- <-. reflexivity. }
    apply (word_app q (c :: t)).
  - intros s l r. rewrite !items_S. intros E. apply rbind_Ok in E. destruct E as ([x u] & E & E'). cbn [fst snd] in E'. destruct (skip_ws u) as [|d v] eqn:K; [discriminate|].
    destruct (Z.eqb_spec d 93) as [->|N].
    { rewrite (IH1 _ _ _ E) by (intros _; eapply ws_safe; [exact K|reflexivity]). cbn [rbind fst snd]. rewrite (ws_app _ _ _ q K). injection E' as <- <-. reflexivity. }
    destruct (Z.eqb_spec d 44) as [->|N2]; [|discriminate].
    rewrite (IH1 _ _ _ E) by (intros _; eapply ws_safe; [exact K|reflexivity]). cbn [rbind fst snd]. rewrite (ws_app _ _ _ q K). change (44 =? 93) with false. change (44 =? 44) with true. cbv iota.
    apply rbind_Ok in E'. destruct E' as ([y w] & E1 & E'). destruct f as [|f']; [discriminate|].
    destruct (skip_ws v) as [|d' v'] eqn:K2; [rewrite items_S in E1; destruct f'; discriminate|]. rewrite (ws_app _ _ _ q K2). apply IH2 in E1. cbn [app] in E1. rewrite E1. injection E' as <- <-. reflexivity.
  - intros s l r. rewrite !members_S. destruct s as [|c t]; [discriminate|]. cbn [app]. destruct (negb _); [discriminate|]. intros E. apply rbind_Ok in E. destruct E as ([k u] & E & E').
    rewrite (string_app q _ _ _ _ E). cbn [rbind fst snd] in *. destruct (skip_ws u) as [|d v] eqn:K; [discriminate|]. rewrite (ws_app _ _ _ q K). destruct (negb _); [discriminate|].
    apply rbind_Ok in E'. destruct E' as ([x w] & E1 & E'). cbn [fst snd] in E'. destruct f as [|f']; [discriminate|]. destruct (skip_ws v) as [|d' v'] eqn:K2; [discriminate|]. rewrite (ws_app _ _ _ q K2).
    destruct (skip_ws w) as [|e y] eqn:K3; [discriminate|]. change (d' :: v' ++ q) with ((d' :: v') ++ q).
    destruct (Z.eqb_spec e 125) as [->|N].
    { rewrite (IH1 _ _ _ E1) by (intros _; eapply ws_safe; [exact K3|reflexivity]). cbn [rbind fst snd]. rewrite (ws_app _ _ _ q K3). injection E' as <- <-. reflexivity. }
    destruct (Z.eqb_spec e 44) as [->|N2]; [|discriminate].
    rewrite (IH1 _ _ _ E1) by (intros _; eapply ws_safe; [exact K3|reflexivity]). cbn [rbind fst snd]. rewrite (ws_app _ _ _ q K3). change (44 =? 125) with false. change (44 =? 44) with true. cbv iota.
    apply rbind_Ok in E'. destruct E' as ([z a] & E2 & E'). destruct (skip_ws y) as [|d2 y'] eqn:K4; [rewrite members_S in E2; discriminate|]. rewrite (ws_app _ _ _ q K4). apply IH3 in E2. cbn [app] in E2. rewrite E2. injection E' as <- <-. reflexivity.
Qed.

(* ---- strings are read back ---- *)
Lemma unhex1_hex1 n : 0 <= n < 16 -> unhex1 (hex1 n) = Some n.
Proof.
  intros H. unfold hex1, unhex1. destruct (Z.ltb_spec n 10).
  - replace ((48 <=? 48 + n) && (48 + n <=? 57)) with true by lia. f_equal; lia.
  - replace ((48 <=? 87 + n) && (87 + n <=? 57)) with false by lia. replace ((97 <=? 87 + n) && (87 + n <=? 102)) with true by lia. f_equal; lia.
Qed.
Lemma unhex4_hex4 n t : 0 <= n < 65536 -> unhex4 (hex4 n ++ t) = Some (n, t).
Proof. intros H. unfold unhex4, hex4. cbn [app]. rewrite !unhex1_hex1 by lia. f_equal. f_equal. lia. Qed.
(* the text of a string up to its closing quote does not start with the second half of a pair unless the string starts with it *)
Lemma escape_no_low s r : (forall c, In c s -> code_point c) -> (forall b q, s = b :: q -> ~ low_surrogate b) -> second_half (flat_map escape s ++ 34 :: r) = None.
Proof.
  destruct s as [|b q]; intros Hc Hs; [cbn; destruct r; reflexivity|]. specialize (Hs b q eq_refl). assert (Hb := Hc b (or_introl eq_refl)). unfold code_point, low_surrogate in *.
  cbn [flat_map]. rewrite <- app_assoc. generalize (flat_map escape q ++ 34 :: r) as t. intros t. unfold escape.
  repeat match goal with |- context [if ?x =? ?y then _ else _] => destruct (Z.eqb_spec x y); [subst; reflexivity|] end.
  destruct ((32 <=? b) && (b <=? 126)) eqn:E.
  { cbn [app second_half]. destruct t as [|y t]; [reflexivity|]. destruct (Z.eqb_spec b 92); [congruence|reflexivity]. }
  destruct (Z.ltb_spec b 65536).
  - unfold esc_u. cbn [app second_half]. change ((92 =? 92) && (117 =? 117)) with true. cbv iota. rewrite unhex4_hex4 by lia. destruct (low b) eqn:L; [apply low_iff in L; unfold low_surrogate in L; lia|reflexivity].
  - unfold esc_u. cbn [app second_half]. change ((92 =? 92) && (117 =? 117)) with true. cbv iota. rewrite <- app_assoc. rewrite unhex4_hex4 by lia.
    destruct (low _) eqn:L; [apply low_iff in L; unfold low_surrogate in L; lia|reflexivity].
Qed.
Lemma sound_cons c s : sound_string (c :: s) -> sound_string s /\ code_point c /\ (high_surrogate c -> forall b q, s = b :: q -> ~ low_surrogate b).
Proof.
  intros (A & B). split; [split|split].
  - intros x Hx. apply A. right. exact Hx.
  - intros p q a b E. apply (B (c :: p) q a b). rewrite E. reflexivity.
  - apply A. left. reflexivity.
  - intros H b q E L. apply (B [] q c b); [rewrite E; reflexivity|]. split; assumption.
Qed.
Lemma string_back s : sound_string s -> forall r, exists f, scan_string f (flat_map escape s ++ 34 :: r) = Ok (s, r).
Proof.
  induction s as [|c s IH]; intros S r; [exists 1%nat; reflexivity|]. destruct (sound_cons _ _ S) as (S' & Hc & Hh). destruct (IH S' r) as (f & E). exists (Datatypes.S f). cbn [flat_map]. rewrite <- app_assoc.
  assert (NL := escape_no_low s r (proj1 S')). revert E NL. generalize (flat_map escape s ++ 34 :: r) as t. intros t E NL. rewrite string_S. unfold code_point in Hc. unfold escape.
  repeat match goal with |- context [if ?x =? ?y then ?z else _] => match z with [92; _] => destruct (Z.eqb_spec x y); [subst; cbn; rewrite E; reflexivity|] end end.
  destruct ((32 <=? c) && (c <=? 126)) eqn:R.
  { cbn [app]. destruct (Z.eqb_spec c 34); [congruence|]. destruct (Z.eqb_spec c 92); [congruence|]. destruct (Z.leb_spec c 31); [lia|]. rewrite E. reflexivity. }
  destruct (Z.ltb_spec c 65536).
  - unfold esc_u. cbn [app]. change (92 =? 34) with false. change (92 =? 92) with true. cbv iota. unfold unescape. change (117 =? 117) with true. cbv iota. rewrite unhex4_hex4 by lia.
    destruct (high c) eqn:H1; [|rewrite E; reflexivity]. apply high_iff in H1. rewrite (NL (Hh H1)). rewrite E. reflexivity.
  - unfold esc_u. cbn [app]. change (92 =? 34) with false. change (92 =? 92) with true. cbv iota. unfold unescape. change (117 =? 117) with true. cbv iota. rewrite <- app_assoc. rewrite unhex4_hex4 by lia.
    replace (high (55296 + (c - 65536) / 1024)) with true by (unfold high; lia). unfold second_half. cbn [app]. change ((92 =? 92) && (117 =? 117)) with true. cbv iota. rewrite unhex4_hex4 by lia.
    replace (low (56320 + (c - 65536) mod 1024)) with true by (unfold low; lia). rewrite E. cbn [rbind fst snd]. f_equal. f_equal. f_equal. lia.
Qed.

(* ---- numbers are read back ---- *)
Lemma unlit_lit s : unlit (lit s) = s.
Proof.
  unfold unlit, lit. rewrite map_map. transitivity (string_of_list_ascii (list_ascii_of_string s)); [|apply string_of_list_ascii_of_string]. f_equal.
  rewrite <- map_id. apply map_ext. intros a. rewrite Nat2Z.id. apply ascii_nat_embedding.
Qed.
Definition ok_rest (r : ustr) : Prop := r = [] \/ safe r.
Lemma rest_nodigit r : ok_rest r -> take_digits r = ([], r).
Proof. intros [->|(c & t & -> & E)]; [reflexivity|]. cbn. replace (is_digit c) with false; [reflexivity|]. unfold ends_value, is_ws, is_digit in *. lia. Qed.
Lemma rest_noexp r : ok_rest r -> exp_part r = ([], r).
Proof. intros [->|(c & t & -> & E)]; [reflexivity|]. cbn. replace ((c =? 101) || (c =? 69)) with false; [reflexivity|]. unfold ends_value, is_ws in *. lia. Qed.
Lemma rest_nofrac r : ok_rest r -> frac_part r = ([], r).
Proof. intros [->|(c & t & -> & E)]; [reflexivity|]. cbn. replace (c =? 46) with false; [reflexivity|]. unfold ends_value, is_ws in *. lia. Qed.
Lemma digits_take ds r : Forall digit ds -> take_digits r = ([], r) -> take_digits (ds ++ r) = (ds, r).
Proof.
  intros H E. induction H as [|d ds Hd H IH]; [exact E|]. cbn. replace (is_digit d) with true by (unfold digit, is_digit in *; lia). rewrite IH. reflexivity.
Qed.
(* an integer part without leading zeros *)
Definition int_text (i : ustr) : Prop := exists sg ip, i = sg ++ ip /\ (sg = [] \/ sg = [45]) /\ (ip = [48] \/ exists d ds, ip = d :: ds /\ 49 <= d <= 57 /\ Forall digit ds).
Lemma int_read i r : int_text i -> take_digits r = ([], r) -> int_part (i ++ r) = Some (i, r).
Proof.
  intros (sg & ip & -> & Hs & Hi) E. rewrite <- app_assoc. unfold int_part.
  assert (G : forall sg, match ip ++ r with c :: r0 => if c =? 48 then Some (sg ++ [48], r0) else if is_digit c then let p := take_digits (ip ++ r) in Some (sg ++ fst p, snd p) else None | [] => None end = Some (sg ++ ip, r)).
  { intros g. destruct Hi as [->|(d & ds & -> & Hd & Hds)]; [reflexivity|]. assert (X : take_digits ((d :: ds) ++ r) = (d :: ds, r)) by (apply digits_take; [constructor; [unfold digit; lia|assumption]|exact E]). rewrite X. cbn [app].
    destruct (Z.eqb_spec d 48); [lia|]. replace (is_digit d) with true by (unfold is_digit; lia). reflexivity. }
  destruct Hs as [->| ->].
  - cbn [app]. assert (X : exists c t, ip ++ r = c :: t /\ c <> 45) by (destruct Hi as [->|(d & ds & -> & Hd & _)]; eexists; eexists; (split; [reflexivity|lia])).
    destruct X as (c & t & X & N). specialize (G []). rewrite X in *. destruct (Z.eqb_spec c 45); [congruence|]. exact G.
  - cbn [app]. change (45 =? 45) with true. cbv iota. exact (G [45]).
Qed.
Lemma float_read t r : float_lexeme t -> ok_rest r -> exists i fe, match_number (t ++ r) = Some (i, fe, r) /\ i ++ fe = t /\ fe <> [].
Proof.
  intros (sg & ip & fr & ex & -> & Hs & Hi & Hf & He & Hn) Hr. exists (sg ++ ip), (fr ++ ex).
  assert (X : exp_part (ex ++ r) = (ex, r)).
  { destruct He as [->|(e & s & d & ds & -> & Hle & Hsg & Hd)]; [exact (rest_noexp r Hr)|]. assert (D : take_digits ((d :: ds) ++ r) = (d :: ds, r)) by (apply digits_take; [assumption|exact (rest_nodigit r Hr)]).
    unfold exp_part. cbn [app]. replace ((e =? 101) || (e =? 69)) with true by lia. assert (Hd' : digit d) by (inversion Hd; assumption). unfold digit in Hd'.
    destruct Hsg as [->|[->| ->]]; cbn [app].
    - replace ((d =? 43) || (d =? 45)) with false by lia. change (d :: ds ++ r) with ((d :: ds) ++ r). rewrite D. reflexivity.
    - change ((43 =? 43) || (43 =? 45)) with true. cbv iota. change (d :: ds ++ r) with ((d :: ds) ++ r). rewrite D. reflexivity.
    - change ((45 =? 43) || (45 =? 45)) with true. cbv iota. change (d :: ds ++ r) with ((d :: ds) ++ r). rewrite D. reflexivity. }
  assert (XD : take_digits (ex ++ r) = ([], ex ++ r)).
  { destruct He as [->|(e & s & d & ds & -> & Hle & _ & _)]; [exact (rest_nodigit r Hr)|]. cbn. replace (is_digit e) with false by (unfold is_digit; lia). reflexivity. }
  assert (Y : frac_part (fr ++ ex ++ r) = (fr, ex ++ r)).
  { destruct Hf as [->|(d & ds & -> & Hd)].
    - cbn [app]. destruct He as [->|(e & s & d & ds & -> & Hle & _ & _)]; [exact (rest_nofrac r Hr)|]. unfold frac_part. cbn [app]. replace (e =? 46) with false by lia. reflexivity.
    - unfold frac_part. cbn [app]. change (46 =? 46) with true. cbv iota. assert (D : take_digits ((d :: ds) ++ ex ++ r) = (d :: ds, ex ++ r)) by (apply digits_take; assumption). change (d :: ds ++ ex ++ r) with ((d :: ds) ++ ex ++ r). rewrite D. reflexivity. }
  assert (YD : take_digits (fr ++ ex ++ r) = ([], fr ++ ex ++ r)).
  { destruct Hf as [->|(d & ds & -> & Hd)]; [exact XD|reflexivity]. }
  split; [|split; [rewrite !app_assoc; reflexivity|exact Hn]].
  unfold match_number. replace ((sg ++ ip ++ fr ++ ex) ++ r) with ((sg ++ ip) ++ fr ++ ex ++ r) by (rewrite !app_assoc; reflexivity).
  rewrite int_read; [|exists sg, ip; auto|exact YD]. rewrite Y. cbn [fst snd]. rewrite X. reflexivity.
Qed.
Lemma int_lexeme i r : int_text i -> ok_rest r -> match_number (i ++ r) = Some (i, [], r).
Proof. intros Hi Hr. unfold match_number. rewrite int_read; [|exact Hi|exact (rest_nodigit r Hr)]. rewrite (rest_nofrac r Hr). cbn [fst snd]. rewrite (rest_noexp r Hr). reflexivity. Qed.
Lemma no_leading_zero p d : Pos.to_uint p <> Decimal.D0 d.
Proof.
  intros E. assert (A := DecimalPos.Unsigned.to_of (Pos.to_uint p)). rewrite DecimalPos.Unsigned.of_to in A. cbn in A. rewrite E in A. unfold Decimal.unorm in A.
  assert (N : forall u x, Decimal.nzhead u <> Decimal.D0 x) by (induction u; cbn; intros; try discriminate; auto). cbn [Decimal.nzhead] in A. destruct (Decimal.nzhead d) eqn:B; try discriminate A; [|exact (N d u B)].
  injection A as ->. assert (X := DecimalPos.Unsigned.of_to p). rewrite E in X. discriminate X.
Qed.
Lemma uint_lit_digits u : Forall digit (lit (DecimalString.NilEmpty.string_of_uint u)).
Proof. induction u; cbn [DecimalString.NilEmpty.string_of_uint]; [constructor|..]; (constructor; [unfold digit; cbn; lia|exact IHu]). Qed.
Lemma pos_text p : exists d ds, lit (DecimalString.NilZero.string_of_uint (Pos.to_uint p)) = d :: ds /\ 49 <= d <= 57 /\ Forall digit ds.
Proof.
  assert (N := pos_not_nil p). assert (Z0 := no_leading_zero p). destruct (Pos.to_uint p) as [|u|u|u|u|u|u|u|u|u|u]; [congruence|exfalso; exact (Z0 u eq_refl)|..];
    (eexists; eexists; split; [cbn [DecimalString.NilZero.string_of_uint DecimalString.NilEmpty.string_of_uint]; reflexivity|split; [cbn; lia|exact (uint_lit_digits u)]]).
Qed.
Lemma int_text_str z : int_text (lit (str_Z z)).
Proof.
  destruct z as [|p|p]; unfold int_text.
  - exists [], [48]. auto.
  - exists [], (lit (str_Z (Zpos p))). split; [reflexivity|]. split; [auto|right]. exact (pos_text p).
  - exists [45], (lit (DecimalString.NilZero.string_of_uint (Pos.to_uint p))). split; [reflexivity|]. split; [auto|right]. exact (pos_text p).
Qed.
Lemma int_text_head i : int_text i -> exists c t, i = c :: t /\ numhead c = true.
Proof.
  intros (sg & ip & -> & [->| ->] & Hi); [|exists 45, ip; auto]. cbn [app]. destruct Hi as [->|(d & ds & -> & Hd & _)]; [exists 48, []; auto|]. exists d, ds. split; [reflexivity|]. unfold numhead, is_digit. lia.
Qed.
Lemma int_back z r : ok_rest r -> scan_word (lit (str_Z z) ++ r) = Ok (JInt z, r).
Proof.
  intros Hr. destruct (int_text_head _ (int_text_str z)) as (c & t & E & Hc). assert (X : scan_word (lit (str_Z z) ++ r) = scan_number (lit (str_Z z) ++ r)) by (rewrite E; exact (word_is_number c (t ++ r) Hc)).
  rewrite X. unfold JsonText.scan_number. rewrite (int_lexeme _ _ (int_text_str z) Hr), unlit_lit, py_int_str. reflexivity.
Qed.
Lemma float_back f r : float_ok float_text read_float f -> ok_rest r -> scan_word (float_text f ++ r) = Ok (JFloat f, r).
Proof.
  intros ([L|L] & B) Hr.
  - destruct (float_read _ r L Hr) as (i & fe & M & E & N). assert (X : scan_word (float_text f ++ r) = scan_number (float_text f ++ r)).
    { assert (H : exists c t, float_text f ++ r = c :: t /\ numhead c = true).
      { unfold match_number in M. destruct (int_part (float_text f ++ r)) as [[i' r']|] eqn:I; [|discriminate]. exact (int_head _ _ _ I). }
      destruct H as (c & t & H & Hc). rewrite H. exact (word_is_number c t Hc). }
    rewrite X. unfold JsonText.scan_number. rewrite M. destruct fe as [|x fe]; [congruence|]. rewrite E, B. reflexivity.
  - assert (G : forall t, t = lit "NaN" \/ t = lit "Infinity" \/ t = lit "-Infinity" -> scan_word (t ++ r) = Ok (JFloat (read_float t), r)) by (intros t [->|[->| ->]]; reflexivity).
    rewrite G by (destruct L as [L|[L|[L|[]]]]; auto). rewrite B. reflexivity.
Qed.

(* ---- values are read back ---- *)
Lemma jval_ind' (P : jval F -> Prop) : P JNull -> (forall b, P (JBool b)) -> (forall z, P (JInt z)) -> (forall f, P (JFloat f)) -> (forall s, P (JStr s)) ->
  (forall l, Forall P l -> P (JList l)) -> (forall l, Forall (fun p => P (snd p)) l -> P (JDict l)) -> forall j, P j.
Proof.
  intros H1 H2 H3 H4 H5 H6 H7. fix IH 1. intros [|b|z|f|s|l|l]; [exact H1|exact (H2 b)|exact (H3 z)|exact (H4 f)|exact (H5 s)|..].
  - apply H6. induction l as [|x l IHl]; constructor; [apply IH|exact IHl].
  - apply H7. induction l as [|[k x] l IHl]; constructor; [apply IH|exact IHl].
Qed.
(* first characters that start a value *)
Definition starts (c : Z) : Prop := is_ws c = false /\ c <> 93 /\ c <> 125.
Lemma float_head f : float_ok float_text read_float f -> exists c t, float_text f = c :: t /\ numhead c = true.
Proof.
  intros ([(sg & ip & fr & ex & -> & Hs & Hi & _)|L] & _).
  - assert (H : int_text (sg ++ ip)) by (exists sg, ip; auto). destruct (int_text_head _ H) as (c & t & E & Hc). exists c, (t ++ fr ++ ex). split; [|exact Hc]. rewrite app_assoc, E. reflexivity.
  - destruct L as [L|[L|[L|[]]]]; rewrite <- L; eexists; eexists; split; reflexivity.
Qed.
Lemma numhead_starts c : numhead c = true -> starts c.
Proof. unfold numhead, is_digit, starts, is_ws. lia. Qed.
Lemma jtext_head lvl j : sound float_text read_float j -> exists c t, jtext float_text lvl j = c :: t /\ starts c.
Proof.
  intros S. destruct S as [|b|z|f H|s|l|l].
  - eexists; eexists; split; [reflexivity|]. cbv; repeat split; congruence.
  - destruct b; eexists; eexists; (split; [reflexivity|]); cbv; repeat split; congruence.
  - destruct (int_text_head _ (int_text_str z)) as (c & t & E & Hc). exists c, t. split; [exact E|exact (numhead_starts c Hc)].
  - destruct (float_head f H) as (c & t & E & Hc). exists c, t. split; [exact E|exact (numhead_starts c Hc)].
  - eexists; eexists; split; [reflexivity|]. cbv; repeat split; congruence.
  - destruct l; eexists; eexists; (split; [reflexivity|]); cbv; repeat split; congruence.
  - destruct l; eexists; eexists; (split; [reflexivity|]); cbv; repeat split; congruence.
Qed.
Lemma skip_repeat n t : skip_ws (repeat 32 n ++ t) = skip_ws t.
Proof. induction n; [reflexivity|exact IHn]. Qed.
Lemma skip_newline lvl t : skip_ws (newline lvl ++ t) = skip_ws t.
Proof. unfold newline. cbn [app skip_ws]. change (is_ws 10) with true. cbv iota. apply skip_repeat. Qed.
Lemma skip_start c t : is_ws c = false -> skip_ws (c :: t) = c :: t.
Proof. intros H. cbn. rewrite H. reflexivity. Qed.
Lemma newline_safe lvl t : safe (newline lvl ++ t).
Proof. unfold newline. exists 10, (repeat 32 (4 * lvl) ++ t). split; reflexivity. Qed.
Lemma safe_ok r : safe r -> ok_rest r.
Proof. right; assumption. Qed.
Lemma NoDup_app' (A : Type) (l l' : list A) x : NoDup (l ++ x :: l') -> ~ In x l.
Proof. intros H I. apply NoDup_remove_2 in H. apply H. apply in_or_app. left. exact I. Qed.
Lemma dset_new (l : list (ustr * jval F)) k x : ~ In k (map fst l) -> dset l k x = l ++ [(k, x)].
Proof.
  induction l as [|[k' y] l IH]; cbn; [reflexivity|]. intros H. destruct (eqb_spec k k') as [->|N]; [tauto|]. rewrite IH by tauto. reflexivity.
Qed.
Lemma dict_of_nodup (l : list (ustr * jval F)) : NoDup (map fst l) -> dict_of l = l.
Proof.
  unfold dict_of. assert (G : forall (l d : list (ustr * jval F)), NoDup (map fst (d ++ l)) -> fold_left (fun d p => dset d (fst p) (snd p)) l d = d ++ l).
  { clear l. induction l as [|[k x] l IH]; intros d N; cbn [fold_left fst snd]; [rewrite app_nil_r; reflexivity|].
    assert (K : ~ In k (map fst d)) by (rewrite map_app in N; cbn [map fst] in N; exact (NoDup_app' _ _ _ _ N)). rewrite (dset_new d k x K). rewrite IH; rewrite <- app_assoc; [reflexivity|exact N]. }
  intros N. rewrite (G l []); [reflexivity|exact N].
Qed.
Lemma sep_cons sep x y l : sep_by sep (x :: y :: l) = x ++ sep ++ sep_by sep (y :: l).
Proof. reflexivity. Qed.
Definition value_back (j : jval F) : Prop := sound float_text read_float j -> forall lvl r, ok_rest r -> exists f, scan f (jtext float_text lvl j ++ r) = Ok (j, r).
Lemma items_back l lvl r : l <> [] -> Forall value_back l -> Forall (sound float_text read_float) l ->
  exists f, scan_items f (sep_by (44 :: newline (Datatypes.S lvl)) (map (jtext float_text (Datatypes.S lvl)) l) ++ newline lvl ++ 93 :: r) = Ok (l, r).
Proof.
  intros Hl HV HS. induction l as [|x l IH]; [congruence|]. clear Hl. inversion_clear HV as [|? ? Vx Vl]. inversion_clear HS as [|? ? Sx Sl]. destruct l as [|y l].
  - cbn [map sep_by]. destruct (Vx Sx (Datatypes.S lvl) (newline lvl ++ 93 :: r) (safe_ok _ (newline_safe _ _))) as (f & E). exists (Datatypes.S f). rewrite items_S, E. cbn [rbind fst snd]. rewrite skip_newline. reflexivity.
  - cbn [map]. rewrite sep_cons. rewrite <- !app_assoc. destruct (IH ltac:(discriminate) Vl Sl) as (g & G). clear IH. cbn [map] in G.
    set (rest := sep_by (44 :: newline (Datatypes.S lvl)) (jtext float_text (Datatypes.S lvl) y :: map (jtext float_text (Datatypes.S lvl)) l) ++ newline lvl ++ 93 :: r) in *.
    assert (W : skip_ws rest = rest).
    { unfold rest. inversion_clear Sl as [|? ? Sy _]. destruct (jtext_head (Datatypes.S lvl) y Sy) as (c & t & Ec & Hc & _). destruct l as [|z l]; cbn [map sep_by]; rewrite Ec; exact (skip_start c _ Hc). }
    destruct (Vx Sx (Datatypes.S lvl) ((44 :: newline (Datatypes.S lvl)) ++ rest)) as (f & E); [right; exists 44, (newline (Datatypes.S lvl) ++ rest); split; reflexivity|].
    exists (Datatypes.S (f + g)). rewrite items_S. rewrite (scan_le _ f (f + g)) by (rewrite ?E; (lia || discriminate)). rewrite E. cbn [rbind fst snd app]. rewrite skip_start by reflexivity.
    change (44 =? 93) with false. change (44 =? 44) with true. cbv iota. rewrite skip_newline, W. rewrite (items_le _ g (f + g)) by (rewrite ?G; (lia || discriminate)). rewrite G. reflexivity.
Qed.
Definition member_text (lvl : nat) (p : ustr * jval F) : ustr := match p with (k, x) => quoted k ++ [58; 32] ++ jtext float_text lvl x end.
Lemma members_back l lvl r : l <> [] -> Forall (fun p => value_back (snd p)) l -> Forall (fun p => sound_string (fst p)) l -> Forall (fun p => sound float_text read_float (snd p)) l ->
  exists f, scan_members f (sep_by (44 :: newline (Datatypes.S lvl)) (map (member_text (Datatypes.S lvl)) l) ++ newline lvl ++ 125 :: r) = Ok (l, r).
Proof.
  intros Hl HV HK HS. induction l as [|[k x] l IH]; [congruence|]. clear Hl. inversion_clear HV as [|? ? Vx Vl]. inversion_clear HS as [|? ? Sx Sl]. inversion_clear HK as [|? ? Kx Kl]. cbn [fst snd] in *.
  assert (One : forall rest, safe rest -> exists f, forall f', (f <= f')%nat -> scan_members (Datatypes.S f') (member_text (Datatypes.S lvl) (k, x) ++ rest) =
    match skip_ws rest with [] => Err ValueError | e :: u => if e =? 125 then Ok ([(k, x)], u) else if e =? 44 then rbind (scan_members f' (skip_ws u)) (fun q => Ok ((k, x) :: fst q, snd q)) else Err ValueError end).
  { intros rest Hr. destruct (Vx Sx (Datatypes.S lvl) rest (safe_ok _ Hr)) as (f & E). destruct (string_back k Kx (58 :: 32 :: jtext float_text (Datatypes.S lvl) x ++ rest)) as (g & G). exists (f + g)%nat. intros f' L.
    rewrite members_S. unfold member_text, quoted. cbn [app]. change (negb (34 =? 34)) with false. cbv iota.
    replace ((flat_map escape k ++ [34]) ++ 58 :: 32 :: jtext float_text (Datatypes.S lvl) x) with (flat_map escape k ++ 34 :: 58 :: 32 :: jtext float_text (Datatypes.S lvl) x) by (rewrite <- app_assoc; reflexivity).
    rewrite <- app_assoc. cbn [app]. rewrite (string_le g f') by (rewrite ?G; (lia || discriminate)). rewrite G. cbn [rbind fst snd]. rewrite skip_start by reflexivity. change (negb (58 =? 58)) with false. cbv iota.
    assert (W : skip_ws (32 :: jtext float_text (Datatypes.S lvl) x ++ rest) = jtext float_text (Datatypes.S lvl) x ++ rest).
    { destruct (jtext_head (Datatypes.S lvl) x Sx) as (c & t & Ec & Hc & _). rewrite Ec. cbn [skip_ws]. change (is_ws 32) with true. cbv iota. exact (skip_start c _ Hc). }
    rewrite W. rewrite (scan_le _ f f') by (rewrite ?E; (lia || discriminate)). rewrite E. reflexivity. }
  destruct l as [|y l].
  - cbn [map sep_by]. destruct (One (newline lvl ++ 125 :: r) (newline_safe _ _)) as (f & E). exists (Datatypes.S f). rewrite (E f (le_n f)), skip_newline. reflexivity.
  - cbn [map]. rewrite sep_cons. rewrite <- !app_assoc. destruct (IH ltac:(discriminate) Vl Kl Sl) as (g & G). clear IH. cbn [map] in G.
    set (rest := sep_by (44 :: newline (Datatypes.S lvl)) (member_text (Datatypes.S lvl) y :: map (member_text (Datatypes.S lvl)) l) ++ newline lvl ++ 125 :: r) in *.
    assert (W : skip_ws rest = rest).
    { unfold rest. destruct y as [k2 x2]. destruct l as [|z l]; cbn [map sep_by]; unfold member_text at 1, quoted; reflexivity. }
    destruct (One ((44 :: newline (Datatypes.S lvl)) ++ rest)) as (f & E); [exists 44, (newline (Datatypes.S lvl) ++ rest); split; reflexivity|].
    exists (Datatypes.S (f + g)). rewrite (E (f + g)%nat) by lia. cbn [app]. rewrite skip_start by reflexivity. change (44 =? 125) with false. change (44 =? 44) with true. cbv iota. rewrite skip_newline, W.
    rewrite (members_le _ g (f + g)) by (rewrite ?G; (lia || discriminate)). rewrite G. reflexivity.
Qed.
Lemma text_back : forall j, value_back j.
Proof.
  apply jval_ind'; unfold value_back at 1.
  - intros _ lvl r Hr. exists 1%nat. reflexivity.
  - intros [|] _ lvl r Hr; exists 1%nat; reflexivity.
  - intros z _ lvl r Hr. exists 1%nat. cbn [jtext]. rewrite scan_S. assert (E := int_back z r Hr). destruct (int_text_head _ (int_text_str z)) as (c & t & Ec & Hc). rewrite Ec in *. cbn [app] in *.
    assert (N : c <> 34 /\ c <> 91 /\ c <> 123) by (unfold numhead, is_digit in Hc; lia). destruct N as (N1 & N2 & N3). destruct (Z.eqb_spec c 34); [congruence|]. destruct (Z.eqb_spec c 91); [congruence|]. destruct (Z.eqb_spec c 123); [congruence|]. exact E.
  - intros f S lvl r Hr. assert (Hf : float_ok float_text read_float f) by (inversion S; assumption). exists 1%nat. cbn [jtext]. rewrite scan_S. assert (E := float_back f r Hf Hr). destruct (float_head f Hf) as (c & t & Ec & Hc). rewrite Ec in *. cbn [app] in *.
    assert (N : c <> 34 /\ c <> 91 /\ c <> 123) by (unfold numhead, is_digit in Hc; lia). destruct N as (N1 & N2 & N3). destruct (Z.eqb_spec c 34); [congruence|]. destruct (Z.eqb_spec c 91); [congruence|]. destruct (Z.eqb_spec c 123); [congruence|]. exact E.
  - intros s S lvl r Hr. assert (Hs : sound_string s) by (inversion S; assumption). destruct (string_back s Hs r) as (f & E). exists (Datatypes.S f). cbn [jtext]. unfold quoted. cbn [app]. rewrite scan_S. change (34 =? 34) with true. cbv iota.
    rewrite <- app_assoc. cbn [app]. rewrite E. reflexivity.
  - intros l IH S lvl r Hr. destruct l as [|x l]; [exists 1%nat; reflexivity|]. assert (Sl : Forall (sound float_text read_float) (x :: l)) by (inversion S; assumption).
    destruct (items_back (x :: l) lvl r ltac:(discriminate) IH Sl) as (f & E). exists (Datatypes.S f).
    change (jtext float_text lvl (JList (x :: l))) with (91 :: newline (Datatypes.S lvl) ++ sep_by (44 :: newline (Datatypes.S lvl)) (map (jtext float_text (Datatypes.S lvl)) (x :: l)) ++ newline lvl ++ [93]).
    cbn [app]. rewrite scan_S. change (91 =? 34) with false. change (91 =? 91) with true. cbv iota. rewrite <- !app_assoc. rewrite skip_newline. cbn [app].
    set (rest := sep_by (44 :: newline (Datatypes.S lvl)) (map (jtext float_text (Datatypes.S lvl)) (x :: l)) ++ newline lvl ++ 93 :: r) in *.
    assert (W : exists c t, rest = c :: t /\ starts c).
    { unfold rest. inversion_clear Sl as [|? ? Sx _]. destruct (jtext_head (Datatypes.S lvl) x Sx) as (c & t & Ec & Hc). destruct l as [|z l]; cbn [map sep_by]; rewrite Ec; eexists; eexists; (split; [reflexivity|exact Hc]). }
    destruct W as (c & t & W & Hc1 & Hc2 & Hc3). rewrite W in *. rewrite (skip_start c t Hc1). destruct (Z.eqb_spec c 93); [congruence|]. rewrite E. reflexivity.
  - intros l IH S lvl r Hr. destruct l as [|x l]; [exists 1%nat; reflexivity|].
    assert (Sl : NoDup (map fst (x :: l)) /\ Forall (fun p => sound_string (fst p)) (x :: l) /\ Forall (fun p => sound float_text read_float (snd p)) (x :: l)) by (inversion S; auto). destruct Sl as (Nl & Kl & Sl).
    destruct (members_back (x :: l) lvl r ltac:(discriminate) IH Kl Sl) as (f & E). exists (Datatypes.S f).
    change (jtext float_text lvl (JDict (x :: l))) with (123 :: newline (Datatypes.S lvl) ++ sep_by (44 :: newline (Datatypes.S lvl)) (map (member_text (Datatypes.S lvl)) (x :: l)) ++ newline lvl ++ [125]).
    cbn [app]. rewrite scan_S. change (123 =? 34) with false. change (123 =? 91) with false. change (123 =? 123) with true. cbv iota. rewrite <- !app_assoc. rewrite skip_newline. cbn [app].
    set (rest := sep_by (44 :: newline (Datatypes.S lvl)) (map (member_text (Datatypes.S lvl)) (x :: l)) ++ newline lvl ++ 125 :: r) in *.
    assert (W : exists t, rest = 34 :: t).
    { unfold rest. destruct x as [k x]. destruct l as [|z l]; cbn [map sep_by]; unfold member_text at 1, quoted; eexists; reflexivity. }
    destruct W as (t & W). rewrite W in *. rewrite (skip_start 34 t eq_refl). change (34 =? 125) with false. cbv iota. rewrite E. cbn [rbind fst snd]. rewrite (dict_of_nodup _ Nl). reflexivity.
Qed.

(* ---- json.loads ---- *)
Notation loads := (loads read_float).
Lemma loads_text j : sound float_text read_float j -> loads (jtext float_text 0 j) = Ok j.
Proof.
  intros S. destruct (text_back j S 0%nat [] (or_introl eq_refl)) as (f & E). rewrite app_nil_r in E. destruct (jtext_head 0 j S) as (c & t & Ec & Hc & _).
  unfold JsonText.loads. assert (W : skip_ws (jtext float_text 0 j) = jtext float_text 0 j) by (rewrite Ec; exact (skip_start c t Hc)). rewrite W.
  rewrite (scan_enough read_float f) by (rewrite ?E; (discriminate || lia)). rewrite E. reflexivity.
Qed.
Lemma loads_total s e : loads s = Err e -> e = ValueError.
Proof.
  unfold JsonText.loads. intros E. assert (N : loads s <> OOF).
  { unfold JsonText.loads. intros O. apply rbind_Err in O. destruct O as [O|(p & _ & O)]; [|destruct (skip_ws (snd p)); discriminate O]. revert O. apply (proj1 (scan_fuel _ _)). assert (L := ws_len read_float s). lia. }
  unfold JsonText.loads in N. apply rbind_Err in E. destruct E as [E|(p & _ & E)]; [|destruct (skip_ws (snd p)); congruence].
  destruct (proj1 (scan_err _ _) _ _ E) as [->| ->]; [reflexivity|]. exfalso. apply N. rewrite E. reflexivity.
Qed.
Lemma enclosed_head lvl j : delimited j -> exists c t, jtext float_text lvl j = c :: t /\ (c = 34 \/ c = 91 \/ c = 123).
Proof. intros [s|[|x l]|[|x l]]; eexists; eexists; (split; [reflexivity|]); cbn; auto. Qed.
Lemma loads_torn j p q : sound float_text read_float j -> delimited j -> jtext float_text 0 j = p ++ q -> q <> [] -> loads p = Err ValueError.
Proof.
  intros S En E Hq. destruct (loads p) as [v|e] eqn:L; [exfalso|rewrite (loads_total _ _ L); reflexivity].
  destruct (text_back j S 0%nat [] (or_introl eq_refl)) as (f & T). rewrite app_nil_r, E in T. destruct (enclosed_head 0 j En) as (c & t & Ec & Hc). rewrite E in Ec.
  unfold JsonText.loads in L. apply rbind_Ok in L. destruct L as ([v' r] & L & L'). destruct p as [|c' p]; [cbn in L; discriminate|]. cbn [app] in Ec. injection Ec as -> Et.
  assert (W : is_ws c = false) by (destruct Hc as [->|[->| ->]]; reflexivity). rewrite (skip_start c p W) in L.
  assert (Nn : is_num v' = false).
  { revert L. generalize (2 * Datatypes.length (c :: p) + 2)%nat. intros [|g]; [discriminate|]. rewrite scan_S. destruct Hc as [->|[->| ->]].
    - change (34 =? 34) with true. cbv iota. intros X. apply rbind_Ok in X. destruct X as (y & _ & X). injection X as <- _. reflexivity.
    - change (91 =? 34) with false. change (91 =? 91) with true. cbv iota. destruct (skip_ws p) as [|d u]; [discriminate|]. destruct (d =? 93); [intros X; injection X as <- _; reflexivity|]. intros X. apply rbind_Ok in X. destruct X as (y & _ & X). injection X as <- _. reflexivity.
    - change (123 =? 34) with false. change (123 =? 91) with false. change (123 =? 123) with true. cbv iota. destruct (skip_ws p) as [|d u]; [discriminate|]. destruct (d =? 125); [intros X; injection X as <- _; reflexivity|]. intros X. apply rbind_Ok in X. destruct X as (y & _ & X). injection X as <- _. reflexivity. }
  apply (proj1 (scan_app q _)) in L; [|congruence]. 
  assert (A : forall f1 f2 s x y, scan f1 s = Ok x -> scan f2 s = Ok y -> x = y).
  { intros f1 f2 s x y X Y. assert (X' := scan_le read_float f1 (f1 + f2) s ltac:(lia) ltac:(congruence)). assert (Y' := scan_le read_float f2 (f1 + f2) s ltac:(lia) ltac:(congruence)). congruence. }
  assert (B := A _ _ _ _ _ L T). injection B as _ B. apply app_eq_nil in B. tauto.
Qed.

(* ---- the encoder ---- *)
Lemma pval_ind' (P : pval F -> Prop) : P PNull -> (forall b, P (PBool b)) -> (forall z, P (PInt z)) -> (forall f, P (PFloat f)) -> (forall s, P (PStr s)) ->
  (forall l, Forall P l -> P (PList l)) -> (forall l, Forall (fun p => P (snd p)) l -> P (PDict l)) -> P PTensor -> (forall s, P (PDate s)) -> P PObject -> forall v, P v.
Proof.
  intros H1 H2 H3 H4 H5 H6 H7 H8 H9 H0. fix IH 1. intros [|b|z|f|s|l|l| |s|]; [exact H1|exact (H2 b)|exact (H3 z)|exact (H4 f)|exact (H5 s)|..|exact H8|exact (H9 s)|exact H0].
  - apply H6. induction l as [|x l IHl]; constructor; [apply IH|exact IHl].
  - apply H7. induction l as [|[k x] l IHl]; constructor; [apply IH|exact IHl].
Qed.
Lemma plain_written : forall (v : pval F) j, plain v = Ok j <-> written v j.
Proof.
  refine (pval_ind' _ _ _ _ _ _ _ _ _ _ _); try (intros; split; [intros E; injection E as <-; constructor|intros W; inversion W; reflexivity]).
  - intros l IH j. cbn [plain].
    assert (G : forall m, all_of plain l = Ok m <-> Forall2 written l m).
    { clear j. induction IH as [|x l Hx _ IHl]; intros m; [split; [intros E; injection E as <-; constructor|intros W; inversion W; reflexivity]|]. cbn [all_of]. split.
      - intros E. apply rbind_Ok in E. destruct E as (y & E & E'). apply rbind_Ok in E'. destruct E' as (t & E1 & E'). injection E' as <-. constructor; [apply Hx; exact E|apply IHl; exact E1].
      - intros W. inversion_clear W as [|? ? ? ? W1 W2]. apply Hx in W1. apply IHl in W2. rewrite W1. cbn [rbind]. rewrite W2. reflexivity. }
    split.
    + intros E. apply rbind_Ok in E. destruct E as (m & E & E'). injection E' as <-. constructor. apply G. exact E.
    + intros W. inversion_clear W as [| | | | |? m W1| | |]. apply G in W1. rewrite W1. reflexivity.
  - intros l IH j. cbn [plain]. set (g := fun p : ustr * pval F => match p with (k, x) => rbind (plain x) (fun y => Ok (k, y)) end).
    assert (G : forall m, all_of g l = Ok m <-> Forall2 (fun p q => fst p = fst q /\ written (snd p) (snd q)) l m).
    { clear j. induction IH as [|[k x] l Hx _ IHl]; intros m; [split; [intros E; injection E as <-; constructor|intros W; inversion W; reflexivity]|]. cbn [all_of]. cbn [snd] in Hx. split.
      - intros E. apply rbind_Ok in E. destruct E as (y & E & E'). apply rbind_Ok in E'. destruct E' as (t & E1 & E'). injection E' as <-. unfold g in E. apply rbind_Ok in E. destruct E as (z & E & E2). injection E2 as <-.
        constructor; [split; [reflexivity|apply Hx; exact E]|apply IHl; exact E1].
      - intros W. inversion_clear W as [|? [k' y] ? ? W1 W2]. cbn [fst snd] in W1. destruct W1 as (<- & W1). apply Hx in W1. apply IHl in W2. unfold g at 1. rewrite W1. cbn [rbind]. rewrite W2. reflexivity. }
    split.
    + intros E. apply rbind_Ok in E. destruct E as (m & E & E'). injection E' as <-. constructor. apply G. exact E.
    + intros W. inversion_clear W as [| | | | | |? m W1| |]. apply G in W1. rewrite W1. reflexivity.
  - intros j. split; [discriminate|]. intros W. inversion W.
Qed.
Lemma plain_error : forall (v : pval F) e, plain v = Err e -> e = TypeError /\ has_object v.
Proof.
  refine (pval_ind' _ _ _ _ _ _ _ _ _ _ _); try (intros; discriminate).
  - intros l IH e E. cbn [plain] in E. apply rbind_Err in E. destruct E as [E|(m & _ & E)]; [|discriminate].
    assert (G : e = TypeError /\ exists x, In x l /\ has_object x).
    { revert E. induction IH as [|x l Hx _ IHl]; [discriminate|]. cbn [all_of]. intros E. apply rbind_Err in E. destruct E as [E|(y & _ & E)].
      - destruct (Hx _ E) as (-> & H). split; [reflexivity|]. exists x. split; [left; reflexivity|exact H].
      - apply rbind_Err in E. destruct E as [E|(t & _ & E)]; [|discriminate]. destruct (IHl E) as (-> & z & H & Hz). split; [reflexivity|]. exists z. split; [right; exact H|exact Hz]. }
    destruct G as (-> & x & H & Hx). split; [reflexivity|]. exact (ho_list l x H Hx).
  - intros l IH e E. cbn [plain] in E. apply rbind_Err in E. destruct E as [E|(m & _ & E)]; [|discriminate].
    assert (G : e = TypeError /\ exists k x, In (k, x) l /\ has_object x).
    { revert E. induction IH as [|[k x] l Hx _ IHl]; [discriminate|]. cbn [all_of]. intros E. apply rbind_Err in E. destruct E as [E|(y & _ & E)].
      - apply rbind_Err in E. destruct E as [E|(y & _ & E)]; [|discriminate]. destruct (Hx _ E) as (-> & H). split; [reflexivity|]. exists k, x. split; [left; reflexivity|exact H].
      - apply rbind_Err in E. destruct E as [E|(t & _ & E)]; [|discriminate]. destruct (IHl E) as (-> & k' & z & H & Hz). split; [reflexivity|]. exists k', z. split; [right; exact H|exact Hz]. }
    destruct G as (-> & k & x & H & Hx). split; [reflexivity|]. exact (ho_dict l k x H Hx).
  - intros e E. injection E as <-. split; [reflexivity|constructor].
Qed.
Lemma object_not_written (v : pval F) : has_object v -> forall j, ~ written v j.
Proof.
  intros H. induction H as [|l x Hin _ IH|l k x Hin _ IH]; intros j W; [inversion W|..].
  - inversion_clear W as [| | | | |? m W1| | |]. revert Hin. induction W1 as [|a b l m H1 H2 IH2]; [intros []|]. intros [->|Hin]; [exact (IH _ H1)|exact (IH2 Hin)].
  - inversion_clear W as [| | | | | |? m W1| |]. revert Hin. induction W1 as [|a b l m H1 H2 IH2]; [intros []|]. intros [->|Hin]; [exact (IH _ (proj2 H1))|exact (IH2 Hin)].
Qed.

Lemma skip_all q : skip_ws q = [] <-> forallb is_ws q = true.
Proof. induction q as [|c q IH]; cbn; [tauto|]. destruct (is_ws c); cbn; [exact IH|]. split; discriminate. Qed.
Lemma loads_trailing j q : sound float_text read_float j -> delimited j -> loads (jtext float_text 0 j ++ q) = if forallb is_ws q then Ok j else Err ValueError.
Proof.
  intros S De. destruct (text_back j S 0%nat [] (or_introl eq_refl)) as (f & E). rewrite app_nil_r in E.
  apply (proj1 (scan_app q f)) in E; [|intros X; destruct De; discriminate X]. cbn [app] in E. destruct (jtext_head 0 j S) as (c & t & Ec & Hc & _).
  unfold JsonText.loads. assert (W : skip_ws (jtext float_text 0 j ++ q) = jtext float_text 0 j ++ q) by (rewrite Ec; exact (skip_start c _ Hc)). rewrite W.
  rewrite (scan_enough read_float f) by (rewrite ?E; (discriminate || lia)). rewrite E. cbn [rbind fst snd]. assert (K := skip_all q). destruct (skip_ws q) as [|d u], (forallb is_ws q); try reflexivity; destruct K as (K1 & K2); [specialize (K1 eq_refl)|specialize (K2 eq_refl)]; discriminate.
Qed.
End Main.
