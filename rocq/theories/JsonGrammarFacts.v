(* Facts: json.loads reads exactly the texts of the grammar. *)
From Coq Require Import Ascii.
From Coq Require Import DecimalPos.
From Verif Require Import Base PyDict PyDictFacts PyStr PyStrFacts JsonText JsonTextSpec JsonTextFacts JsonTextMain JsonGrammarSpec.
Open Scope string_scope.
Open Scope list_scope.
Open Scope Z_scope.

(* ---- numbers ---- *)
Lemma acc_decimal u p : Zpos (Pos.of_uint_acc u p) = fold_left (fun a c => 10 * a + (c - 48)) (lit (DecimalString.NilEmpty.string_of_uint u)) (Zpos p).
Proof.
  revert p; induction u; intros p; [reflexivity|..]; cbn [Pos.of_uint_acc DecimalString.NilEmpty.string_of_uint]; cbn [lit list_ascii_of_string map fold_left]; fold (lit (DecimalString.NilEmpty.string_of_uint u));
  rewrite IHu; f_equal; match goal with |- context [Z.of_nat (nat_of_ascii ?a)] => let v := eval vm_compute in (Z.of_nat (nat_of_ascii a)) in change (Z.of_nat (nat_of_ascii a)) with v end; lia.
Qed.
Lemma of_uint_decimal u : Z.of_uint u = decimal (lit (DecimalString.NilEmpty.string_of_uint u)).
Proof.
  unfold Z.of_uint, decimal. induction u; [reflexivity|exact IHu|..]; cbn [Pos.of_uint Z.of_N]; rewrite acc_decimal; reflexivity.
Qed.
Definition to_digit (c : Z) (u : Decimal.uint) : Decimal.uint :=
  match c with 48 => Decimal.D0 u | 49 => Decimal.D1 u | 50 => Decimal.D2 u | 51 => Decimal.D3 u | 52 => Decimal.D4 u | 53 => Decimal.D5 u | 54 => Decimal.D6 u | 55 => Decimal.D7 u | 56 => Decimal.D8 u | _ => Decimal.D9 u end.
Lemma digit_cases c : digit c -> In c [48; 49; 50; 51; 52; 53; 54; 55; 56; 57].
Proof. unfold digit. cbn. lia. Qed.
Lemma digits_uint ds : Forall digit ds -> exists u, DecimalString.NilEmpty.string_of_uint u = unlit ds /\ lit (DecimalString.NilEmpty.string_of_uint u) = ds.
Proof.
  induction 1 as [|c ds H _ (u & E1 & E2)]; [exists Decimal.Nil; split; reflexivity|]. exists (to_digit c u).
  assert (K := digit_cases c H). cbn [In] in K.
  repeat destruct K as [K|K]; try contradiction; subst c; cbn [to_digit DecimalString.NilEmpty.string_of_uint]; (split; [rewrite E1; reflexivity|]);
    cbn [lit list_ascii_of_string map]; fold (lit (DecimalString.NilEmpty.string_of_uint u)); rewrite E2; reflexivity.
Qed.
Lemma digits_value ds : Forall digit ds -> ds <> [] -> exists u, DecimalString.NilZero.uint_of_string (unlit ds) = Some u /\ Z.of_uint u = decimal ds.
Proof.
  intros H N. destruct (digits_uint ds H) as (u & E1 & E2). exists u. split; [|rewrite of_uint_decimal, E2; reflexivity]. rewrite <- E1.
  assert (M : u <> Decimal.Nil) by (intros ->; apply N; rewrite <- E2; reflexivity).
  transitivity (DecimalString.NilEmpty.uint_of_string (DecimalString.NilEmpty.string_of_uint u)); [|apply DecimalString.NilEmpty.usu].
  destruct u; try congruence; reflexivity.
Qed.
Lemma unlit_cons c s : unlit (c :: s) = String (ascii_of_nat (Z.to_nat c)) (unlit s).
Proof. reflexivity. Qed.
Lemma digit_nospace ds a : Forall digit ds -> In a (chars (unlit ds)) -> is_space a = false /\ a <> "-"%char /\ a <> "+"%char.
Proof.
  induction 1 as [|c ds H _ IH]; [intros []|]. rewrite unlit_cons. intros [<-|I]; [|exact (IH I)]. apply digit_cases in H. cbn [In] in H.
  repeat destruct H as [H|H]; try contradiction; subst c; cbn; repeat split; discriminate.
Qed.
Lemma py_int_integer t z : integer t z -> py_int (unlit t) = Some z.
Proof.
  intros (ip & Hi & Ht).
  assert (D : Forall digit ip /\ ip <> []).
  { destruct Hi as [->|(d & ds & -> & Hd & H)]; (split; [|discriminate]); constructor; try assumption; unfold digit; try lia. constructor. }
  destruct D as (D & N). destruct (digits_value ip D N) as (u & E & V). destruct Ht as [(-> & ->)|(-> & ->)].
  - unfold py_int. rewrite strip_id by (intros a Ha; exact (proj1 (digit_nospace ip a D Ha))). destruct ip as [|c ip]; [congruence|]. rewrite unlit_cons in *.
    destruct (digit_nospace (c :: ip) (ascii_of_nat (Z.to_nat c)) D (or_introl eq_refl)) as (_ & A & B).
    destruct (Ascii.eqb_spec (ascii_of_nat (Z.to_nat c)) "-"); [congruence|]. destruct (Ascii.eqb_spec (ascii_of_nat (Z.to_nat c)) "+"); [congruence|].
    rewrite E. cbn. rewrite V. reflexivity.
  - unfold py_int. rewrite unlit_cons. change (ascii_of_nat (Z.to_nat 45)) with "-"%char. rewrite strip_id.
    + cbn [Ascii.eqb]. change (Ascii.eqb "-" "-") with true. cbv iota. rewrite E. cbn. rewrite V. reflexivity.
    + intros a [<-|Ha]; [reflexivity|]. exact (proj1 (digit_nospace ip a D Ha)).
Qed.
Lemma integer_text t z : integer t z -> int_text t.
Proof. intros (ip & Hi & [(-> & _)|(-> & _)]); [exists [], ip|exists [45], ip]; auto. Qed.
Lemma int_text_integer t : int_text t -> exists z, integer t z.
Proof. intros (sg & ip & -> & [->| ->] & Hi); eexists; exists ip; (split; [exact Hi|]); [left|right]; split; reflexivity. Qed.

Lemma take_all s : Forall digit (fst (take_digits s)).
Proof. induction s as [|c r IH]; cbn; [constructor|]. destruct (is_digit c) eqn:D; cbn; [constructor; [unfold is_digit, digit in *; lia|exact IH]|constructor]. Qed.
Lemma int_part_text s i r : int_part s = Some (i, r) -> int_text i.
Proof.
  assert (G : forall sg s i r, sg = [] \/ sg = [45] -> match s with c :: r => if c =? 48 then Some (sg ++ [48], r) else if is_digit c then let p := take_digits s in Some (sg ++ fst p, snd p) else None | [] => None end = Some (i, r) -> int_text i).
  { clear. intros sg [|c s] i r Hs; [discriminate|]. destruct (Z.eqb_spec c 48) as [->|N].
    - intros E; injection E as <- <-. exists sg, [48]. auto.
    - destruct (is_digit c) eqn:D; [|discriminate]. cbn zeta. assert (T := take_all (c :: s)). cbn [take_digits] in *. rewrite D in *. cbn [fst snd] in *. intros E; injection E as <- <-.
      exists sg. eexists. split; [reflexivity|]. split; [exact Hs|]. right. inversion T as [|? ? T1 T2]; subst. do 2 eexists. split; [reflexivity|]. split; [unfold digit in T1; lia|exact T2]. }
  unfold int_part. destruct s as [|c s]; [discriminate|]. destruct (Z.eqb_spec c 45) as [->|_]; [exact (G [45] s i r (or_intror eq_refl))|exact (G [] (c :: s) i r (or_introl eq_refl))].
Qed.
Lemma frac_text s : fst (frac_part s) = [] \/ exists d ds, fst (frac_part s) = 46 :: d :: ds /\ Forall digit (d :: ds).
Proof.
  unfold frac_part. destruct s as [|c r]; [left; reflexivity|]. destruct (Z.eqb_spec c 46) as [->|_]; [|left; reflexivity]. assert (T := take_all r). destruct (take_digits r) as [[|d ds] t]; [left; reflexivity|].
  right. exists d, ds. split; [reflexivity|exact T].
Qed.
Lemma exp_text s : fst (exp_part s) = [] \/ exists e g d ds, fst (exp_part s) = e :: g ++ d :: ds /\ (e = 101 \/ e = 69) /\ (g = [] \/ g = [43] \/ g = [45]) /\ Forall digit (d :: ds).
Proof.
  unfold exp_part. destruct s as [|c r]; [left; reflexivity|]. destruct ((c =? 101) || (c =? 69)) eqn:B; [|left; reflexivity].
  set (p := match r with [] => ([], r) | d :: t => if (d =? 43) || (d =? 45) then ([d], t) else ([], r) end).
  assert (R : fst p = [] \/ fst p = [43] \/ fst p = [45]).
  { unfold p. destruct r as [|d t]; [auto|]. destruct ((d =? 43) || (d =? 45)) eqn:X; [|auto]. cbn. assert (Y : d = 43 \/ d = 45) by lia. destruct Y as [->| ->]; auto. }
  destruct p as [sg r']. cbn [fst] in R. assert (T := take_all r'). destruct (take_digits r') as [[|d ds] t]; [left; reflexivity|]. right. exists c, sg, d, ds. split; [reflexivity|]. split; [lia|]. split; [exact R|exact T].
Qed.
Lemma number_lexeme s i fe r : match_number s = Some (i, fe, r) -> int_text i /\ (fe <> [] -> float_lexeme (i ++ fe)).
Proof.
  unfold match_number. destruct (int_part s) as [[i' r']|] eqn:I; [|discriminate]. intros E. injection E as <- <- <-. apply int_part_text in I. split; [exact I|]. intros N.
  destruct I as (sg & ip & -> & Hs & Hi). exists sg, ip, (fst (frac_part r')), (fst (exp_part (snd (frac_part r')))). rewrite <- app_assoc. split; [reflexivity|]. split; [exact Hs|]. split; [exact Hi|].
  split; [apply frac_text|]. split; [apply exp_text|exact N].
Qed.

(* ---- strings ---- *)
Lemma unhex1_iff c v : unhex1 c = Some v <-> hex_digit c v.
Proof.
  unfold unhex1, hex_digit. destruct ((48 <=? c) && (c <=? 57)) eqn:A; [split; [intros E; injection E as <-; lia|intros H; f_equal; lia]|].
  destruct ((97 <=? c) && (c <=? 102)) eqn:B; [split; [intros E; injection E as <-; lia|intros H; f_equal; lia]|].
  destruct ((65 <=? c) && (c <=? 70)) eqn:C; [split; [intros E; injection E as <-; lia|intros H; f_equal; lia]|]. split; [discriminate|lia].
Qed.
Lemma unhex4_iff s n r : unhex4 s = Some (n, r) <-> exists h, s = h ++ r /\ hex_quad h n.
Proof.
  split.
  - unfold unhex4. destruct s as [|a [|b [|c [|d t]]]]; try discriminate. destruct (unhex1 a) as [w|] eqn:A; [|discriminate]. destruct (unhex1 b) as [x|] eqn:B; [|discriminate].
    destruct (unhex1 c) as [y|] eqn:C; [|discriminate]. destruct (unhex1 d) as [z|] eqn:D; [|discriminate]. intros E. injection E as <- <-. apply unhex1_iff in A, B, C, D.
    exists [a; b; c; d]. split; [reflexivity|]. exists a, b, c, d, w, x, y, z. auto 10.
  - intros (h & -> & a & b & c & d & w & x & y & z & -> & A & B & C & D & ->). apply unhex1_iff in A, B, C, D. cbn. rewrite A, B, C, D. reflexivity.
Qed.
Lemma second_iff s m r : second_half s = Some (m, r) <-> exists l, s = l ++ r /\ unicode_escape l m /\ low_surrogate m.
Proof.
  split.
  - unfold second_half. destruct s as [|a [|b t]]; try discriminate. destruct ((a =? 92) && (b =? 117)) eqn:X; [|discriminate]. destruct (unhex4 t) as [[c u]|] eqn:U; [|discriminate].
    destruct (low c) eqn:L; [|discriminate]. intros E; injection E as <- <-. apply unhex4_iff in U. destruct U as (h & -> & H). assert (Y : a = 92 /\ b = 117) by lia. destruct Y as (-> & ->).
    exists (92 :: 117 :: h). split; [reflexivity|]. split; [exists h; auto|]. apply low_iff. exact L.
  - intros (l & -> & (h & -> & H) & L). cbn. assert (U : unhex4 (h ++ r) = Some (m, r)) by (apply unhex4_iff; exists h; auto). rewrite U. apply low_iff in L. rewrite L. reflexivity.
Qed.
Lemma no_quote_hex v : ~ hex_digit 34 v.
Proof. unfold hex_digit. lia. Qed.
(* an escape does not reach beyond the closing quote *)
Lemma escape_inside t r l m u : t ++ 34 :: r = l ++ u -> unicode_escape l m -> exists u', t = l ++ u'.
Proof.
  intros E (h & -> & a & b & c & d & w & x & y & z & -> & A & B & C & D & _). cbn [app] in E.
  destruct t as [|t0 t]; [discriminate|]. injection E as -> E. destruct t as [|t1 t]; [discriminate|]. injection E as -> E.
  destruct t as [|t2 t]; [injection E as <- _; destruct (no_quote_hex _ A)|]. injection E as -> E. destruct t as [|t3 t]; [injection E as <- _; destruct (no_quote_hex _ B)|]. injection E as -> E.
  destruct t as [|t4 t]; [injection E as <- _; destruct (no_quote_hex _ C)|]. injection E as -> E. destruct t as [|t5 t]; [injection E as <- _; destruct (no_quote_hex _ D)|]. injection E as -> E.
  exists t. reflexivity.
Qed.
Lemma quad_range h n : hex_quad h n -> 0 <= n < 65536.
Proof. intros (a & b & c & d & w & x & y & z & _ & A & B & C & D & ->). unfold hex_digit in *. lia. Qed.
Lemma spelled_read t s : spelled t s -> forall r, exists f, scan_string f (t ++ 34 :: r) = Ok (s, r).
Proof.
  induction 1 as [|c t s H1 H2 H3 H IH|e c t s H1 H IH|h n t s H1 H2 H IH|h n l m t s H1 H2 H3 H4 H IH]; intros r.
  - exists 1%nat. reflexivity.
  - destruct (IH r) as (f & E). exists (S f). rewrite string_S. cbn [app]. destruct (Z.eqb_spec c 34); [lia|]. destruct (Z.eqb_spec c 92); [lia|]. destruct (Z.leb_spec c 31); [lia|]. rewrite E. reflexivity.
  - destruct (IH r) as (f & E). exists (S f). rewrite string_S. cbn [app]. change (92 =? 34) with false. change (92 =? 92) with true. cbv iota.
    cbn [In short_escapes] in H1. repeat destruct H1 as [H1|H1]; try contradiction; injection H1 as <- <-; cbn; rewrite E; reflexivity.
  - destruct (IH r) as (f & E). exists (S f). rewrite string_S. destruct H1 as (q & -> & Q). cbn [app]. change (92 =? 34) with false. change (92 =? 92) with true. cbv iota. unfold unescape. change (117 =? 117) with true. cbv iota.
    assert (U : unhex4 ((q ++ t) ++ 34 :: r) = Some (n, t ++ 34 :: r)) by (apply unhex4_iff; exists q; rewrite app_assoc; auto). rewrite U.
    destruct (high n) eqn:Hn; [|rewrite E; reflexivity]. destruct (second_half (t ++ 34 :: r)) as [[m u]|] eqn:S2; [|rewrite E; reflexivity]. exfalso.
    apply second_iff in S2. destruct S2 as (l & E2 & L & M). destruct (escape_inside t r l m u E2 L) as (u' & ->). exact (H2 (proj1 (high_iff n) Hn) l m u' L M eq_refl).
  - destruct (IH r) as (f & E). exists (S f). rewrite string_S. destruct H1 as (q & -> & Q). cbn [app]. change (92 =? 34) with false. change (92 =? 92) with true. cbv iota. unfold unescape. change (117 =? 117) with true. cbv iota.
    assert (U : unhex4 ((q ++ l ++ t) ++ 34 :: r) = Some (n, l ++ t ++ 34 :: r)) by (apply unhex4_iff; exists q; rewrite <- !app_assoc; auto). rewrite U. rewrite (proj2 (high_iff n) H3).
    assert (S2 : second_half (l ++ t ++ 34 :: r) = Some (m, t ++ 34 :: r)) by (apply second_iff; exists l; auto). rewrite S2, E. reflexivity.
Qed.
Lemma read_spelled : forall f x s r, scan_string f x = Ok (s, r) -> exists t, x = t ++ 34 :: r /\ spelled t s.
Proof.
  induction f as [|f IH]; intros x s r; [discriminate|]. rewrite string_S. destruct x as [|c x]; [discriminate|]. destruct (Z.eqb_spec c 34) as [->|N1]; [intros E; injection E as <- <-; exists []; split; [reflexivity|constructor]|].
  destruct (Z.eqb_spec c 92) as [->|N2].
  - destruct (unescape x) as [[y u]|] eqn:U; [|discriminate]. intros E. apply rbind_Ok in E. destruct E as ([s' r'] & E & E'). injection E' as <- <-. destruct (IH _ _ _ E) as (t & -> & S). cbn [fst].
    unfold unescape in U. destruct x as [|e x]; [discriminate|]. destruct (Z.eqb_spec e 117) as [->|N3].
    + destruct (unhex4 x) as [[h v]|] eqn:X; [|discriminate]. apply unhex4_iff in X. destruct X as (q & -> & Q). destruct (high h) eqn:Hh.
      * destruct (second_half v) as [[l v']|] eqn:S2.
        -- injection U as <- ->. apply second_iff in S2. destruct S2 as (k & -> & K & L). exists ((92 :: 117 :: q) ++ k ++ t). split; [cbn [app]; rewrite <- !app_assoc; reflexivity|].
           apply sp_pair; [exists q; auto|exact K|apply high_iff; exact Hh|exact L|exact S].
        -- injection U as <- ->. exists ((92 :: 117 :: q) ++ t). split; [cbn [app]; rewrite <- app_assoc; reflexivity|]. apply sp_code; [exists q; auto| |exact S].
           intros _ l m t' L M ->. enough (C : second_half ((l ++ t') ++ 34 :: r') = Some (m, t' ++ 34 :: r')) by (rewrite C in S2; discriminate). apply second_iff. exists l. rewrite <- app_assoc. auto.
      * injection U as <- ->. exists ((92 :: 117 :: q) ++ t). split; [cbn [app]; rewrite <- app_assoc; reflexivity|]. apply sp_code; [exists q; auto| |exact S].
        intros Hs. apply high_iff in Hs. congruence.
    + assert (K : In (e, y) short_escapes /\ x = t ++ 34 :: r').
      { revert U. unfold short_escapes. repeat match goal with |- (if ?a =? ?b then _ else _) = _ -> _ => destruct (Z.eqb_spec a b); [subst; intros U; injection U as <- ->; split; [cbn; auto 10|reflexivity]|] end. discriminate. }
      destruct K as (K & ->). exists (92 :: e :: t). split; [reflexivity|]. apply sp_short; assumption.
  - destruct (Z.leb_spec c 31); [discriminate|]. intros E. apply rbind_Ok in E. destruct E as ([s' r'] & E & E'). injection E' as <- <-. destruct (IH _ _ _ E) as (t & -> & S). exists (c :: t). split; [reflexivity|]. apply sp_plain; auto; lia.
Qed.

(* ---- dictionaries ---- *)
Section Dicts.
Context {A : Type}.
Lemma last_given_fun (l : list (ustr * A)) k v v' : last_given l k v -> last_given l k v' -> v = v'.
Proof.
  intros (a & b & -> & N) (c & d & E & M). revert c E. induction a as [|p a IH]; intros [|q c] E; cbn [app] in E.
  - injection E as -> _. reflexivity.
  - injection E as _ E. exfalso. apply N. rewrite E, map_app. apply in_or_app. right. left. reflexivity.
  - injection E as _ E. exfalso. apply M. rewrite <- E, map_app. apply in_or_app. right. left. reflexivity.
  - injection E as _ E. exact (IH c E).
Qed.
Lemma as_dict_fun (l d d' : list (ustr * A)) : as_dict l d -> as_dict l d' -> d = d'.
Proof.
  intros (K & V) (K' & V'). assert (E : map fst d = map fst d') by congruence. assert (W : forall k v v', In (k, v) d -> In (k, v') d' -> v = v') by (intros k v v' H H'; exact (last_given_fun l k v v' (V k v H) (V' k v' H'))).
  clear K K' V V'. revert d' E W. induction d as [|[k v] d IH]; intros [|[k' v'] d'] E W; try discriminate; [reflexivity|]. cbn [map fst] in E. injection E as -> E.
  rewrite (W k' v v' (or_introl eq_refl) (or_introl eq_refl)). f_equal. apply IH; [exact E|]. intros a x y Hx Hy. exact (W a x y (or_intror Hx) (or_intror Hy)).
Qed.
Lemma firsts_In l x : In x (firsts l) <-> In x l.
Proof.
  induction l as [|y l IH]; cbn; [tauto|]. rewrite filter_In, IH. destruct (eqb_spec y x) as [->|N]; cbn; [tauto|]. intuition congruence.
Qed.
Lemma firsts_snoc l x : firsts (l ++ [x]) = if existsb (eqb x) l then firsts l else firsts l ++ [x].
Proof.
  induction l as [|y l IH]; [reflexivity|]. cbn [app firsts existsb]. rewrite IH. destruct (eqb_spec x y) as [->|N]; cbn [orb].
  - destruct (existsb (eqb y) l); [reflexivity|]. rewrite filter_app. cbn. destruct (eqb_spec y y); [cbn; rewrite app_nil_r; reflexivity|congruence].
  - destruct (existsb (eqb x) l); [reflexivity|]. rewrite filter_app. cbn. destruct (eqb_spec y x); [congruence|reflexivity].
Qed.
Lemma dset_fst (d : list (ustr * A)) k v : map fst (dset d k v) = if existsb (eqb k) (map fst d) then map fst d else map fst d ++ [k].
Proof.
  induction d as [|[k' v'] d IH]; [reflexivity|]. cbn [dset map fst existsb]. destruct (eqb_spec k k') as [->|N]; cbn [orb map fst]; [reflexivity|]. rewrite IH. destruct (existsb (eqb k) (map fst d)); reflexivity.
Qed.
Lemma existsb_same l l' (x : ustr) : (forall y, In y l <-> In y l') -> existsb (eqb x) l = existsb (eqb x) l'.
Proof.
  intros H. apply Bool.eq_true_iff_eq. rewrite !existsb_exists. split; intros (y & I & E); exists y; (split; [apply H; exact I|exact E]).
Qed.
Lemma dset_In (d : list (ustr * A)) k v k' v' : NoDup (map fst d) -> In (k', v') (dset d k v) -> k' = k /\ v' = v \/ k' <> k /\ In (k', v') d.
Proof.
  induction d as [|[a x] d IH]; intros N H; cbn [dset] in H; [destruct H as [H|[]]; injection H as <- <-; auto|]. cbn [map fst] in N. inversion N as [|? ? N1 N2]; subst.
  destruct (eqb_spec k a) as [->|Q].
  - destruct H as [H|H]; [injection H as <- <-; auto|]. right. split; [|right; exact H]. intros ->. apply N1. exact (in_map fst _ _ H).
  - destruct H as [H|H]; [injection H as <- <-; right; split; [congruence|left; reflexivity]|]. destruct (IH N2 H) as [X|(X & Y)]; [left; exact X|right; split; [exact X|right; exact Y]].
Qed.
Lemma NoDup_filter' (l : list ustr) f : NoDup l -> NoDup (filter f l).
Proof. apply NoDup_filter. Qed.
Lemma firsts_NoDup l : NoDup (firsts l).
Proof.
  induction l as [|x l IH]; cbn; constructor; [|apply NoDup_filter; exact IH]. rewrite filter_In. intros (_ & E). destruct (eqb_spec x x); [discriminate|congruence].
Qed.
Definition fold_dict (l : list (ustr * A)) : list (ustr * A) := fold_left (fun d p => dset d (fst p) (snd p)) l [].
Lemma fold_dict_ok (l : list (ustr * A)) : as_dict l (fold_dict l).
Proof.
  induction l as [|[k v] l (K & V)] using rev_ind; [split; [reflexivity|intros ? ? []]|]. unfold fold_dict in *. rewrite fold_left_app. cbn [fold_left fst snd]. set (d := fold_left _ l []) in *. split.
  - rewrite dset_fst, K, map_app. cbn [map fst]. rewrite firsts_snoc. rewrite (existsb_same (firsts (map fst l)) (map fst l) k (firsts_In _)). reflexivity.
  - intros k' v' H. apply dset_In in H; [|rewrite K; apply firsts_NoDup]. destruct H as [(-> & ->)|(N & H)].
    + exists l, []. split; [reflexivity|intros []].
    + destruct (V k' v' H) as (a & b & -> & M). exists a, (b ++ [(k, v)]). split; [rewrite <- app_assoc; reflexivity|]. rewrite map_app. intros I. apply in_app_or in I. destruct I as [I|[I|[]]]; [exact (M I)|]. cbn in I. congruence.
Qed.
End Dicts.

(* ---- white space ---- *)
Lemma is_ws_iff c : is_ws c = true <-> In c [32; 9; 10; 13].
Proof. unfold is_ws. cbn. lia. Qed.
Lemma skip_space w t : space w -> skip_ws (w ++ t) = skip_ws t.
Proof. induction 1 as [|c w H _ IH]; [reflexivity|]. cbn [app skip_ws]. rewrite (proj2 (is_ws_iff c) H). exact IH. Qed.
Lemma skip_split s : exists w, s = w ++ skip_ws s /\ space w.
Proof.
  induction s as [|c s (w & E & W)]; [exists []; split; [reflexivity|constructor]|]. cbn [skip_ws]. destruct (is_ws c) eqn:B; [|exists []; split; [reflexivity|constructor]].
  exists (c :: w). split; [cbn [app]; f_equal; exact E|]. constructor; [apply is_ws_iff; exact B|exact W].
Qed.
Lemma skip_split' s r : skip_ws s = r -> exists w, s = w ++ r /\ space w.
Proof. intros <-. apply skip_split. Qed.

Section Grammar.
Context {F : Type}.
Variable read_float : ustr -> F.
Notation scan := (scan read_float).
Notation scan_items := (scan_items read_float).
Notation scan_members := (scan_members read_float).
Notation scan_word := (scan_word read_float).
Notation scan_number := (scan_number read_float).
Notation OOF := (@Err _ OutOfFuel).
Notation json_value := (json_value read_float).
Notation nt := (fun _ : F => @nil Z).
Notation json_items := (json_items read_float).
Notation json_members := (json_members read_float).

(* what follows a value: white space and then the end, a comma or a bracket *)
Definition after (r : ustr) : Prop := ok_rest r.
Lemma after_space w r : space w -> after r -> after (w ++ r).
Proof. intros W H. destruct W as [|c w Hc W]; [exact H|]. right. exists c, (w ++ r). split; [reflexivity|]. unfold ends_value. rewrite (proj2 (is_ws_iff c) Hc). reflexivity. Qed.
Lemma after_char c r : In c [44; 93; 125] -> after (c :: r).
Proof. intros H. right. exists c, r. split; [reflexivity|]. cbn in H. repeat destruct H as [<-|H]; try reflexivity. destruct H. Qed.
Lemma value_head t j : json_value t j -> exists c r, t = c :: r /\ starts c.
Proof.
  intros H. destruct H as [| | |t z H|t H|t H|t s _|w _|t l _|w _|t l d _ _]; try (do 2 eexists; split; [reflexivity|]; cbv; repeat split; congruence).
  - apply integer_text in H. destruct (int_text_head nt read_float _ H) as (c & r & -> & Hc). exists c, r. split; [reflexivity|exact (numhead_starts c Hc)].
  - destruct H as (sg & ip & fr & ex & -> & Hs & Hi & _). assert (H : int_text (sg ++ ip)) by (exists sg, ip; auto). destruct (int_text_head nt read_float _ H) as (c & r & E & Hc). exists c, (r ++ fr ++ ex).
    split; [|exact (numhead_starts c Hc)]. rewrite app_assoc, E. reflexivity.
  - cbn in H. repeat destruct H as [<-|H]; try contradiction; do 2 eexists; (split; [reflexivity|]; cbv; repeat split; congruence).
Qed.
Lemma starts_not c t : starts c -> skip_ws (c :: t) = c :: t /\ c <> 93 /\ c <> 125.
Proof. intros (A & B & C). split; [apply skip_start; exact A|auto]. Qed.
Lemma number_scan t j r : scan_word (t ++ r) = Ok (j, r) -> (exists c x, t = c :: x /\ numhead c = true) -> scan 1 (t ++ r) = Ok (j, r).
Proof.
  intros E (c & x & -> & H). cbn [app] in *. rewrite scan_S. assert (N : c <> 34 /\ c <> 91 /\ c <> 123) by (unfold numhead, is_digit in H; lia). destruct N as (A & B & C).
  destruct (Z.eqb_spec c 34); [congruence|]. destruct (Z.eqb_spec c 91); [congruence|]. destruct (Z.eqb_spec c 123); [congruence|]. exact E.
Qed.
Lemma scan_fuel2 f f' s p : scan f s = Ok p -> scan (Nat.max f f') s = Ok p.
Proof. intros E. rewrite (scan_le read_float f (Nat.max f f') s); [exact E|lia|congruence]. Qed.
Lemma items_fuel2 f f' s p : scan_items f s = Ok p -> scan_items (Nat.max f' f) s = Ok p.
Proof. intros E. rewrite (items_le read_float f (Nat.max f' f) s); [exact E|lia|congruence]. Qed.

Scheme value_mut := Minimality for JsonGrammarSpec.json_value Sort Prop
  with items_mut := Minimality for JsonGrammarSpec.json_items Sort Prop
  with members_mut := Minimality for JsonGrammarSpec.json_members Sort Prop.
Combined Scheme grammar_ind from value_mut, items_mut, members_mut.

Definition value_reads (t : ustr) (j : jval F) : Prop := forall r, after r -> exists f, scan f (t ++ r) = Ok (j, r).
Definition items_read (t : ustr) (l : list (jval F)) : Prop := forall r, exists f, scan_items f (skip_ws (t ++ 93 :: r)) = Ok (l, r).
Definition members_read (t : ustr) (l : list (ustr * jval F)) : Prop := forall r, exists f, scan_members f (skip_ws (t ++ 125 :: r)) = Ok (l, r).
Lemma more_string f f' s p : scan_string f s = Ok p -> (f <= f')%nat -> scan_string f' s = Ok p.
Proof. intros E L. rewrite (string_le f f' s); [exact E|exact L|congruence]. Qed.
Lemma more_scan f f' s p : scan f s = Ok p -> (f <= f')%nat -> scan f' s = Ok p.
Proof. intros E L. rewrite (scan_le read_float f f' s); [exact E|exact L|congruence]. Qed.
Lemma more_items f f' s p : scan_items f s = Ok p -> (f <= f')%nat -> scan_items f' s = Ok p.
Proof. intros E L. rewrite (items_le read_float f f' s); [exact E|exact L|congruence]. Qed.
Lemma more_members f f' s p : scan_members f s = Ok p -> (f <= f')%nat -> scan_members f' s = Ok p.
Proof. intros E L. rewrite (members_le read_float f f' s); [exact E|exact L|congruence]. Qed.
Lemma skip_value w t j r : space w -> json_value t j -> skip_ws (w ++ t ++ r) = t ++ r.
Proof.
  intros W H. rewrite (skip_space _ _ W). destruct (value_head t j H) as (c & x & -> & (S & _)). cbn [app]. apply skip_start. exact S.
Qed.
Lemma grammar_reads : (forall t j, json_value t j -> value_reads t j) /\ (forall t l, json_items t l -> items_read t l) /\ (forall t l, json_members t l -> members_read t l).
Proof.
  apply grammar_ind.
  - intros r _. exists 1%nat. reflexivity.
  - intros r _. exists 1%nat. reflexivity.
  - intros r _. exists 1%nat. reflexivity.
  - intros t z H r Hr. exists 1%nat. assert (T := integer_text t z H). assert (Hd := int_text_head nt read_float t T). apply number_scan; [|exact Hd]. destruct Hd as (c & x & E & Hc).
    transitivity (scan_number (t ++ r)); [rewrite E; exact (word_is_number nt read_float c (x ++ r) Hc)|]. unfold JsonText.scan_number. rewrite (int_lexeme nt read_float t r T Hr), (py_int_integer t z H). reflexivity.
  - intros t H r Hr. exists 1%nat. assert (Hd : exists c x, t = c :: x /\ numhead c = true).
    { destruct H as (sg & ip & fr & ex & -> & Hs & Hi & _). assert (T : int_text (sg ++ ip)) by (exists sg, ip; auto). destruct (int_text_head nt read_float _ T) as (c & x & E & Hc). exists c, (x ++ fr ++ ex). split; [|exact Hc]. rewrite app_assoc, E. reflexivity. }
    apply number_scan; [|exact Hd]. destruct Hd as (c & x & E & Hc).
    transitivity (scan_number (t ++ r)); [rewrite E; exact (word_is_number nt read_float c (x ++ r) Hc)|]. unfold JsonText.scan_number. destruct (float_read nt read_float t r H Hr) as (i & fe & M & Q & N). rewrite M. destruct fe as [|y fe]; [congruence|]. rewrite Q. reflexivity.
  - intros t H r Hr. exists 1%nat. cbn [In] in H. repeat destruct H as [H|H]; try contradiction; subst t; reflexivity.
  - intros t s H r _. destruct (spelled_read t s H r) as (f & E). exists (S f). rewrite scan_S. cbn [app]. change (34 =? 34) with true. cbv iota. rewrite <- app_assoc. cbn [app]. rewrite E. reflexivity.
  - intros w W r _. exists 1%nat. rewrite scan_S. cbn [app]. change (91 =? 34) with false. change (91 =? 91) with true. cbv iota. rewrite <- app_assoc, (skip_space _ _ W). reflexivity.
  - intros t l H IH r _. destruct (IH r) as (f & E). exists (S f). rewrite scan_S. cbn [app]. change (91 =? 34) with false. change (91 =? 91) with true. cbv iota. rewrite <- app_assoc. cbn [app].
    assert (K : exists c x, skip_ws (t ++ 93 :: r) = c :: x /\ c <> 93).
    { destruct H as [w u j w' W V W'|w u j w' v m W V W' _]; rewrite <- !app_assoc; rewrite (skip_value w u j _ W V); destruct (value_head u j V) as (c & x & -> & (_ & S & _)); cbn [app]; eauto. }
    destruct K as (c & x & K & N). rewrite K in *. destruct (Z.eqb_spec c 93); [congruence|]. rewrite E. reflexivity.
  - intros w W r _. exists 1%nat. rewrite scan_S. cbn [app]. change (123 =? 34) with false. change (123 =? 91) with false. change (123 =? 123) with true. cbv iota. rewrite <- app_assoc, (skip_space _ _ W). reflexivity.
  - intros t l d H IH D r _. destruct (IH r) as (f & E). exists (S f). rewrite scan_S. cbn [app]. change (123 =? 34) with false. change (123 =? 91) with false. change (123 =? 123) with true. cbv iota. rewrite <- app_assoc. cbn [app].
    assert (K : exists x, skip_ws (t ++ 125 :: r) = 34 :: x).
    { destruct H as [w k s w1 w2 u j w' W V|w k s w1 w2 u j w' v m W V]; rewrite <- !app_assoc; rewrite (skip_space _ _ W); cbn [app]; eexists; reflexivity. }
    destruct K as (x & K). rewrite K in *. change (34 =? 125) with false. cbv iota. rewrite E. cbn [rbind fst snd]. rewrite (as_dict_fun l d (dict_of l) D (fold_dict_ok l)). reflexivity.
  - intros w t j w' W V IH W' r. destruct (IH (w' ++ 93 :: r) (after_space _ _ W' (after_char 93 r (or_intror (or_introl eq_refl))))) as (f & E). exists (S f). rewrite items_S. rewrite <- !app_assoc, (skip_value w t j _ W V), E. cbn [rbind fst snd].
    rewrite (skip_space _ _ W'). reflexivity.
  - intros w t j w' u l W V IH W' _ IHl r. destruct (IH (w' ++ 44 :: u ++ 93 :: r) (after_space _ _ W' (after_char 44 _ (or_introl eq_refl)))) as (f & E). destruct (IHl r) as (g & G). exists (S (Nat.max f g)). rewrite items_S.
    rewrite <- !app_assoc. cbn [app]. rewrite (skip_value w t j _ W V). rewrite (more_scan f _ _ _ E) by lia. cbn [rbind fst snd]. rewrite (skip_space _ _ W'). rewrite (skip_start 44) by reflexivity. change (44 =? 93) with false. change (44 =? 44) with true. cbv iota.
    rewrite (more_items g _ _ _ G) by lia. reflexivity.
  - intros w k s w1 w2 t j w' W K W1 W2 V IH W' r. destruct (IH (w' ++ 125 :: r) (after_space _ _ W' (after_char 125 r (or_intror (or_intror (or_introl eq_refl)))))) as (f & E).
    destruct (spelled_read k s K (w1 ++ 58 :: w2 ++ t ++ w' ++ 125 :: r)) as (g & G). exists (S (Nat.max f g)). rewrite members_S. rewrite <- !app_assoc. rewrite (skip_space _ _ W). cbn [app]. rewrite (skip_start 34) by reflexivity.
    change (negb (34 =? 34)) with false. cbv iota. rewrite <- !app_assoc. cbn [app]. rewrite <- !app_assoc. cbn [app]. rewrite <- !app_assoc. rewrite (more_string g _ _ _ G) by lia. cbn [rbind fst snd]. rewrite (skip_space _ _ W1), (skip_start 58) by reflexivity. change (negb (58 =? 58)) with false. cbv iota.
    rewrite (skip_value w2 t j _ W2 V), (more_scan f _ _ _ E) by lia. cbn [rbind fst snd]. rewrite (skip_space _ _ W'). reflexivity.
  - intros w k s w1 w2 t j w' u l W K W1 W2 V IH W' _ IHl r. destruct (IH (w' ++ 44 :: u ++ 125 :: r) (after_space _ _ W' (after_char 44 _ (or_introl eq_refl)))) as (f & E). destruct (IHl r) as (h & H).
    destruct (spelled_read k s K (w1 ++ 58 :: w2 ++ t ++ w' ++ 44 :: u ++ 125 :: r)) as (g & G). exists (S (f + g + h)). rewrite members_S. rewrite <- !app_assoc. rewrite (skip_space _ _ W). cbn [app]. rewrite (skip_start 34) by reflexivity.
    change (negb (34 =? 34)) with false. cbv iota. repeat (rewrite <- !app_assoc; cbn [app]). rewrite (more_string g _ _ _ G) by lia. cbn [rbind fst snd]. rewrite (skip_space _ _ W1), (skip_start 58) by reflexivity. change (negb (58 =? 58)) with false. cbv iota.
    rewrite (skip_value w2 t j _ W2 V), (more_scan f _ _ _ E) by lia. cbn [rbind fst snd]. rewrite (skip_space _ _ W'), (skip_start 44) by reflexivity. change (44 =? 125) with false. change (44 =? 44) with true. cbv iota.
    rewrite (more_members h _ _ _ H) by lia. reflexivity.
Qed.
Lemma text_reads t j : json_text read_float t j -> loads read_float t = Ok j.
Proof.
  intros (w & u & w' & -> & W & V & W'). unfold loads. rewrite (skip_value w u j w' W V). assert (R : after (w' ++ [])) by (apply after_space; [exact W'|left; reflexivity]). rewrite app_nil_r in R. destruct (proj1 grammar_reads u j V w' R) as (f & E).
  rewrite (scan_enough read_float f); [|congruence|rewrite !app_length; lia]. rewrite E. cbn [rbind fst snd]. rewrite <- (app_nil_r w'), (skip_space _ _ W'). reflexivity.
Qed.

(* ---- and nothing else ---- *)
Lemma word_grammar s j r : scan_word s = Ok (j, r) -> exists t, s = t ++ r /\ json_value t j.
Proof.
  unfold JsonText.scan_word. destruct (strip_prefix (lit "null") s) as [u|] eqn:X; [apply strip_app in X; subst s; intros E; injection E as <- <-; eexists; split; [reflexivity|constructor]|]. clear X.
  destruct (strip_prefix (lit "true") s) as [u|] eqn:X; [apply strip_app in X; subst s; intros E; injection E as <- <-; eexists; split; [reflexivity|constructor]|]. clear X.
  destruct (strip_prefix (lit "false") s) as [u|] eqn:X; [apply strip_app in X; subst s; intros E; injection E as <- <-; eexists; split; [reflexivity|constructor]|]. clear X.
  unfold JsonText.scan_number. destruct (match_number s) as [[[i fe] t]|] eqn:M.
  - destruct (number_split _ _ _ _ M) as (-> & _). destruct (number_lexeme _ _ _ _ M) as (I & L). destruct fe as [|x fe].
    + destruct (int_text_integer i I) as (z & Hz). rewrite (py_int_integer i z Hz). intros E; injection E as <- <-. exists i. split; [reflexivity|constructor; exact Hz].
    + intros E; injection E as <- <-. exists (i ++ x :: fe). split; [rewrite <- app_assoc; reflexivity|]. constructor. apply L. discriminate.
  - destruct (strip_prefix (lit "NaN") s) as [u|] eqn:X; [apply strip_app in X; subst s; intros E; injection E as <- <-; eexists; split; [reflexivity|apply jv_const; cbn; auto]|]. clear X.
    destruct (strip_prefix (lit "Infinity") s) as [u|] eqn:X; [apply strip_app in X; subst s; intros E; injection E as <- <-; eexists; split; [reflexivity|apply jv_const; cbn; auto]|]. clear X.
    destruct (strip_prefix (lit "-Infinity") s) as [u|] eqn:X; [apply strip_app in X; subst s; intros E; injection E as <- <-; eexists; split; [reflexivity|apply jv_const; cbn; auto]|]. discriminate.
Qed.
Lemma scan_grammar : forall f, (forall s j r, scan f s = Ok (j, r) -> exists t, s = t ++ r /\ json_value t j) /\
  (forall s l r, scan_items f s = Ok (l, r) -> exists t, s = t ++ 93 :: r /\ json_items t l) /\ (forall s l r, scan_members f s = Ok (l, r) -> exists t, s = t ++ 125 :: r /\ json_members t l).
Proof.
  induction f as [|f (IH1 & IH2 & IH3)]; [repeat split; discriminate|]. split; [|split].
  - intros s j r. rewrite scan_S. destruct s as [|c x]; [discriminate|]. destruct (Z.eqb_spec c 34) as [->|_].
    { intros E. apply rbind_Ok in E. destruct E as ([k u] & E & E'). injection E' as <- <-. destruct (read_spelled _ _ _ _ E) as (t & -> & S). exists (34 :: t ++ [34]). split; [cbn [app]; rewrite <- app_assoc; reflexivity|constructor; exact S]. }
    destruct (Z.eqb_spec c 91) as [->|_].
    { destruct (skip_split x) as (w & Ew & W). destruct (skip_ws x) as [|d u]; [discriminate|]. destruct (Z.eqb_spec d 93) as [->|_].
      - intros E; injection E as <- <-. exists (91 :: w ++ [93]). split; [cbn [app]; rewrite Ew, <- app_assoc; reflexivity|constructor; exact W].
      - intros E. apply rbind_Ok in E. destruct E as ([l v] & E & E'). injection E' as <- <-. destruct (IH2 _ _ _ E) as (t & Et & T). exists (91 :: (w ++ t) ++ [93]). split; [cbn [app]; rewrite Ew, Et, <- !app_assoc; reflexivity|]. apply jv_list.
        cbn [fst]. destruct T as [w0 y j0 w' W0 V W'|w0 y j0 w' q m W0 V W' M]; rewrite app_assoc; constructor; try assumption; apply Forall_app; split; assumption. }
    destruct (Z.eqb_spec c 123) as [->|_].
    { destruct (skip_split x) as (w & Ew & W). destruct (skip_ws x) as [|d u]; [discriminate|]. destruct (Z.eqb_spec d 125) as [->|_].
      - intros E; injection E as <- <-. exists (123 :: w ++ [125]). split; [cbn [app]; rewrite Ew, <- app_assoc; reflexivity|constructor; exact W].
      - intros E. apply rbind_Ok in E. destruct E as ([l v] & E & E'). injection E' as <- <-. destruct (IH3 _ _ _ E) as (t & Et & T). exists (123 :: (w ++ t) ++ [125]). split; [cbn [app]; rewrite Ew, Et, <- !app_assoc; reflexivity|]. cbn [fst]. apply (jv_dict _ _ l); [|apply fold_dict_ok].
        destruct T as [w0 k s w1 w2 y j0 w' W0|w0 k s w1 w2 y j0 w' q m W0]; rewrite app_assoc; constructor; try assumption; apply Forall_app; split; assumption. }
    apply word_grammar.
  - intros s l r. rewrite items_S. intros E. apply rbind_Ok in E. destruct E as ([j u] & E & E'). destruct (IH1 _ _ _ E) as (t & -> & V). cbn [fst snd] in E'. destruct (skip_split u) as (w & Ew & W).
    destruct (skip_ws u) as [|d v]; [discriminate|]. destruct (Z.eqb_spec d 93) as [->|_].
    + injection E' as <- <-. exists ([] ++ t ++ w). split; [cbn [app]; rewrite Ew, <- app_assoc; reflexivity|]. constructor; [constructor|exact V|exact W].
    + destruct (Z.eqb_spec d 44) as [->|_]; [|discriminate]. apply rbind_Ok in E'. destruct E' as ([m y] & E2 & E'). injection E' as <- <-. destruct (skip_split v) as (w2 & Ew2 & W2). destruct (IH2 _ _ _ E2) as (t2 & Et2 & T2).
      exists ([] ++ t ++ w ++ 44 :: w2 ++ t2). split; [cbn [app fst snd]; rewrite Ew, Ew2, Et2; repeat (rewrite <- !app_assoc; cbn [app]); reflexivity|]. cbn [fst]. constructor; [constructor|exact V|exact W|].
      destruct T2 as [w0 z j0 w' W0 V0 W'|w0 z j0 w' q m W0 V0 W' M]; rewrite app_assoc; constructor; try assumption; apply Forall_app; split; assumption.
  - intros s l r. rewrite members_S. destruct s as [|c x]; [discriminate|]. destruct (Z.eqb_spec c 34) as [->|_]; [|discriminate]. cbn [negb]. intros E. apply rbind_Ok in E. destruct E as ([k u] & E & E'). destruct (read_spelled _ _ _ _ E) as (kt & -> & K). cbn [fst snd] in E'.
    destruct (skip_split u) as (w1 & Ew1 & W1). destruct (skip_ws u) as [|d v]; [discriminate|]. destruct (Z.eqb_spec d 58) as [->|_]; [|discriminate]. cbn [negb] in E'. destruct (skip_split v) as (w2 & Ew2 & W2).
    apply rbind_Ok in E'. destruct E' as ([j y] & E1 & E'). destruct (IH1 _ _ _ E1) as (t & Et & V). cbn [fst snd] in E'. destruct (skip_split y) as (w & Ew & W). destruct (skip_ws y) as [|e z]; [discriminate|]. destruct (Z.eqb_spec e 125) as [->|_].
    + injection E' as <- <-. exists ([] ++ 34 :: kt ++ 34 :: w1 ++ 58 :: w2 ++ t ++ w). split; [|constructor; try assumption; constructor]. rewrite Ew1, Ew2, Et, Ew. repeat (cbn [app]; rewrite <- !app_assoc). reflexivity.
    + destruct (Z.eqb_spec e 44) as [->|_]; [|discriminate]. apply rbind_Ok in E'. destruct E' as ([m q] & E2 & E'). injection E' as <- <-. destruct (skip_split z) as (w3 & Ew3 & W3). destruct (IH3 _ _ _ E2) as (t2 & Et2 & T2).
      exists ([] ++ 34 :: kt ++ 34 :: w1 ++ 58 :: w2 ++ t ++ w ++ 44 :: w3 ++ t2). split; [cbn [fst snd]; rewrite Ew1, Ew2, Et, Ew, Ew3, Et2; repeat (cbn [app]; rewrite <- !app_assoc); reflexivity|]. cbn [fst]. constructor; try assumption; [constructor|].
      destruct T2 as [w0 k0 s0 w4 w5 y0 j0 w' W0|w0 k0 s0 w4 w5 y0 j0 w' q0 m0 W0]; rewrite app_assoc; constructor; try assumption; apply Forall_app; split; assumption.
Qed.
Lemma loads_grammar t j : loads read_float t = Ok j -> json_text read_float t j.
Proof.
  unfold loads. intros E. apply rbind_Ok in E. destruct E as ([x r] & E & E'). cbn [fst snd] in E'. destruct (skip_split t) as (w & Ew & W). destruct (proj1 (scan_grammar _) _ _ _ E) as (u & Eu & V).
  destruct (skip_split r) as (w' & Er & W'). destruct (skip_ws r); [|discriminate]. injection E' as <-. rewrite app_nil_r in Er. subst w'. exists w, u, r. rewrite Ew at 1. rewrite Eu. auto.
Qed.
End Grammar.
