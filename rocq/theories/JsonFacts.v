(* Facts about the text of JSON values: it determines the value up to the order of keys. *)
From Coq Require Import Ascii.
From Verif Require Import Base PyDict PyStr PyStrFacts Json JsonSpec.
Open Scope string_scope.
Open Scope list_scope.

(* ---- order of strings ---- *)
Lemma nat_of_ascii_inj a b : nat_of_ascii a = nat_of_ascii b -> a = b.
Proof. intros H. rewrite <- (ascii_nat_embedding a), <- (ascii_nat_embedding b), H. reflexivity. Qed.
Lemma str_le_refl s : str_le s s = true.
Proof. induction s as [|a s IH]; cbn; [reflexivity|]. rewrite Ascii.eqb_refl. exact IH. Qed.
Lemma str_le_total s t : str_le s t = true \/ str_le t s = true.
Proof.
  revert t; induction s as [|a s IH]; intros [|b t]; cbn [str_le]; auto. destruct (Ascii.eqb_spec a b) as [->|N].
  - rewrite Ascii.eqb_refl. apply IH.
  - destruct (Ascii.eqb_spec b a) as [->|_]; [congruence|]. rewrite !Nat.ltb_lt. assert (nat_of_ascii a <> nat_of_ascii b) by (intros E; apply N, nat_of_ascii_inj, E). lia.
Qed.
Lemma str_le_antisym s t : str_le s t = true -> str_le t s = true -> s = t.
Proof.
  revert t; induction s as [|a s IH]; intros [|b t]; cbn [str_le]; try discriminate; auto. destruct (Ascii.eqb_spec a b) as [->|N].
  - rewrite Ascii.eqb_refl. intros H1 H2. f_equal. apply IH; assumption.
  - destruct (Ascii.eqb_spec b a) as [->|_]; [congruence|]. rewrite !Nat.ltb_lt. lia.
Qed.
Lemma str_le_trans s t u : str_le s t = true -> str_le t u = true -> str_le s u = true.
Proof.
  revert t u; induction s as [|a s IH]; intros [|b t] [|c u]; cbn [str_le]; try discriminate; auto.
  destruct (Ascii.eqb_spec a b) as [->|N1]; destruct (Ascii.eqb_spec b c) as [->|N2]; rewrite ?Ascii.eqb_refl; intros H1 H2.
  - eapply IH; eassumption.
  - exact H2.
  - destruct (Ascii.eqb_spec a c) as [->|_]; [congruence|exact H1].
  - destruct (Ascii.eqb_spec a c) as [->|N3]; rewrite !Nat.ltb_lt in *; lia.
Qed.

(* ---- sorting by key ---- *)
Section Sort.
Context {V : Type}.
Implicit Types (l : list (string * V)) (p : string * V).
Fixpoint sortedk l : Prop := match l with [] => True | p :: r => (forall q, In q r -> str_le (fst p) (fst q) = true) /\ sortedk r end.
Lemma insert_perm p l : Permutation (insert_key p l) (p :: l).
Proof. induction l as [|q r IH]; cbn; [reflexivity|]. destruct (str_le _ _); [reflexivity|]. rewrite IH. apply perm_swap. Qed.
Lemma sort_perm l : Permutation (sort_keys l) l.
Proof. induction l as [|p r IH]; cbn; [reflexivity|]. rewrite insert_perm. apply perm_skip, IH. Qed.
Lemma insert_sorted p l : sortedk l -> sortedk (insert_key p l).
Proof.
  induction l as [|q r IH]; cbn; [intros _; split; [intros ? []|exact I]|]. intros [H1 H2]. destruct (str_le (fst p) (fst q)) eqn:E; cbn.
  - split; [|auto]. intros x [<-|Hx]; [exact E|]. eapply str_le_trans; [exact E|]. apply H1; exact Hx.
  - split; [|apply IH, H2]. intros x Hx. apply (Permutation_in _ (insert_perm p r)) in Hx. destruct Hx as [<-|Hx]; [|apply H1, Hx].
    destruct (str_le_total (fst p) (fst q)); congruence.
Qed.
Lemma sort_sorted l : sortedk (sort_keys l).
Proof. induction l as [|p r IH]; cbn; [exact I|]. apply insert_sorted, IH. Qed.
Lemma sorted_unique l l' : NoDup (map fst l) -> sortedk l -> sortedk l' -> Permutation l l' -> l = l'.
Proof.
  revert l'; induction l as [|p r IH]; intros l' ND S1 S2 P; [apply Permutation_nil in P; auto|].
  destruct l' as [|q r']; [apply Permutation_sym, Permutation_nil in P; discriminate|]. cbn in S1, S2. destruct S1 as [A1 B1], S2 as [A2 B2].
  assert (E : p = q).
  { assert (Hq : In q (p :: r)) by (eapply Permutation_in; [apply Permutation_sym, P|left; reflexivity]).
    assert (Hp : In p (q :: r')) by (eapply Permutation_in; [apply P|left; reflexivity]).
    destruct Hq as [E|Hq]; [exact E|]. destruct Hp as [E|Hp]; [auto|].
    assert (K : fst p = fst q) by (apply str_le_antisym; auto). exfalso. inversion ND as [|? ? N _]; subst. apply N. rewrite K. apply in_map, Hq. }
  subst q. f_equal. apply IH; auto; [inversion ND; assumption|]. eapply Permutation_cons_inv; exact P.
Qed.
Lemma sort_unique l l' : NoDup (map fst l) -> Permutation l l' -> sort_keys l = sort_keys l'.
Proof.
  intros ND P. apply sorted_unique; [|apply sort_sorted|apply sort_sorted|rewrite !sort_perm; exact P].
  eapply Permutation_NoDup; [apply Permutation_map, Permutation_sym, sort_perm|exact ND].
Qed.
End Sort.
Lemma insert_map {V W} (f : V -> W) k v l :
  insert_key (k, f v) (map (fun p => (fst p, f (snd p))) l) = map (fun p => (fst p, f (snd p))) (insert_key (k, v) l).
Proof. induction l as [|[k' v'] r IH]; cbn; [reflexivity|]. destruct (str_le k k'); cbn; [reflexivity|]. f_equal. exact IH. Qed.
Lemma sort_map {V W} (f : V -> W) l : sort_keys (map (fun p => (fst p, f (snd p))) l) = map (fun p => (fst p, f (snd p))) (sort_keys l).
Proof. induction l as [|[k v] r IH]; [reflexivity|]. unfold sort_keys in *. cbn [map fold_right fst snd]. rewrite IH. apply insert_map. Qed.

(* ---- quoted strings ---- *)
Definition unhex (a : ascii) : nat := let n := nat_of_ascii a in if Nat.leb n 57 then n - 48 else n - 87.
Definition unescape (s : string) : option (ascii * string) :=
  match s with
  | String a r =>
      if Ascii.eqb a "\"%char then
        match r with
        | String b r' =>
            if Ascii.eqb b "n"%char then Some (ascii_of_nat 10, r') else if Ascii.eqb b "r"%char then Some (ascii_of_nat 13, r')
            else if Ascii.eqb b "t"%char then Some (ascii_of_nat 9, r') else if Ascii.eqb b "f"%char then Some (ascii_of_nat 12, r')
            else if Ascii.eqb b "b"%char then Some (ascii_of_nat 8, r')
            else if Ascii.eqb b "u"%char then match r' with String _ (String _ (String x (String y t))) => Some (ascii_of_nat (16 * unhex x + unhex y), t) | _ => None end
            else Some (b, r')
        | EmptyString => None
        end
      else Some (a, r)
  | EmptyString => None
  end.
Lemma unescape_escape a r : unescape (escape a ++ r) = Some (a, r).
Proof. destruct a as [[] [] [] [] [] [] [] []]; reflexivity. Qed.
Lemma escape_head a : exists b t, escape a = String b t /\ b <> ascii_of_nat 34.
Proof. destruct a as [[] [] [] [] [] [] [] []]; eexists; eexists; (split; [reflexivity|discriminate]). Qed.
Lemma escapes_inj s t r r' : (escapes s ++ quote ++ r = escapes t ++ quote ++ r')%string -> s = t /\ r = r'.
Proof.
  revert t; induction s as [|a s IH]; intros [|b t]; cbn [escapes]; rewrite ?app_assoc_s; cbn [append]; intros E.
  - injection E as E. auto.
  - destruct (escape_head b) as (x & u & Eb & N). rewrite Eb in E. cbn [append quote] in E. injection E as E _. congruence.
  - destruct (escape_head a) as (x & u & Ea & N). rewrite Ea in E. cbn [append quote] in E. injection E as E _. congruence.
  - assert (U := f_equal unescape E). rewrite !unescape_escape in U. injection U as -> U. destruct (IH _ U) as [-> ->]. auto.
Qed.
Lemma quoted_inj s t r r' : (quoted s ++ r = quoted t ++ r')%string -> s = t /\ r = r'.
Proof. unfold quoted. rewrite !app_assoc_s. cbn [append quote]. intros E. injection E as E. apply escapes_inj. exact E. Qed.

(* ---- separators ---- *)
Definition delim (a : ascii) : Prop := In a (list_ascii_of_string ",]}").
Definition after (r : string) : Prop := r = "" \/ exists a t, r = String a t /\ delim a.
Lemma token_inj (u v r r' : string) : (forall a, In a (list_ascii_of_string u) -> ~ delim a) -> (forall a, In a (list_ascii_of_string v) -> ~ delim a) -> after r -> after r' ->
  (u ++ r = v ++ r')%string -> u = v /\ r = r'.
Proof.
  revert v; induction u as [|a u IH]; intros [|b v] Hu Hv A A' E; cbn [append] in E.
  - auto.
  - subst r. destruct A as [A|(x & t & A & D)]; [discriminate|]. injection A as -> ->. exfalso. apply (Hv x); [left; reflexivity|exact D].
  - subst r'. destruct A' as [A'|(x & t & A' & D)]; [discriminate|]. injection A' as -> ->. exfalso. apply (Hu x); [left; reflexivity|exact D].
  - injection E as -> E. destruct (IH v) as [-> ->]; auto; intros x Hx; [apply Hu|apply Hv]; right; exact Hx.
Qed.
Fixpoint tails (l : list string) : string := match l with [] => "" | x :: r => ("," ++ x ++ tails r)%string end.
Lemma join_tails x l : join "," (x :: l) = (x ++ tails l)%string.
Proof.
  unfold join. revert x; induction l as [|y l IH]; intros x; [cbn; rewrite app_nil_s; reflexivity|]. rewrite concat_cons, IH. reflexivity.
Qed.
Lemma tails_after l a t : delim a -> after (tails l ++ String a t).
Proof. intros D. right. destruct l; cbn; eexists; eexists; (split; [reflexivity|]); [exact D|left; reflexivity]. Qed.
(* a list of uniquely readable texts that do not start with a separator, closed by a bracket, is uniquely readable *)
Lemma join_inj {X} (f : X -> string) (c : ascii) (l l' : list X) r r' : delim c -> c <> ","%char ->
  (forall x y s s', In x l -> In y l' -> after s -> after s' -> (f x ++ s = f y ++ s')%string -> x = y /\ s = s') ->
  (forall x, In x l -> exists a t, f x = String a t /\ ~ delim a) -> (forall x, In x l' -> exists a t, f x = String a t /\ ~ delim a) ->
  (join "," (map f l) ++ String c r = join "," (map f l') ++ String c r')%string -> l = l' /\ r = r'.
Proof.
  intros D NC U Hd Hd'.
  assert (T : forall l l' r r', (forall x y s s', In x l -> In y l' -> after s -> after s' -> (f x ++ s = f y ++ s')%string -> x = y /\ s = s') ->
    (tails (map f l) ++ String c r = tails (map f l') ++ String c r')%string -> l = l' /\ r = r').
  { clear l l' r r' U Hd Hd'. induction l as [|x l IH]; intros [|y l'] r r' U E; cbn [map tails] in E; cbn [append] in E.
    - injection E as ->. auto.
    - injection E as E _. congruence.
    - injection E as E _. congruence.
    - injection E as E. rewrite !app_assoc_s in E. apply U in E; [|left; reflexivity|left; reflexivity|apply tails_after; exact D|apply tails_after; exact D].
      destruct E as [-> E]. destruct (IH l' r r') as [-> ->]; auto. intros; eapply U; eauto; right; assumption. }
  intros E. destruct l as [|x l], l' as [|y l']; cbn [map] in E; rewrite ?join_tails in E.
  - cbn in E. injection E as ->. auto.
  - cbn [join String.concat append] in E. destruct (Hd' y (or_introl eq_refl)) as (a & t & Ey & N). rewrite Ey in E. cbn in E. injection E as <- _. contradiction.
  - cbn [join String.concat append] in E. destruct (Hd x (or_introl eq_refl)) as (a & t & Ey & N). rewrite Ey in E. cbn in E. injection E as -> _. contradiction.
  - rewrite !app_assoc_s in E. apply U in E; [|left; reflexivity|left; reflexivity|apply tails_after; exact D|apply tails_after; exact D]. destruct E as [-> E].
    destruct (T l l' r r') as [-> ->]; auto. intros; eapply U; eauto; right; assumption.
Qed.

Section Text.
Context {F : Type}.
Variable ft : F -> string.
Variable ok : F -> Prop.
Hypothesis FT : float_texts ok ft.
Section Ind.
Variable P : json F -> Prop.
Hypothesis Hn : P JNull.
Hypothesis Hb : forall b, P (JBool b).
Hypothesis Hi : forall z, P (JInt z).
Hypothesis Hf : forall f, P (JFloat f).
Hypothesis Hs : forall s, P (JStr s).
Hypothesis Hl : forall l, (forall x, In x l -> P x) -> P (JList l).
Hypothesis Hd : forall l, (forall k x, In (k, x) l -> P x) -> P (JDict l).
Fixpoint json_ind' (j : json F) : P j.
Proof.
  destruct j as [|b|z|f|s|l|l]; [apply Hn|apply Hb|apply Hi|apply Hf|apply Hs| |].
  - apply Hl. induction l as [|x l IH]; intros y H; [destruct H|]. destruct H as [<-|H]; [apply json_ind'|apply IH, H].
  - apply Hd. induction l as [|[k x] l IH]; intros k' y H; [destruct H|]. destruct H as [H|H]; [injection H as _ <-; apply json_ind'|exact (IH _ _ H)].
Defined.
End Ind.

(* the text in the order given, and the value with sorted keys *)
Fixpoint plain (j : json F) {struct j} : string :=
  match j with
  | JNull => "null"
  | JBool true => "true"
  | JBool false => "false"
  | JInt z => str_Z z
  | JFloat f => ft f
  | JStr s => quoted s
  | JList l => ("[" ++ join "," (map plain l) ++ "]")%string
  | JDict l => ("{" ++ join "," (map (fun p => match p with (k, v) => quoted k ++ ":" ++ plain v end)%string l) ++ "}")%string
  end.
Fixpoint canon (j : json F) {struct j} : json F :=
  match j with
  | JList l => JList (map canon l)
  | JDict l => JDict (sort_keys (map (fun p => match p with (k, v) => (k, canon v) end) l))
  | _ => j
  end.
Lemma text_canon j : text ft j = plain (canon j).
Proof.
  induction j as [|b|z|f|s|l IH|l IH] using json_ind'; try reflexivity.
  - cbn [text canon plain]. rewrite map_map. f_equal. f_equal. f_equal. apply map_ext_in. exact IH.
  - cbn [text canon plain]. f_equal. f_equal. f_equal.
    replace (map (fun p : string * json F => match p with (k, v) => (k, text ft v) end) l) with (map (fun p => (fst p, plain (snd p))) (map (fun p : string * json F => match p with (k, v) => (k, canon v) end) l)).
    + rewrite sort_map, map_map. apply map_ext. intros [k v]. reflexivity.
    + rewrite map_map. apply map_ext_in. intros [k v] H. cbn. rewrite (IH k v H). reflexivity.
Qed.

Lemma number_head z : exists a r, str_Z z = String a r /\ starts_number a.
Proof.
  assert (G : forall u, exists a r, DecimalString.NilZero.string_of_uint u = String a r /\ starts_number a).
  { intros u. destruct (string_of_uint_cons u) as (a & r & E & D). exists a, r. split; [exact E|]. destruct a as [[] [] [] [] [] [] [] []]; try discriminate D; cbn; auto 14. }
  destruct z as [|p|p]; cbn [str_Z].
  - eexists; eexists; split; [reflexivity|]. cbn; auto.
  - apply G.
  - eexists; eexists; split; [reflexivity|]. cbn; auto 14.
Qed.
Lemma number_clean z a : In a (list_ascii_of_string (str_Z z)) -> ~ delim a.
Proof.
  intros H. assert (N := str_Z_chars z a H). intros D. repeat (destruct D as [<-|D]; [discriminate N|]). destruct D.
Qed.
(* the kind of a value, and the first characters of its text *)
Inductive kind := KNull | KTrue | KFalse | KNum | KStr | KList | KDict.
Definition kind_of (j : json F) : kind := match j with JNull => KNull | JBool true => KTrue | JBool false => KFalse | JInt _ | JFloat _ => KNum | JStr _ => KStr | JList _ => KList | JDict _ => KDict end.
Definition starts (k : kind) (a : ascii) : Prop :=
  match k with KNull => a = "n"%char | KTrue => a = "t"%char | KFalse => a = "f"%char | KNum => starts_number a | KStr => a = ascii_of_nat 34 | KList => a = "["%char | KDict => a = "{"%char end.
Lemma starts_inj k k' a : starts k a -> starts k' a -> k = k'.
Proof.
  destruct k, k'; cbn; intros H1 H2; try reflexivity; exfalso; subst; try discriminate;
    try (repeat (destruct H1 as [H1|H1]; [discriminate H1|]); exact H1); try (repeat (destruct H2 as [H2|H2]; [discriminate H2|]); exact H2).
Qed.
Lemma plain_head j : proper ok j -> exists a r, plain j = String a r /\ starts (kind_of j) a.
Proof.
  intros P. destruct j as [|[]|z|f|s|l|l]; cbn; try (eexists; eexists; split; reflexivity).
  - apply number_head.
  - inversion P; subst. apply (proj1 (proj2 FT) f). assumption.
Qed.
Lemma plain_nodelim j : proper ok j -> exists a r, plain j = String a r /\ ~ delim a.
Proof.
  intros P. destruct (plain_head j P) as (a & r & E & S). exists a, r. split; [exact E|]. intros D.
  destruct (kind_of j); cbn in S; repeat (destruct D as [<-|D]; [try discriminate S; repeat (destruct S as [S|S]; [discriminate S|]); exact S|]); destruct D.
Qed.
Lemma kind_eq j j' r r' : proper ok j -> proper ok j' -> (plain j ++ r = plain j' ++ r')%string -> kind_of j = kind_of j'.
Proof.
  intros P P' E. destruct (plain_head j P) as (a & t & E1 & S1), (plain_head j' P') as (a' & t' & E2 & S2). rewrite E1, E2 in E. injection E as -> _.
  eapply starts_inj; eassumption.
Qed.

Lemma proper_dict l : proper ok (JDict l) -> NoDup (map fst l) /\ forall k x, In (k, x) l -> proper ok x.
Proof. intros H. inversion H as [| | | | | |l' X Y]; subst. split; [exact X|]. rewrite Forall_forall in Y. intros k x Hx. exact (Y _ Hx). Qed.
Lemma proper_list l : proper ok (JList l) -> forall x, In x l -> proper ok x.
Proof. intros H. inversion H as [| | | | |l' X|]; subst. rewrite Forall_forall in X. exact X. Qed.
Theorem plain_inj : forall j j' r r', proper ok j -> proper ok j' -> after r -> after r' -> (plain j ++ r = plain j' ++ r')%string -> j = j' /\ r = r'.
Proof.
  destruct FT as (F1 & F2 & F3 & F4).
  induction j as [|b|z|f|s|l IH|l IH] using json_ind'; intros j' r r' P P' A A' E; assert (K := kind_eq _ _ _ _ P P' E).
  - destruct j' as [|[]|?|?|?|?|?]; try discriminate K. cbn in E. injection E as E. auto.
  - destruct b, j' as [|[]|?|?|?|?|?]; try discriminate K; cbn in E; injection E as E; auto.
  - destruct j' as [|[]|z'|f'|?|?|?]; try discriminate K; cbn [plain] in E.
    + apply token_inj in E; try (apply number_clean); auto. destruct E as [E ->]. apply str_Z_inj in E. subst; auto.
    + exfalso. assert (O : ok f') by (inversion P'; assumption). apply token_inj in E; try (apply number_clean); try (intros ?; apply F3; exact O); auto. destruct E as [E _]. apply (F4 f' z O). auto.
  - assert (O : ok f) by (inversion P; assumption). destruct j' as [|[]|z'|f'|?|?|?]; try discriminate K; cbn [plain] in E.
    + exfalso. apply token_inj in E; try (apply number_clean); try (intros ?; apply F3; exact O); auto. destruct E as [E _]. apply (F4 f z' O). auto.
    + assert (O' : ok f') by (inversion P'; assumption). apply token_inj in E; try (intros ?; apply F3; assumption); auto. destruct E as [E ->]. apply F1 in E; auto. subst; auto.
  - destruct j' as [|[]|?|?|s'|?|?]; try discriminate K. cbn [plain] in E. apply quoted_inj in E. destruct E as [-> ->]; auto.
  - destruct j' as [|[]|?|?|?|l'|?]; try discriminate K. cbn [plain] in E. rewrite !app_assoc_s in E. cbn [append] in E. injection E as E.
    assert (PL := proper_list l P). assert (PL' := proper_list l' P').
    apply join_inj in E; [destruct E as [-> ->]; auto|right; left; reflexivity|discriminate| | |].
    + intros x y s s' Hx Hy As As' Ex. apply (IH x Hx y); auto.
    + intros x Hx. apply plain_nodelim; auto.
    + intros x Hx. apply plain_nodelim; auto.
  - destruct j' as [|[]|?|?|?|?|l']; try discriminate K. cbn [plain] in E. rewrite !app_assoc_s in E. cbn [append] in E. injection E as E.
    destruct (proper_dict l P) as [_ PL]. destruct (proper_dict l' P') as [_ PL'].
    assert (NQ : forall (p : string * json F), exists a t, (let (k, v) := p in (quoted k ++ ":" ++ plain v)%string) = String a t /\ ~ delim a).
    { intros [k x]. eexists; eexists; split; [reflexivity|]. intros D. repeat (destruct D as [D|D]; [discriminate D|]). destruct D. }
    apply join_inj in E; [destruct E as [-> ->]; auto|right; right; left; reflexivity|discriminate| |intros; apply NQ|intros; apply NQ].
    intros [k x] [k' y] q q' Hx Hy Aq Aq' Ex. assert (Ex' : ((quoted k ++ ":" ++ plain x) ++ q = (quoted k' ++ ":" ++ plain y) ++ q')%string) by exact Ex. clear Ex; rename Ex' into Ex. rewrite !app_assoc_s in Ex. apply quoted_inj in Ex. destruct Ex as [-> Ex]. cbn [append] in Ex. injection Ex as Ex.
    destruct (IH _ _ Hx y q q' (PL _ _ Hx) (PL' _ _ Hy) Aq Aq' Ex) as [-> ->]. auto.
Qed.
Lemma proper_canon j : proper ok j -> proper ok (canon j).
Proof.
  induction j as [|b|z|f|s|l IH|l IH] using json_ind'; intros P; cbn [canon]; try exact P.
  - constructor. apply Forall_forall. intros x Hx. apply in_map_iff in Hx. destruct Hx as (y & <- & Hy). apply IH; [exact Hy|]. exact (proper_list l P y Hy).
  - destruct (proper_dict l P) as [ND PL]. constructor.
    + eapply Permutation_NoDup; [apply Permutation_map, Permutation_sym, sort_perm|]. rewrite map_map. rewrite (map_ext _ fst) by (intros [? ?]; reflexivity). exact ND.
    + apply Forall_forall. intros p Hp. apply (Permutation_in _ (sort_perm _)) in Hp. apply in_map_iff in Hp. destruct Hp as ([k x] & <- & Hx). cbn. apply (IH k x Hx). exact (PL k x Hx).
Qed.

Lemma same_canon j : same_json j (canon j).
Proof.
  induction j as [|b|z|f|s|l IH|l IH] using json_ind'; cbn [canon]; try constructor.
  - induction l as [|x l IHl]; cbn; constructor; [apply IH; left; reflexivity|apply IHl; intros; apply IH; right; assumption].
  - apply (sj_dict l _ (map (fun p : string * json F => match p with (k, v) => (k, canon v) end) l)); [|apply Permutation_sym, sort_perm].
    induction l as [|[k x] l IHl]; cbn; constructor; [split; [reflexivity|apply (IH k); left; reflexivity]|apply IHl; intros; eapply IH; right; eassumption].
Qed.
Lemma Forall2_keys {X} (R : json F -> X -> Prop) (l : list (string * json F)) m : Forall2 (fun p q => fst p = fst q /\ R (snd p) (snd q)) l m -> map fst l = map fst m.
Proof. induction 1 as [|? ? ? ? [E _] _ IH]; cbn; [reflexivity|]. rewrite E, IH. reflexivity. Qed.

Lemma same_text : forall j j', proper ok j -> same_json j j' -> text ft j = text ft j'.
Proof.
  induction j as [|b|z|f|s|l IH|l IH] using json_ind'; intros j' Pr S; inversion S as [| | | | |? l' L|? l' m L Pm]; subst; try reflexivity.
  - cbn [text]. f_equal. f_equal. f_equal. assert (PL := proper_list l Pr). clear Pr S. induction L as [|x y l l' E L IHL]; [reflexivity|]. cbn. rewrite (IH x) with (j' := y); auto; [|left; reflexivity|apply PL; left; reflexivity].
    f_equal. apply IHL; intros; [apply IH|apply PL]; try right; assumption.
  - cbn [text]. f_equal. f_equal. f_equal. f_equal. destruct (proper_dict l Pr) as [ND PL].
    assert (EQ : map (fun p : string * json F => match p with (k, v) => (k, text ft v) end) l = map (fun p : string * json F => match p with (k, v) => (k, text ft v) end) m).
    { clear Pr S Pm ND. induction L as [|[k x] [k' y] l m [E1 E2] L IHL]; [reflexivity|]. cbn in *. subst k'. rewrite (IH k x) with (j' := y); auto; [|eapply PL; left; reflexivity].
      f_equal. apply IHL; intros; [eapply IH|eapply PL]; try right; eassumption. }
    rewrite EQ. apply sort_unique.
    + rewrite map_map. rewrite (map_ext _ fst) by (intros [? ?]; reflexivity). rewrite <- (Forall2_keys _ _ _ L). exact ND.
    + apply Permutation_map, Pm.
Qed.
Lemma text_inj j j' : proper ok j -> proper ok j' -> text ft j = text ft j' -> canon j = canon j'.
Proof.
  rewrite !text_canon. intros P P' E. apply (plain_inj (canon j) (canon j') "" ""); [apply proper_canon, P|apply proper_canon, P'|left; reflexivity|left; reflexivity|]. rewrite !app_nil_s. exact E.
Qed.
(* values with the same sorted form are the same *)
Lemma Forall2_perm_l {X Y} (R : X -> Y -> Prop) l m l' : Forall2 R l m -> Permutation l l' -> exists m', Forall2 R l' m' /\ Permutation m m'.
Proof.
  intros L P. revert m L; induction P as [|x l l' P IH|x y l|l l' l'' P1 IH1 P2 IH2]; intros m L.
  - exists m. auto.
  - inversion L as [|? y ? m1 H1 H2]; subst. destruct (IH _ H2) as (m' & F' & P'). exists (y :: m'). auto.
  - inversion L as [|? a ? m1 H1 H2]; subst. inversion H2 as [|? b ? m2 H3 H4]; subst. exists (b :: a :: m2). split; [auto|apply perm_swap].
  - destruct (IH1 _ L) as (m1 & F1 & Q1). destruct (IH2 _ F1) as (m2 & F2 & Q2). exists m2. split; [exact F2|]. etransitivity; eassumption.
Qed.
Lemma canon_same : forall j j', canon j = canon j' -> same_json j j'.
Proof.
  induction j as [|b|z|f|s|l IH|l IH] using json_ind'; intros [|b'|z'|f'|s'|l'|l'] E; cbn [canon] in E; try discriminate E; try (injection E as ->; constructor); try constructor.
  - injection E as E. revert l' E; induction l as [|x l IHl]; intros [|y l'] E; cbn in E; try discriminate; constructor; injection E as E1 E2; [apply IH; [left; reflexivity|exact E1]|].
    apply IHl; [intros; apply IH; [right; assumption|assumption]|exact E2].
  - injection E as E.
    set (c := fun p : string * json F => match p with (k, v) => (k, canon v) end) in *.
    assert (P : Permutation (map c l) (map c l')) by (rewrite <- (sort_perm (map c l)), <- (sort_perm (map c l')), E; reflexivity).
    destruct (Permutation_map_inv _ _ P) as (m & Em & Pm).
    (* m is a rearrangement of l' with the same sorted values as l, one by one *)
    apply (sj_dict l l' m); [|apply Permutation_sym, Pm]. clear P E Pm l'. revert m Em.
    induction l as [|[k x] l IHl]; intros [|[k' y] m] Em; cbn in Em; try discriminate; constructor.
    + injection Em as -> E _. split; [reflexivity|]. apply (IH k'); [left; reflexivity|exact E].
    + injection Em as _ _ Em. apply IHl; [intros; eapply IH; [right; eassumption|assumption]|exact Em].
Qed.
Theorem text_exact j j' : proper ok j -> proper ok j' -> (text ft j = text ft j' <-> same_json j j').
Proof. intros P P'. split; [intros E; apply canon_same, (text_inj j j' P P'), E|apply same_text, P]. Qed.
End Text.
