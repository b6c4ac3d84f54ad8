(* Facts about the diff command (Diff.v). *)
From Verif Require Import Base PyDict PyDictFacts JsonText ResultText Diff DiffSpec.
Open Scope list_scope.

(* ---- strings ---- *)
Lemma ustr_ltb_asym : forall a b, ustr_ltb a b = true -> ustr_ltb b a = false.
Proof.
  induction a as [|x r IH]; intros [|y t]; cbn; try congruence. destruct (Z.ltb_spec x y), (Z.ltb_spec y x), (Z.eqb_spec x y), (Z.eqb_spec y x); cbn; intros P; try congruence; try lia. apply IH, P.
Qed.
Lemma ustr_ltb_total : forall a b, ustr_ltb a b = false -> ustr_ltb b a = false -> a = b.
Proof.
  induction a as [|x r IH]; intros [|y t]; cbn; try congruence. destruct (Z.ltb_spec x y), (Z.ltb_spec y x), (Z.eqb_spec x y), (Z.eqb_spec y x); cbn; intros P Q; try congruence; try lia. f_equal; [assumption|apply IH; assumption].
Qed.
Lemma sorted2_comm a b : sorted2 a b = sorted2 b a.
Proof.
  unfold sorted2. destruct (ustr_ltb b a) eqn:E.
  - rewrite (ustr_ltb_asym _ _ E). reflexivity.
  - destruct (ustr_ltb a b) eqn:F; [reflexivity|]. rewrite (ustr_ltb_total _ _ E F). reflexivity.
Qed.
Lemma sorted2_cases a b : sorted2 a b = (a, b) \/ sorted2 a b = (b, a).
Proof. unfold sorted2. destruct (ustr_ltb b a); auto. Qed.
Lemma sorted2_iff a b c d : sorted2 a b = sorted2 c d <-> (a = c /\ b = d) \/ (a = d /\ b = c).
Proof.
  split.
  - intros H. destruct (sorted2_cases a b) as [A|A], (sorted2_cases c d) as [B|B]; rewrite A, B in H; injection H as -> ->; auto.
  - intros [[-> ->]|[-> ->]]; [reflexivity|apply sorted2_comm].
Qed.

Section Facts.
Context {V : Type}.
Notation edge := (redge V).
Notation columns := (dict string edge).
Notation table := (dict ustr (dict ustr columns)).
Definition key (e : edge) : ustr * ustr := sorted2 (rn_name (re_u e)) (rn_name (re_v e)).
Lemma between_key e a b : between e a b <-> key e = sorted2 a b.
Proof. unfold between, key. rewrite sorted2_iff. tauto. Qed.
Lemma node_eqb_iff a b : node_eqb a b = true <-> a = b.
Proof.
  unfold node_eqb. rewrite andb_true_iff. destruct a as [n i], b as [m j]; cbn. split.
  - intros [A B]. destruct (ustr_eqb_spec n m); [|discriminate]. destruct (ustr_eqb_spec i j); [|discriminate]. congruence.
  - intros H. injection H as -> ->. destruct (ustr_eqb_spec m m); [|congruence]. destruct (ustr_eqb_spec j j); [auto|congruence].
Qed.
Lemma edge_eqb_refl (e : edge) : edge_eqb e e = true.
Proof.
  unfold edge_eqb. destruct (ustr_eqb_spec (ry_name (re_type e)) (ry_name (re_type e))); [|congruence]. cbn.
  pose proof (proj2 (node_eqb_iff (re_u e) (re_u e)) eq_refl) as A. pose proof (proj2 (node_eqb_iff (re_v e) (re_v e)) eq_refl) as B.
  rewrite A, B. destruct (ry_directed (re_type e)); reflexivity.
Qed.

(* ---- the table of the first edges ---- *)
Definition cell (t : table) (k : ustr * ustr) (c : string) : option edge := dget (getd (getd t (fst k)) (snd k)) c.
Definition fits (k : ustr * ustr) (c : string) (x : string * edge) : bool := eqb (fst x) c && eqb (key (snd x)) k.
Definition first (L : list (string * edge)) (k : ustr * ustr) (c : string) : option edge := option_map snd (find (fits k c) L).
Lemma fits_iff k c x : fits k c x = true <-> fst x = c /\ key (snd x) = k.
Proof. unfold fits. rewrite andb_true_iff. destruct (eqb_spec (fst x) c), (eqb_spec (key (snd x)) k); intuition congruence. Qed.
Lemma find_app {A} (p : A -> bool) l m : find p (l ++ m) = match find p l with Some x => Some x | None => find p m end.
Proof. induction l as [|x r IH]; cbn; [reflexivity|]. destruct (p x); auto. Qed.
Lemma first_snoc L x k c : first (L ++ [x]) k c = match first L k c with Some f => Some f | None => if fits k c x then Some (snd x) else None end.
Proof. unfold first. rewrite find_app. destruct (find (fits k c) L); [reflexivity|]. cbn. destruct (fits k c x); reflexivity. Qed.
Lemma first_in L k c e : first L k c = Some e -> In (c, e) L /\ key e = k.
Proof.
  unfold first. destruct (find (fits k c) L) as [[c' f]|] eqn:E; [|discriminate]. intros H; injection H as <-. apply find_some in E. destruct E as [I F]. apply fits_iff in F. cbn in *. destruct F as [-> <-]. auto.
Qed.
Lemma first_ex L c e : In (c, e) L -> exists f, first L (key e) c = Some f.
Proof.
  intros I. unfold first. destruct (find (fits (key e) c) L) as [x|] eqn:E; [cbn; eauto|]. exfalso. pose proof (find_none _ _ E _ I) as F. assert (fits (key e) c (c, e) = true) by (apply fits_iff; auto). congruence.
Qed.

Definition wf (t : table) : Prop :=
  NoDup (dkeys t) /\ forall u s, dget t u = Some s -> NoDup (dkeys s) /\ forall v r, dget s v = Some r -> NoDup (dkeys r) /\ r <> [].
Definition good (L : list (string * edge)) (st : table * list (string * (ustr * ustr))) : Prop :=
  wf (fst st) /\ (forall k c, cell (fst st) k c = first L k c) /\
  (snd st = [] <-> forall c e f, In (c, e) L -> first L (key e) c = Some f -> edge_eqb f e = true).
Lemma getd_nodup (t : table) u : wf t -> NoDup (dkeys (getd t u)) /\ forall v, NoDup (dkeys (getd (getd t u) v)).
Proof.
  intros [_ W]. unfold getd at 1 3. destruct (dget t u) as [s|] eqn:E.
  - destruct (W u s E) as [A B]. split; [exact A|]. intros v. unfold getd. destruct (dget s v) as [r|] eqn:F; [apply (B v r F)|constructor].
  - split; [constructor|]. intros v. constructor.
Qed.
Lemma getd_dset {K A} `{EqB K} (d : dict K (list A)) k x k' : getd (dset d k x) k' = if eqb k' k then x else getd d k'.
Proof. unfold getd. rewrite dget_dset. destruct (eqb k' k); reflexivity. Qed.
Lemma dset_nonempty {K A} `{EqB K} (d : dict K A) k x : dset d k x <> [].
Proof. destruct d as [|[k' y] r]; cbn; [discriminate|]. destruct (eqb k k'); discriminate. Qed.

Lemma record_good L st x : good L st -> good (L ++ [x]) (record_edge st x).
Proof.
  destruct st as [t ms], x as [c e]. intros (W & C & M). cbn [fst snd] in *.
  assert (CE := C (key e) c). unfold cell in CE.
  unfold record_edge. fold (key e). destruct (key e) as [u v] eqn:KE. cbn [fst snd] in CE.
  assert (STAY : forall c' e' f, In (c', e') L -> first (L ++ [(c, e)]) (key e') c' = Some f <-> first L (key e') c' = Some f).
  { intros c' e' f I. rewrite first_snoc. destruct (first_ex _ _ _ I) as [g G]. rewrite G. tauto. }
  destruct (dget (getd (getd t u) v) c) as [f|] eqn:D.
  - split; [exact W|]. cbn [fst snd]. split.
    + intros k c'. rewrite C, first_snoc. destruct (first L k c') eqn:F; [reflexivity|]. destruct (fits k c' (c, e)) eqn:Q; [|reflexivity].
      apply fits_iff in Q. cbn in Q. destruct Q as [-> <-]. rewrite KE in F. congruence.
    + assert (FX : first (L ++ [(c, e)]) (u, v) c = Some f) by (rewrite first_snoc, <- CE; reflexivity).
      destruct (edge_eqb f e) eqn:Q.
      * rewrite M. split; intros H c' e' g I G.
        -- apply in_app_or in I. destruct I as [I|[I|[]]]; [apply (H c' e' g I), STAY; assumption|]. injection I as <- <-. rewrite KE, FX in G. injection G as <-. exact Q.
        -- apply (H c' e' g); [apply in_or_app; auto|apply STAY; assumption].
      * split; [destruct ms; discriminate|]. intros H. exfalso. specialize (H c e f). rewrite KE in H. rewrite H in Q; [discriminate|apply in_or_app; right; left; reflexivity|exact FX].
  - destruct (getd_nodup t u W) as [N1 N2]. split; [|split]; cbn [fst snd].
    + destruct W as [W1 W2]. split; [apply NoDup_dset, W1|]. intros u' s S. rewrite dget_dset in S. destruct (eqb_spec u' u) as [->|NE].
      * injection S as <-. split; [apply NoDup_dset, N1|]. intros v' r R. rewrite dget_dset in R. destruct (eqb_spec v' v) as [->|NE].
        -- injection R as <-. split; [apply NoDup_dset, N2|apply dset_nonempty].
        -- unfold getd in R. destruct (dget t u) as [s|] eqn:E; [|discriminate]. apply (proj2 (W2 u s E) v' r R).
      * apply (W2 u' s S).
    + intros [u' v'] c'. rewrite first_snoc, <- C. unfold cell. cbn [fst snd]. rewrite getd_dset. destruct (eqb_spec u' u) as [->|NE].
      * rewrite getd_dset. destruct (eqb_spec v' v) as [->|NE].
        -- rewrite dget_dset. destruct (eqb_spec c' c) as [->|NE].
           ++ rewrite D. assert (fits (u, v) c (c, e) = true) as -> by (apply fits_iff; auto). reflexivity.
           ++ destruct (dget (getd (getd t u) v) c') eqn:Q; [reflexivity|]. destruct (fits (u, v) c' (c, e)) eqn:F; [|reflexivity]. apply fits_iff in F. cbn in F. destruct F; congruence.
        -- destruct (dget (getd (getd t u) v') c') eqn:Q; [reflexivity|]. destruct (fits (u, v') c' (c, e)) eqn:F; [|reflexivity]. apply fits_iff in F. cbn in F. destruct F; congruence.
      * destruct (dget (getd (getd t u') v') c') eqn:Q; [reflexivity|]. destruct (fits (u', v') c' (c, e)) eqn:F; [|reflexivity]. apply fits_iff in F. cbn in F. destruct F; congruence.
    + rewrite M. assert (FX : first (L ++ [(c, e)]) (u, v) c = Some e).
      { rewrite first_snoc, <- CE. assert (fits (u, v) c (c, e) = true) as -> by (apply fits_iff; auto). reflexivity. }
      split; intros H c' e' g I G.
      * apply in_app_or in I. destruct I as [I|[I|[]]]; [apply (H c' e' g I), STAY; assumption|]. injection I as <- <-. rewrite KE, FX in G. injection G as <-. apply edge_eqb_refl.
      * apply (H c' e' g); [apply in_or_app; auto|apply STAY; assumption].
Qed.
Lemma fold_good L : good L (fold_left record_edge L ([], [])).
Proof.
  induction L as [|x L IH] using rev_ind.
  - split; [split; [constructor|discriminate]|]. split; [reflexivity|]. split; [intros _ c e f []|reflexivity].
  - rewrite fold_left_app. apply record_good, IH.
Qed.
Definition entries (results : list (string * list edge)) : list (string * edge) := flat_map (fun x => map (fun e => (fst x, e)) (snd x)) results.
Lemma entries_iff results c e : In (c, e) (entries results) <-> has results c e.
Proof.
  unfold entries, has. rewrite in_flat_map. split.
  - intros ([c' es] & I & J). apply in_map_iff in J. destruct J as (f & E & J). cbn in E, J. injection E as -> ->. eauto.
  - intros (es & I & J). exists (c, es). split; [exact I|]. apply in_map_iff. eauto.
Qed.

(* ---- rows ---- *)
Definition krows (t : table) : list ((ustr * ustr) * columns) := flat_map (fun s => map (fun p => ((fst s, fst p), snd p)) (snd s)) t.
Lemma rows_krows t : rows t = map snd (krows t).
Proof. unfold rows, krows. induction t as [|s t IH]; [reflexivity|]. cbn [flat_map]. rewrite map_app, map_map, IH. reflexivity. Qed.
Lemma krows_iff t k r : wf t -> In (k, r) (krows t) <-> exists s, dget t (fst k) = Some s /\ dget s (snd k) = Some r.
Proof.
  intros [N W]. unfold krows. rewrite in_flat_map. split.
  - intros ([u s] & I & J). apply in_map_iff in J. destruct J as ([v r'] & E & J). cbn in E, J. injection E as <- <-. exists s. cbn [fst snd]. pose proof (NoDup_dget _ _ _ N I) as D. split; [exact D|]. apply NoDup_dget; [apply (W _ _ D)|exact J].
  - intros (s & A & B). exists (fst k, s). split; [apply dget_In, A|]. apply in_map_iff. exists (snd k, r). destruct k. split; [reflexivity|apply dget_In, B].
Qed.
Lemma NoDup_app_intro {A} (l m : list A) : NoDup l -> NoDup m -> (forall x, In x l -> ~ In x m) -> NoDup (l ++ m).
Proof.
  induction l as [|x r IH]; cbn; [auto|]. intros P Q R. inversion P as [|? ? X Y]; subst. constructor; [|apply IH; auto]. intros I. apply in_app_or in I. destruct I as [I|I]; [contradiction|]. apply (R x); auto.
Qed.
Lemma krows_nodup t : wf t -> NoDup (map fst (krows t)).
Proof.
  intros [N W]. assert (W' : forall u s, In (u, s) t -> NoDup (dkeys s)) by (intros u s I; apply (W u s), NoDup_dget; assumption). clear W.
  induction t as [|[u s] t IH]; [constructor|]. unfold krows. cbn [flat_map]. fold (krows t). rewrite map_app, map_map. cbn [fst snd].
  unfold dkeys in N. cbn in N. inversion N as [|? ? X Y]; subst. apply NoDup_app_intro.
  - specialize (W' u s (or_introl eq_refl)). unfold dkeys in W'. clear - W'. induction s as [|[v r] s IH]; [constructor|]. cbn in *. inversion W' as [|? ? X Y]; subst. constructor; [|apply IH; exact Y]. intros I. apply in_map_iff in I. destruct I as ([v' r'] & E & I). cbn in E. injection E as ->. apply X, in_map_iff. exists (v, r'). auto.
  - apply IH; [exact Y|]. intros u' s' I. apply (W' u' s'). right. exact I.
  - intros k I J. apply in_map_iff in I. destruct I as (p & <- & I). apply in_map_iff in J. destruct J as ([k' r'] & E & J). cbn in E. subst k'. apply in_flat_map in J. destruct J as ([u' s'] & J1 & J2). apply in_map_iff in J2. destruct J2 as (q & E & J2). cbn in E. injection E as -> _ _. apply X, in_map_iff. exists (u, s'). auto.
Qed.

(* ---- lines ---- *)
Lemma none_get (cols : list string) c : dget (fold_left (fun d c => dset d c None) cols []) c = if existsb (eqb c) cols then Some (@None edge) else None.
Proof.
  induction cols as [|x cols IH] using rev_ind; [reflexivity|]. rewrite fold_left_app, existsb_app. cbn [fold_left existsb]. rewrite dget_dset, IH, orb_false_r. destruct (eqb c x), (existsb (eqb c) cols); reflexivity.
Qed.
Lemma row_get cols (r : columns) c : NoDup (dkeys r) -> dget (row_of cols r) c = match dget r c with Some e => Some (Some e) | None => if existsb (eqb c) cols then Some None else None end.
Proof.
  intros N. transitivity (match dget r c with Some e => Some (Some e) | None => dget (fold_left (fun d c => dset d c (@None edge)) cols []) c end); [|destruct (dget r c); [reflexivity|apply none_get]].
  unfold row_of. revert N. generalize (fold_left (fun d c => dset d c (@None edge)) cols []). induction r as [|[c' e] r IH]; intros d N; [reflexivity|]. cbn [fold_left fst snd].
  unfold dkeys in N. cbn in N. inversion N as [|? ? X Y]; subst. rewrite IH by exact Y. cbn [dget]. destruct (eqb_spec c c') as [->|NE].
  - assert (dget r c' = None) as -> by (apply dget_None; exact X). rewrite dget_dset_same. reflexivity.
  - rewrite dget_dset_other by exact NE. reflexivity.
Qed.
Lemma fold_nodup {A B} (f : A -> string) (g : A -> B) l d : NoDup (dkeys d) -> NoDup (dkeys (fold_left (fun d x => dset d (f x) (g x)) l d)).
Proof. revert d. induction l as [|x l IH]; intros d N; [exact N|]. cbn. apply IH, NoDup_dset, N. Qed.
Lemma row_nodup cols (r : columns) : NoDup (dkeys (row_of cols r)).
Proof.
  unfold row_of. apply (fold_nodup (fun x : string * edge => fst x) (fun x => Some (snd x))). apply (fold_nodup (fun c : string => c) (fun _ => @None edge)). constructor.
Qed.
Lemma row_values cols (r : columns) o : NoDup (dkeys r) -> incl (dkeys r) cols -> In o (map snd (row_of cols r)) <-> exists c, In c cols /\ o = dget r c.
Proof.
  intros N I. rewrite in_map_iff. split.
  - intros ([c o'] & <- & J). apply NoDup_dget in J; [|apply row_nodup]. rewrite row_get in J by exact N. cbn [snd]. destruct (dget r c) as [e|] eqn:D.
    + injection J as <-. exists c. split; [apply I; change (In c (map fst r)); apply in_map_iff; exists (c, e); split; [reflexivity|apply dget_In, D]|auto].
    + destruct (existsb (eqb c) cols) eqn:E; [|discriminate]. injection J as <-. apply existsb_exists in E. destruct E as (x & E & Q). exists c. split; [|auto]. destruct (eqb_spec c x) as [->|]; [exact E|discriminate].
  - intros (c & J & ->). exists (c, dget r c). split; [reflexivity|]. apply dget_In. rewrite row_get by exact N. destruct (dget r c); [reflexivity|]. assert (existsb (eqb c) cols = true) as ->; [|reflexivity]. apply existsb_exists. exists c. split; [exact J|]. destruct (eqb_spec c c); congruence.
Qed.
Lemma first_edge_some (l : list (option edge)) f : first_edge l = Some f -> In (Some f) l.
Proof. induction l as [|[e|] l IH]; cbn; [discriminate|intros H; injection H as ->; auto|auto]. Qed.
Lemma first_edge_none (l : list (option edge)) f : first_edge l = None -> ~ In (Some f) l.
Proof. induction l as [|[e|] l IH]; cbn; [auto|discriminate|]. intros H [K|K]; [discriminate|exact (IH H K)]. Qed.
Lemma line_ok cols (r : columns) : NoDup (dkeys r) -> r <> [] -> incl (dkeys r) cols ->
  exists l c f, line_of cols r = Ok l /\ In c cols /\ dget r c = Some f /\ ln_label l = (rn_name (re_u f), rn_name (re_v f)) /\
    ln_cells l = map (fun c => option_map (fun e => ry_repr (re_type e)) (dget r c)) cols /\
    (ln_same l = true <-> forall c, In c cols -> exists e, dget r c = Some e /\ edge_eqb e f = true).
Proof.
  intros N NE I. unfold line_of. destruct (first_edge (map snd (row_of cols r))) as [f|] eqn:F.
  - pose proof (first_edge_some _ _ F) as J. apply row_values in J; [|exact N|exact I]. destruct J as (c & J & D). eexists. exists c, f. split; [reflexivity|]. cbn [ln_label ln_cells ln_same]. repeat split; auto.
    + apply map_ext_in. intros a A. rewrite row_get by exact N. destruct (dget r a); [reflexivity|]. destruct (existsb (eqb a) cols); reflexivity.
    + intros H a A. rewrite forallb_forall in H. specialize (H (dget r a)). assert (X : In (dget r a) (map snd (row_of cols r))) by (apply row_values; eauto). specialize (H X). destruct (dget r a) as [e|]; [eauto|discriminate].
    + intros H. apply forallb_forall. intros o O. apply row_values in O; [|exact N|exact I]. destruct O as (a & A & ->). destruct (H a A) as (e & -> & E). exact E.
  - exfalso. destruct r as [|[c e] r]; [congruence|]. apply (first_edge_none _ e F). apply row_values; [exact N|exact I|]. exists c. split; [apply I; left; reflexivity|]. cbn. destruct (eqb_spec c c); congruence.
Qed.
Lemma lines_ok cols (rs : list columns) : (forall r, In r rs -> exists l, line_of cols r = Ok l) -> exists ls, lines_of cols rs = Ok ls /\ Forall2 (fun r l => line_of cols r = Ok l) rs ls.
Proof.
  induction rs as [|r rs IH]; intros H; [exists []; split; [reflexivity|constructor]|]. destruct (H r (or_introl eq_refl)) as [l L]. destruct IH as (ls & E & F); [intros x X; apply H; right; exact X|]. exists (l :: ls). cbn. rewrite L, E. cbn. split; [reflexivity|constructor; assumption].
Qed.
Lemma forall2_nth {A B} (R : A -> B -> Prop) l m i y : Forall2 R l m -> nth_error m i = Some y -> exists x, nth_error l i = Some x /\ R x y.
Proof. intros F. revert i. induction F as [|a b l m P F IH]; intros [|i] H; cbn in *; try discriminate; [injection H as <-; eauto|apply IH, H]. Qed.
Lemma forall2_in {A B} (R : A -> B -> Prop) l m x : Forall2 R l m -> In x l -> exists y, In y m /\ R x y.
Proof. intros F. induction F as [|a b l m P F IH]; intros []; [subst; exists b; cbn; auto|]. destruct (IH H) as (y & Y & Q). exists y. cbn; auto. Qed.

(* ---- equality of edges in regular results ---- *)
Section Regular.
Variable results : list (string * list edge).
Hypothesis REG : regular results.
Lemma node_same e f c c' (p q : edge -> rnode) : has results c e -> has results c' f -> (p = re_u \/ p = re_v) -> (q = re_u \/ q = re_v) -> node_eqb (p e) (q f) = true <-> rn_name (p e) = rn_name (q f).
Proof.
  intros H K P Q. rewrite node_eqb_iff. split; [congruence|]. apply (proj1 REG); [exists c, e|exists c', f]; (split; [assumption|]); [destruct P; subst; auto|destruct Q; subst; auto].
Qed.
Lemma agree_iff e f c c' : has results c e -> has results c' f -> edge_eqb e f = true <-> agree e f.
Proof.
  intros H K. unfold edge_eqb, agree, between. destruct (ustr_eqb_spec (ry_name (re_type e)) (ry_name (re_type f))) as [E|E]; cbn [negb]; [|split; [discriminate|tauto]].
  destruct (ry_directed (re_type e)).
  - rewrite andb_true_iff, (node_same e f c c' re_u re_u H K), (node_same e f c c' re_v re_v H K); auto. tauto.
  - rewrite orb_true_iff, !andb_true_iff, (node_same e f c c' re_u re_u H K), (node_same e f c c' re_v re_v H K), (node_same e f c c' re_u re_v H K), (node_same e f c c' re_v re_u H K); auto.
    split; intros X; [split; [exact E|]; destruct X as [[X Y]|[X Y]]; auto|destruct X as [_ [[X Y]|[X Y]]]; auto].
Qed.
Lemma agree_sym e f c c' : has results c e -> has results c' f -> agree e f -> agree f e.
Proof.
  intros H K [A B]. split; [auto|]. rewrite <- (proj1 (proj2 REG) c e c' f H K A). unfold between in *. destruct (ry_directed (re_type e)); [destruct B; auto|]. destruct B as [[B C]|[B C]]; auto.
Qed.
Lemma agree_trans e f g c c' : has results c e -> has results c' f -> agree e f -> agree f g -> agree e g.
Proof.
  intros H K [A B] [A' B']. split; [congruence|]. rewrite <- (proj1 (proj2 REG) c e c' f H K A) in B'. unfold between in *. destruct (ry_directed (re_type e)); [intuition congruence|].
  destruct B as [[B1 B2]|[B1 B2]], B' as [[B3 B4]|[B3 B4]]; [left|right|right|left]; split; congruence.
Qed.
Lemma agree_key e f : agree e f -> key e = key f.
Proof.
  intros [_ B]. unfold key. apply sorted2_iff. unfold between in B. destruct (ry_directed (re_type e)); [auto|]. destruct B as [[B C]|[B C]]; auto.
Qed.
Lemma messages_iff : fst (compare true results) = [] <-> forall c es, In (c, es) results -> consistent es.
Proof.
  unfold compare, equivalents. fold (entries results). destruct (fold_good (entries results)) as (W & C & M). destruct (fold_left record_edge (entries results) ([], [])) as [t ms]. cbn [fst snd] in *. rewrite M. split.
  - intros H c es I e f a b E F EB FB. assert (HE : has results c e) by (exists es; auto). assert (HF : has results c f) by (exists es; auto).
    assert (KK : key e = key f) by (apply between_key in EB, FB; congruence).
    destruct (first_ex (entries results) c e) as [g G]; [apply entries_iff, HE|]. pose proof (first_in _ _ _ _ G) as [IG _]. apply entries_iff in IG.
    assert (X : agree g e). { apply (agree_iff g e c c IG HE), (H c); [apply entries_iff, HE|exact G]. }
    assert (Y : agree g f). { apply (agree_iff g f c c IG HF), (H c); [apply entries_iff, HF|rewrite <- KK; exact G]. }
    apply (agree_trans e g f c c HE IG); [apply (agree_sym g e c c IG HE X)|exact Y].
  - intros H c e f I G. pose proof (first_in _ _ _ _ G) as [IG KG]. apply entries_iff in I, IG. apply (agree_iff f e c c IG I).
    destruct I as (es & I & J), IG as (es' & I' & J'). assert (es = es') by (apply (proj2 (proj2 REG) c); assumption). subst es'.
    apply (H c es I f e (rn_name (re_u e)) (rn_name (re_v e))); auto; [|left; auto]. apply between_key. rewrite KG. reflexivity.
Qed.
Lemma has_col c e : has results c e -> In c (map fst results).
Proof. intros (es & I & _). apply in_map_iff. exists (c, es). auto. Qed.
(* the rows and their lines *)
Definition describes (k : ustr * ustr) (l : line) : Prop :=
  exists c f, first (entries results) k c = Some f /\ ln_label l = (rn_name (re_u f), rn_name (re_v f)) /\
    ln_cells l = map (fun c => option_map (fun e => ry_repr (re_type e)) (first (entries results) k c)) (map fst results) /\
    (ln_same l = true <-> forall c, In c (map fst results) -> exists e, first (entries results) k c = Some e /\ edge_eqb e f = true).
Lemma compare_lines : exists ks ls, snd (compare false results) = Ok ls /\ snd (compare true results) = Ok (filter (fun l => negb (ln_same l)) ls) /\ Forall2 describes ks ls /\ NoDup ks /\
  forall k, In k ks <-> exists c e, has results c e /\ key e = k.
Proof.
  unfold compare, equivalents. fold (entries results). destruct (fold_good (entries results)) as (W & C & M). destruct (fold_left record_edge (entries results) ([], [])) as [t ms]. cbn [fst snd] in *. clear M ms.
  assert (ROW : forall k r, In (k, r) (krows t) -> NoDup (dkeys r) /\ r <> [] /\ incl (dkeys r) (map fst results) /\ forall c, dget r c = first (entries results) k c).
  { intros k r I. apply krows_iff in I; [|exact W]. destruct I as (s & A & B). assert (X : forall c, dget r c = first (entries results) k c) by (intros c; rewrite <- C; unfold cell, getd; rewrite A, B; reflexivity).
    destruct (proj2 (proj2 W _ _ A) _ _ B) as [N NE]. split; [exact N|]. split; [exact NE|]. split; [|exact X].
    intros c I. apply dmem_In, dmem_get in I. destruct I as [e E]. rewrite X in E. apply first_in in E. destruct E as [E _]. apply entries_iff in E. apply (has_col c e E). }
  assert (EX : forall r, In r (rows t) -> exists l, line_of (map fst results) r = Ok l).
  { intros r I. rewrite rows_krows in I. apply in_map_iff in I. destruct I as ([k r'] & <- & I). destruct (ROW k r' I) as (N & NE & INC & _). destruct (line_ok _ r' N NE INC) as (l & _ & _ & E & _). eauto. }
  destruct (lines_ok _ _ EX) as (ls & E & F). exists (map fst (krows t)), ls. rewrite E. cbn [rbind]. split; [|split; [|split; [|split]]].
  - f_equal. clear. induction ls as [|l ls IH]; [reflexivity|cbn [filter]; cbn [andb negb]; f_equal; exact IH].
  - reflexivity.
  - rewrite rows_krows in F. clear E EX C. revert ls F ROW. generalize (krows t). induction l as [|[k r] l IH]; intros ls F ROW; inversion F as [|? l' ? ls' P Q]; subst; [constructor|]. cbn [map fst]. constructor; [|apply IH; [exact Q|intros k' r' I; apply ROW; right; exact I]].
    destruct (ROW k r (or_introl eq_refl)) as (N & NE & INC & X). destruct (line_ok _ r N NE INC) as (l0 & c & f & P' & I & D & LB & CE & SA). cbn [snd] in P. assert (l0 = l') by congruence. subst l0. exists c, f. rewrite <- X. split; [exact D|]. split; [exact LB|]. split.
    + rewrite CE. apply map_ext. intros a. rewrite X. reflexivity.
    + rewrite SA. split; intros H a A; destruct (H a A) as (e & E1 & E2); exists e; [rewrite <- X|rewrite X]; auto.
  - apply krows_nodup, W.
  - intros k. rewrite in_map_iff. split.
    + intros ([k' r] & <- & I). cbn [fst]. destruct (ROW k' r I) as (N & NE & INC & X). destruct r as [|[c e] r]; [congruence|]. assert (Y : first (entries results) k' c = Some e) by (rewrite <- X; cbn; destruct (eqb_spec c c); congruence). apply first_in in Y. destruct Y as [Y Z]. apply entries_iff in Y. eauto.
    + intros (c & e & H & <-). destruct (first_ex (entries results) c e) as [f Q]; [apply entries_iff, H|]. rewrite <- C in Q. unfold cell, getd in Q. destruct (dget t (fst (key e))) as [s|] eqn:A; [|discriminate]. destruct (dget s (snd (key e))) as [r|] eqn:B; [|discriminate]. exists (key e, r). split; [reflexivity|]. apply krows_iff; [exact W|]. eauto.
Qed.
Hypothesis CON : forall c es, In (c, es) results -> consistent es.
Lemma line_about k l a b : describes k l -> about l a b <-> k = sorted2 a b.
Proof.
  intros (c & f & F & LB & _). apply first_in in F. destruct F as [_ <-]. unfold about. rewrite LB. unfold key. rewrite sorted2_iff. split; [intros [H|H]; injection H as -> ->; auto|intros [[-> ->]|[-> ->]]; auto].
Qed.
Lemma line_cells k l a b : describes k l -> k = sorted2 a b -> right_cells results l a b.
Proof.
  intros (c & f & _ & _ & CE & _) ->. unfold right_cells. rewrite CE, map_map. clear CE c f l.
  assert (Y : forall rs, incl rs results -> Forall2 (fun x o => match o with Some t => exists e, In e (snd x) /\ between e a b /\ t = ry_repr (re_type e) | None => forall e, In e (snd x) -> ~ between e a b end)
    rs (map (fun x : string * list edge => option_map (fun e => ry_repr (re_type e)) (first (entries results) (sorted2 a b) (fst x))) rs)); [|apply Y; intros x X; exact X].
  induction rs as [|[c' es] rs IH]; intros G; cbn [map]; constructor; [|apply IH; intros x X; apply G; right; exact X].
  assert (I : In (c', es) results) by (apply G; left; reflexivity). cbn [fst snd]. destruct (first (entries results) (sorted2 a b) c') as [e|] eqn:F; cbn.
  - apply first_in in F. destruct F as [F K]. apply entries_iff in F. destruct F as (es' & I' & J). rewrite (proj2 (proj2 REG) c' es es' I I'). exists e. split; [exact J|]. split; [apply between_key, K|reflexivity].
  - intros e J B. destruct (first_ex (entries results) c' e) as [g Q]; [apply entries_iff; exists es; auto|]. apply between_key in B. rewrite B in Q. congruence.
Qed.
Lemma line_same k l a b : describes k l -> k = sorted2 a b -> ln_same l = true <-> all_agree results a b.
Proof.
  intros (c & f & F & _ & _ & SA) ->. rewrite SA. pose proof (first_in _ _ _ _ F) as [HF KF]. apply entries_iff in HF.
  assert (COL : forall c e g, has results c e -> has results c g -> key e = key g -> agree e g).
  { intros c0 e g (es & I & J) (es' & I' & J') K. assert (es = es') by (apply (proj2 (proj2 REG) c0); assumption). subst es'. apply (CON c0 es I e g (rn_name (re_u e)) (rn_name (re_v e)) J J'); [left; auto|]. apply between_key. rewrite <- K. reflexivity. }
  split.
  - intros H.
    assert (X : forall c e, has results c e -> between e a b -> agree e f).
    { intros c0 e HE B. destruct (H c0 (has_col _ _ HE)) as (g & G & E). pose proof (first_in _ _ _ _ G) as [HG KG]. apply entries_iff in HG. apply between_key in B. apply (agree_trans e g f c0 c0 HE HG); [apply (COL c0); auto; congruence|]. apply (agree_iff g f c0 c HG HF), E. }
    split.
    + intros [c0 es] I. destruct (H c0) as (e & E & _); [apply in_map_iff; exists (c0, es); auto|]. pose proof (first_in _ _ _ _ E) as [HE KE]. apply entries_iff in HE. destruct HE as (es' & I' & J). exists e. cbn [snd]. rewrite (proj2 (proj2 REG) c0 es es' I I'). split; [exact J|]. apply between_key, KE.
    + intros c1 e c2 g HE HG BE BG. apply (agree_trans e f g c1 c HE HF); [apply (X c1); assumption|]. apply (agree_sym g f c2 c HG HF), (X c2); assumption.
  - intros [H K] c0 I. apply in_map_iff in I. destruct I as ([c1 es] & E & I). cbn in E. subst c1. destruct (H _ I) as (e & J & B). cbn [snd] in J. assert (HE : has results c0 e) by (exists es; auto).
    destruct (first_ex (entries results) c0 e) as [g G]; [apply entries_iff, HE|]. apply between_key in B. rewrite B in G. exists g. split; [exact G|]. pose proof (first_in _ _ _ _ G) as [HG KG]. apply entries_iff in HG. apply (agree_iff g f c0 c HG HF), (K c0 g c f HG HF); apply between_key; assumption.
Qed.
End Regular.
End Facts.
