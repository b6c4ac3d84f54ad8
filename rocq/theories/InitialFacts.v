(* Facts about the initial values of a time series. *)
From Coq Require Import Ring Setoid.
From Verif Require Import Base PyDict PyDictFacts Graph Dag SampleGen SampleSpec Initial InitialSpec.
Open Scope list_scope.

Lemma position_some vs k i : position vs k = Some i -> i < List.length vs /\ nth i vs EmptyString = k.
Proof.
  revert i; induction vs as [|v r IH]; intros i H; [discriminate|]. cbn in H. destruct (eqb v k) eqn:E.
  - injection H as <-. destruct (eqb_spec v k) as [E'|]; [|discriminate]. split; [cbn; lia|exact E'].
  - destruct (position r k) as [j|] eqn:P; [|discriminate]. injection H as <-. destruct (IH j eq_refl) as [A B]. split; [cbn; lia|exact B].
Qed.
Lemma position_in vs k : In k vs -> exists i, position vs k = Some i.
Proof.
  induction vs as [|v r IH]; intros H; [destruct H|]. cbn. destruct (eqb v k) eqn:E; [eauto|]. destruct H as [->|H]; [rewrite eqb_refl in E; discriminate|].
  destruct (IH H) as (i & ->). cbn. eauto.
Qed.
Lemma position_nth vs i : NoDup vs -> i < List.length vs -> position vs (nth i vs EmptyString) = Some i.
Proof.
  intros ND Hi. destruct (position_in vs (nth i vs EmptyString) (nth_In _ _ Hi)) as (j & P). rewrite P. destruct (position_some _ _ _ P) as [A B].
  f_equal. exact (proj1 (NoDup_nth vs EmptyString) ND j i A Hi B).
Qed.

Section Facts.
Context {T : Type}.
Variables zero one : T.
Variables add mul sub : T -> T -> T.
Variable opp : T -> T.
Hypothesis RT : ring_theory zero one add mul sub opp eq.
Add Ring Tring : RT.
Notation sumn := (Initial.sumn zero add).
Notation total := (InitialSpec.total zero add).

Lemma sumn_ext n f g : (forall i, i < n -> f i = g i) -> sumn n f = sumn n g.
Proof. induction n as [|n IH]; intros H; [reflexivity|]. cbn. rewrite IH, (H n) by (intros; try apply H; lia). reflexivity. Qed.
Lemma sumn_zero n : sumn n (fun _ => zero) = zero.
Proof. induction n as [|n IH]; cbn; [reflexivity|]. rewrite IH. ring. Qed.
Lemma sumn_add n f g : sumn n (fun i => add (f i) (g i)) = add (sumn n f) (sumn n g).
Proof. induction n as [|n IH]; cbn; [ring|]. rewrite IH. ring. Qed.
Lemma sumn_scale n c f : sumn n (fun i => mul c (f i)) = mul c (sumn n f).
Proof. induction n as [|n IH]; cbn; [ring|]. rewrite IH. ring. Qed.
Lemma sumn_scale_r n c f : sumn n (fun i => mul (f i) c) = mul (sumn n f) c.
Proof. induction n as [|n IH]; cbn; [ring|]. rewrite IH. ring. Qed.
Lemma sumn_sub n f g : sumn n (fun i => sub (f i) (g i)) = sub (sumn n f) (sumn n g).
Proof. induction n as [|n IH]; cbn; [ring|]. rewrite IH. ring. Qed.
Lemma sumn_swap n m f : sumn n (fun i => sumn m (fun j => f i j)) = sumn m (fun j => sumn n (fun i => f i j)).
Proof. induction n as [|n IH]; cbn; [symmetry; apply sumn_zero|]. rewrite IH. symmetry. apply sumn_add. Qed.
Lemma sumn_delta n i f : i < n -> sumn n (fun j => if Nat.eqb j i then f j else zero) = f i.
Proof.
  induction n as [|n IH]; intros H; [lia|]. cbn. destruct (Nat.eq_dec i n) as [->|Ne].
  - rewrite Nat.eqb_refl. rewrite (sumn_ext n _ (fun _ => zero)), sumn_zero; [ring|]. intros j Hj. destruct (Nat.eqb_spec j n); [lia|reflexivity].
  - rewrite IH by lia. destruct (Nat.eqb_spec n i); [lia|]. ring.
Qed.
Lemma sumn_app n m f : sumn (n + m) f = add (sumn n f) (sumn m (fun j => f (n + j))).
Proof. induction m as [|m IH]; [rewrite Nat.add_0_r; cbn; ring|]. rewrite Nat.add_succ_r. cbn. rewrite IH. ring. Qed.
Lemma sumn_prod a b f : sumn (a * b) f = sumn a (fun i => sumn b (fun j => f (i * b + j))).
Proof. induction a as [|a IH]; [reflexivity|]. cbn [Nat.mul Initial.sumn]. rewrite Nat.add_comm, sumn_app, IH. reflexivity. Qed.

Lemma total_cons {A} (a : A) l f : total (a :: l) f = add (f a) (total l f).
Proof. reflexivity. Qed.
Lemma total_ext {A} (l : list A) f g : (forall a, In a l -> f a = g a) -> total l f = total l g.
Proof. induction l as [|a l IH]; intros H; [reflexivity|]. rewrite !total_cons, (H a (or_introl eq_refl)), IH; [reflexivity|]. intros; apply H; right; assumption. Qed.
Lemma total_zero {A} (l : list A) : total l (fun _ => zero) = zero.
Proof. induction l as [|a l IH]; [reflexivity|]. rewrite total_cons, IH. ring. Qed.
Lemma total_scale {A} (l : list A) c f : total l (fun a => mul c (f a)) = mul c (total l f).
Proof. induction l as [|a l IH]; [cbn; ring|]. rewrite !total_cons, IH. ring. Qed.
Lemma sumn_total {A} n (l : list A) f : sumn n (fun i => total l (fun a => f i a)) = total l (fun a => sumn n (fun i => f i a)).
Proof. induction l as [|a l IH]; [apply sumn_zero|]. rewrite total_cons, <- IH, <- sumn_add. reflexivity. Qed.
Lemma total_scale_r {A} (l : list A) c f : mul (total l f) c = total l (fun a => mul (f a) c).
Proof. induction l as [|a l IH]; [cbn; ring|]. rewrite !total_cons, <- IH. ring. Qed.
Lemma total_add {A} (l : list A) f g : total l (fun a => add (f a) (g a)) = add (total l f) (total l g).
Proof. induction l as [|a l IH]; [cbn; ring|]. rewrite !total_cons, IH. ring. Qed.
Lemma total_filter {A} (q : A -> bool) l f : total (filter q l) f = total l (fun a => if q a then f a else zero).
Proof. induction l as [|a l IH]; [reflexivity|]. cbn [filter]. destruct (q a) eqn:Q; rewrite ?total_cons, Q, IH; [reflexivity|ring]. Qed.

(* the coefficients *)
Section Edges.
Variables (vs : list string) (p : nat).
Hypothesis ND : NoDup vs.
Definition matches (i a b : nat) (e : sedge T) : bool :=
  (if string_dec (se_to e) (nth a vs EmptyString) then true else false) && (if string_dec (se_from e) (nth b vs EmptyString) then true else false)
    && (if Z.eq_dec (lag e) (Z.of_nat i + 1) then true else false).
Lemma matches_iff i a b e : matches i a b e = true <-> se_to e = nth a vs EmptyString /\ se_from e = nth b vs EmptyString /\ lag e = (Z.of_nat i + 1)%Z.
Proof.
  unfold matches. destruct (string_dec (se_to e) (nth a vs EmptyString)); destruct (string_dec (se_from e) (nth b vs EmptyString)); destruct (Z.eq_dec (lag e) (Z.of_nat i + 1)); cbn; intuition discriminate.
Qed.
Definition usable (e : sedge T) : Prop := In (se_from e) vs /\ In (se_to e) vs /\ (0 < lag e <= Z.of_nat p)%Z.
Lemma index_of (e : sedge T) : (0 < lag e <= Z.of_nat p)%Z -> list_index p (se_time e * -1 - 1)%Z = Some (Z.to_nat (lag e - 1)).
Proof.
  intros H. unfold list_index. replace (se_time e * -1 - 1)%Z with (lag e - 1)%Z by (unfold lag; lia). destruct (Z.ltb_spec (lag e - 1) 0); [lia|]. destruct (Z.ltb_spec (lag e - 1) 0); [lia|].
  destruct (Nat.ltb_spec (Z.to_nat (lag e - 1)) p); [reflexivity|lia].
Qed.
Lemma set_ok m e : usable e -> exists m', set_coefficient vs p m e = Ok m' /\
  forall i a b, i < p -> a < List.length vs -> b < List.length vs -> m' i a b = if matches i a b e then se_value e else m i a b.
Proof.
  intros (F & To & L). unfold set_coefficient. rewrite (index_of e L). destruct (position_in vs _ To) as (x & Px). destruct (position_in vs _ F) as (y & Py). rewrite Px, Py.
  eexists. split; [reflexivity|]. intros i a b Hi Ha Hb. cbv beta. destruct (position_some _ _ _ Px) as [Bx Ex]. destruct (position_some _ _ _ Py) as [By Ey].
  destruct (matches i a b e) eqn:M.
  - apply matches_iff in M. destruct M as (M1 & M2 & M3).
    assert (a = x) as -> by (rewrite M1, position_nth in Px by assumption; congruence). assert (b = y) as -> by (rewrite M2, position_nth in Py by assumption; congruence).
    rewrite M3. replace (Z.of_nat i + 1 - 1)%Z with (Z.of_nat i) by lia. rewrite Nat2Z.id, !Nat.eqb_refl. reflexivity.
  - destruct (Nat.eqb_spec i (Z.to_nat (lag e - 1))); [|reflexivity]. destruct (Nat.eqb_spec a x); [|reflexivity]. destruct (Nat.eqb_spec b y); [|reflexivity]. exfalso.
    assert (X : matches i a b e = true) by (apply matches_iff; subst; repeat split; try congruence; lia). congruence.
Qed.
Lemma coefficients_ok : forall es m0, distinct_edges es -> (forall e, In e es -> usable e) -> exists ms, rfold (set_coefficient vs p) es m0 = Ok ms /\
  forall i a b, i < p -> a < List.length vs -> b < List.length vs -> ms i a b = if existsb (matches i a b) es then total es (fun e => if matches i a b e then se_value e else zero) else m0 i a b.
Proof.
  induction es as [|e es IH]; intros m0 D U.
  - exists m0. split; [reflexivity|]. reflexivity.
  - cbn [rfold]. destruct (set_ok m0 e (U e (or_introl eq_refl))) as (m1 & E1 & H1). rewrite E1. cbn [rbind]. inversion D as [|? ? N1 D1]; subst.
    destruct (IH m1 D1 (fun e' I => U e' (or_intror I))) as (ms & E2 & H2). exists ms. split; [exact E2|]. intros i a b Hi Ha Hb. rewrite (H2 i a b Hi Ha Hb), (H1 i a b Hi Ha Hb). cbn [existsb].
    destruct (matches i a b e) eqn:M; cbn [orb].
    + assert (Z0 : existsb (matches i a b) es = false).
      { apply Bool.not_true_iff_false. intros X. apply existsb_exists in X. destruct X as (f & F1 & F2). apply N1. apply in_map_iff. exists f. split; [|exact F1].
        apply matches_iff in M. apply matches_iff in F2. unfold lag in *. destruct M as (A1 & A2 & A3), F2 as (B1 & B2 & B3). f_equal; [f_equal; congruence|lia]. }
      rewrite Z0, total_cons, M. rewrite (total_ext es _ (fun _ => zero)).
      * rewrite total_zero. ring.
      * intros f F. destruct (matches i a b f) eqn:Mf; [|reflexivity]. exfalso. assert (X : existsb (matches i a b) es = true) by (apply existsb_exists; eauto). congruence.
    + rewrite total_cons, M. destruct (existsb (matches i a b) es); [|reflexivity]. ring.
Qed.
End Edges.

(* the block matrix *)
Lemma top_ok n ms : forall q r c, fold_left (fun m i => set_block n 0 (i * n) (ms i) m) (seq 0 q) (fun _ _ => zero) r c =
  if Nat.ltb r n && Nat.ltb c (q * n) then ms (c / n) r (c mod n) else zero.
Proof.
  induction q as [|q IH]; intros r c.
  - cbn. rewrite Bool.andb_false_r. reflexivity.
  - rewrite seq_S, fold_left_app. cbn [fold_left Nat.add]. unfold set_block at 1. rewrite IH. destruct (Nat.ltb_spec r n); cbn [andb Nat.leb].
    2:{ destruct (Nat.leb_spec 0 r); [|lia]. destruct (Nat.ltb_spec r (0 + n)); [lia|]. reflexivity. }
    destruct (Nat.leb_spec 0 r); [|lia]. destruct (Nat.ltb_spec r (0 + n)); [|lia]. cbn [andb].
    destruct (Nat.leb_spec (q * n) c); cbn [andb].
    + destruct (Nat.ltb_spec c (q * n)); [lia|]. destruct (Nat.ltb_spec c (q * n + n)); destruct (Nat.ltb_spec c (S q * n)); try lia; [|reflexivity].
      assert (E : c / n = q /\ c mod n = c - q * n). { assert (c = n * q + (c - q * n)) by lia. split; [symmetry; apply Nat.div_unique with (c - q * n); lia|symmetry; apply Nat.mod_unique with q; lia]. }
      destruct E as [-> ->]. rewrite Nat.sub_0_r. reflexivity.
    + destruct (Nat.ltb_spec c (q * n)); [|lia]. destruct (Nat.ltb_spec c (S q * n)); [reflexivity|lia].
Qed.
Lemma eye_ok n (top : nat -> nat -> T) : (forall r c, n <= r -> top r c = zero) -> forall q,
  fold_left (fun (s : matrix * (nat * nat)) (_ : nat) => match s with (m, (r, c)) => (set_block n r c (eye zero one) m, (r + n, c + n)) end) (seq 1 q) (top, (n, 0)) =
  (fst (fold_left (fun (s : matrix * (nat * nat)) (_ : nat) => match s with (m, (r, c)) => (set_block n r c (eye zero one) m, (r + n, c + n)) end) (seq 1 q) (top, (n, 0))), (n + q * n, q * n)) /\
  forall r c, fst (fold_left (fun (s : matrix * (nat * nat)) (_ : nat) => match s with (m, (r, c)) => (set_block n r c (eye zero one) m, (r + n, c + n)) end) (seq 1 q) (top, (n, 0))) r c =
  if Nat.leb n r && Nat.ltb r (n + q * n) && Nat.eqb r (c + n) then one else top r c.
Proof.
  intros Z0. induction q as [|q [IH1 IH2]].
  - split; [cbn; rewrite Nat.add_0_r; reflexivity|]. intros r c. cbn [seq fold_left fst]. destruct (Nat.leb_spec n r); destruct (Nat.ltb_spec r (n + 0 * n)); cbn [andb]; try reflexivity. lia.
  - rewrite seq_S, fold_left_app. rewrite IH1. cbn [fold_left fst]. split; [f_equal; f_equal; cbn; lia|]. intros r c. unfold set_block at 1. rewrite IH2.
    destruct (Nat.leb_spec (n + q * n) r); cbn [andb].
    + destruct (Nat.ltb_spec r (n + q * n + n)); cbn [andb].
      * destruct (Nat.leb_spec n r); [|lia]. destruct (Nat.ltb_spec r (n + S q * n)); [|lia]. destruct (Nat.ltb_spec r (n + q * n)); [lia|]. cbn [andb].
        destruct (Nat.leb_spec (q * n) c); destruct (Nat.ltb_spec c (q * n + n)); cbn [andb].
        -- unfold eye. destruct (Nat.eqb_spec (r - (n + q * n)) (c - q * n)); destruct (Nat.eqb_spec r (c + n)); try lia; [reflexivity|]. symmetry. apply Z0. lia.
        -- destruct (Nat.eqb_spec r (c + n)); [lia|reflexivity].
        -- destruct (Nat.eqb_spec r (c + n)); [lia|reflexivity].
        -- destruct (Nat.eqb_spec r (c + n)); [lia|reflexivity].
      * destruct (Nat.ltb_spec r (n + q * n)); [lia|]. destruct (Nat.ltb_spec r (n + S q * n)); [lia|]. rewrite !Bool.andb_false_r. reflexivity.
    + destruct (Nat.ltb_spec r (n + q * n)); [|lia]. destruct (Nat.ltb_spec r (n + S q * n)); [|lia]. reflexivity.
Qed.
Lemma block_ok n p ms : 0 < p -> exists m, block_diagonal zero one n p ms = Ok m /\ forall r c, r < p * n -> c < p * n ->
  m r c = if Nat.ltb r n then ms (c / n) r (c mod n) else if Nat.eqb r (c + n) then one else zero.
Proof.
  intros Hp. destruct p as [|q]; [lia|]. unfold block_diagonal. eexists. split; [reflexivity|]. intros r c Hr Hc.
  rewrite (proj2 (eye_ok n (fold_left (fun m i => set_block n 0 (i * n) (ms i) m) (seq 0 (S q)) (fun _ _ => zero))
    ltac:(intros r' c' H; rewrite top_ok; destruct (Nat.ltb_spec r' n); [lia|reflexivity]) q)), top_ok.
  destruct (Nat.ltb_spec r n).
  - destruct (Nat.leb_spec n r); [lia|]. cbn [andb]. destruct (Nat.ltb_spec c (S q * n)); [reflexivity|lia].
  - destruct (Nat.leb_spec n r); [|lia]. destruct (Nat.ltb_spec r (n + q * n)); [|cbn in Hr; lia]. cbn [andb]. reflexivity.
Qed.

Section Main.
Variables (es : list (sedge T)) (vs : list string) (p : nat).
Hypothesis ND : NoDup vs.
Hypothesis Usable : forall e, In e es -> usable vs p e.
Hypothesis Dist : distinct_edges es.
Hypothesis Hp : 0 < p.
Notation n := (List.length vs).
Notation N := (p * List.length vs).
Notation tr := (transition zero one add es vs).
Lemma matrix_ok : exists m, coefficient_matrix zero one es vs p = Ok (N, m) /\ forall r c, r < N -> c < N -> m r c = tr r c.
Proof.
  unfold coefficient_matrix, coefficients. destruct (coefficients_ok vs p ND es (fun _ _ _ => zero) Dist Usable) as (ms & E & H). rewrite E. cbn [rbind].
  destruct (block_ok n p ms Hp) as (m & B & HB). rewrite B. cbn [rbind]. exists m. split; [reflexivity|]. intros r c Hr Hc. rewrite (HB r c Hr Hc). unfold transition.
  destruct (Nat.ltb_spec r n) as [L|L]; [|reflexivity]. assert (Hn : n <> 0) by lia. rewrite (H (c / n) r (c mod n)).
  - destruct (existsb (matches vs (c / n) r (c mod n)) es) eqn:Ex; [reflexivity|]. symmetry. transitivity (total es (fun _ : sedge T => zero)); [|apply total_zero]. apply total_ext. intros e He.
    change ((if matches vs (c / n) r (c mod n) e then se_value e else zero) = zero). destruct (matches vs (c / n) r (c mod n) e) eqn:M; [|reflexivity]. exfalso.
    assert (X : existsb (matches vs (c / n) r (c mod n)) es = true) by (apply existsb_exists; eauto). congruence.
  - apply Nat.div_lt_upper_bound; [exact Hn|lia].
  - exact L.
  - apply Nat.mod_upper_bound; exact Hn.
Qed.

Definition pos (k : string) : nat := match position vs k with Some i => i | None => 0 end.
Lemma pos_ok k : In k vs -> pos k < n /\ nth (pos k) vs EmptyString = k.
Proof. intros H. unfold pos. destruct (position_in vs k H) as (i & P). rewrite P. exact (position_some _ _ _ P). Qed.
Lemma pos_nth i : i < n -> pos (nth i vs EmptyString) = i.
Proof. intros H. unfold pos. rewrite position_nth by assumption. reflexivity. Qed.
Definition idx (e : sedge T) : nat := Z.to_nat (lag e - 1) * n + pos (se_from e).
Lemma idx_ok e : In e es -> idx e < N /\ idx e / n = Z.to_nat (lag e - 1) /\ nth (idx e mod n) vs EmptyString = se_from e.
Proof.
  intros He. destruct (Usable e He) as (F & _ & L). destruct (pos_ok _ F) as [B E]. unfold idx. assert (X : Z.to_nat (lag e - 1) < p) by lia. split; [|split].
  - apply Nat.lt_le_trans with (Z.to_nat (lag e - 1) * n + n); [lia|]. replace (Z.to_nat (lag e - 1) * n + n) with (S (Z.to_nat (lag e - 1)) * n) by lia. apply Nat.mul_le_mono_r. lia.
  - rewrite Nat.div_add_l by lia. rewrite Nat.div_small by lia. lia.
  - rewrite Nat.add_comm, Nat.mod_add by lia. rewrite Nat.mod_small by lia. exact E.
Qed.
(* a row of the transition matrix *)
Lemma row_new r g : r < n -> sumn N (fun c => mul (tr r c) (g c)) = total (into es (nth r vs EmptyString)) (fun e => mul (se_value e) (g (idx e))).
Proof.
  intros Hr. unfold into. rewrite total_filter.
  transitivity (sumn N (fun c => total es (fun e => mul (if matches vs (c / n) r (c mod n) e then se_value e else zero) (g c)))).
  { apply sumn_ext. intros c Hc. unfold transition. destruct (Nat.ltb_spec r n); [|lia]. rewrite total_scale_r. reflexivity. }
  rewrite sumn_total. apply total_ext. intros e He. destruct (idx_ok e He) as (I1 & I2 & I3). destruct (Usable e He) as (F & _ & L).
  destruct (string_dec (se_to e) (nth r vs EmptyString)) as [Et|Et].
  - rewrite <- (sumn_delta N (idx e) (fun c => mul (se_value e) (g c)) I1). apply sumn_ext. intros c Hc. assert (Hn : n <> 0) by lia.
    destruct (matches vs (c / n) r (c mod n) e) eqn:M; destruct (Nat.eqb_spec c (idx e)) as [->|Ne]; try ring.
    + exfalso. apply Ne. apply matches_iff in M. destruct M as (_ & M2 & M3). unfold idx. rewrite M2, pos_nth by (apply Nat.mod_upper_bound; exact Hn). rewrite M3.
      replace (Z.of_nat (c / n) + 1 - 1)%Z with (Z.of_nat (c / n)) by lia. rewrite Nat2Z.id, Nat.mul_comm. apply Nat.div_mod. exact Hn.
    + exfalso. assert (X : matches vs (idx e / n) r (idx e mod n) e = true); [|congruence]. apply matches_iff. repeat split; [exact Et|symmetry; exact I3|rewrite I2; lia].
  - transitivity (sumn N (fun _ => zero)); [|apply sumn_zero]. apply sumn_ext. intros c Hc. destruct (matches vs (c / n) r (c mod n) e) eqn:M; [|ring]. apply matches_iff in M. destruct M as (M1 & _). contradiction.
Qed.
Lemma row_old r g : n <= r < N -> sumn N (fun c => mul (tr r c) (g c)) = g (r - n).
Proof.
  intros Hr. rewrite <- (sumn_delta N (r - n) g) by lia. apply sumn_ext. intros c Hc. unfold transition. destruct (Nat.ltb_spec r n); [lia|].
  destruct (Nat.eqb_spec r (c + n)) as [Eq1|Ne1]; destruct (Nat.eqb_spec c (r - n)) as [Eq2|Ne2]; try lia; ring.
Qed.

Variable G : string -> string -> Z -> T.
Hypothesis ST : stationary zero one add mul es vs G.
Definition V (r c : nat) : T := G (nth (r mod n) vs EmptyString) (nth (c mod n) vs EmptyString) (Z.of_nat (c / n) - Z.of_nat (r / n))%Z.
Lemma V_idx e c : In e es -> V (idx e) c = G (se_from e) (nth (c mod n) vs EmptyString) (Z.of_nat (c / n) - (lag e - 1))%Z.
Proof. intros He. unfold V. destruct (idx_ok e He) as (_ & I2 & I3). destruct (Usable e He) as (_ & _ & L). rewrite I3, I2. f_equal. lia. Qed.
Lemma V_idx2 e f : In e es -> In f es -> V (idx e) (idx f) = G (se_from e) (se_from f) (lag f - lag e)%Z.
Proof. intros He Hf. rewrite (V_idx e _ He). destruct (idx_ok f Hf) as (_ & I2 & I3). destruct (Usable f Hf) as (_ & _ & L). rewrite I3, I2. f_equal. lia. Qed.
Lemma old_div r : n <= r -> n <> 0 -> (r - n) mod n = r mod n /\ r / n = S ((r - n) / n).
Proof. intros H Hn. replace r with ((r - n) + 1 * n) at 2 3 by lia. rewrite Nat.mod_add, Nat.div_add by exact Hn. split; [reflexivity|lia]. Qed.
Lemma into_in e x : In e (into es x) -> In e es /\ se_to e = x.
Proof. unfold into. intros H. apply filter_In in H. destruct H as [H1 H2]. destruct (string_dec (se_to e) x) as [Eq3|Ne3]; [auto|discriminate]. Qed.
Lemma V_eq r c : r < N -> c < N -> V r c = add (sumn N (fun k => sumn N (fun l => mul (mul (tr r k) (tr c l)) (V k l)))) (if Nat.ltb r n && Nat.eqb r c then one else zero).
Proof.
  intros Hr Hc. assert (Hn : n <> 0) by lia.
  assert (In1 : forall i, In (nth (i mod n) vs EmptyString) vs) by (intros i; apply nth_In; apply Nat.mod_upper_bound; exact Hn).
  transitivity (add (sumn N (fun k => mul (tr r k) (sumn N (fun l => mul (tr c l) (V k l))))) (if Nat.ltb r n && Nat.eqb r c then one else zero)).
  2:{ f_equal. apply sumn_ext. intros k Hk. rewrite <- sumn_scale. apply sumn_ext. intros l Hl. ring. }
  destruct (Nat.lt_ge_cases r n) as [R|R]; destruct (Nat.lt_ge_cases c n) as [C|C].
  - rewrite (row_new r _ R). transitivity (add (total (into es (nth r vs EmptyString)) (fun e => total (into es (nth c vs EmptyString)) (fun f => mul (mul (se_value e) (se_value f)) (G (se_from e) (se_from f) (lag f - lag e)%Z))))
      (if string_dec (nth r vs EmptyString) (nth c vs EmptyString) then one else zero)).
    + unfold V. rewrite (Nat.mod_small r), (Nat.mod_small c), (Nat.div_small r), (Nat.div_small c) by assumption. apply (st_now _ _ _ _ _ _ _ ST); apply nth_In; assumption.
    + f_equal.
      * apply total_ext. intros e He. rewrite (row_new c _ C), <- total_scale. apply total_ext. intros f Hf. rewrite V_idx2 by (eapply into_in; eassumption). ring.
      * destruct (Nat.ltb_spec r n); [|lia]. cbn [andb]. destruct (Nat.eqb_spec r c) as [Er|Ne]; destruct (string_dec (nth r vs EmptyString) (nth c vs EmptyString)) as [E|E]; try reflexivity.
        -- subst; congruence.
        -- exfalso. apply Ne. exact (proj1 (NoDup_nth vs EmptyString) ND r c R C E).
  - rewrite (row_new r _ R). destruct (Nat.eqb_spec r c) as [Eq6|Ne6]; [lia|]. rewrite Bool.andb_false_r. destruct (old_div c C Hn) as [O1 O2].
    unfold V at 1. rewrite (Nat.mod_small r), (Nat.div_small r) by assumption. rewrite (st_past _ _ _ _ _ _ _ ST) by (first [apply In1 | apply nth_In; assumption | rewrite O2; lia]).
    match goal with |- ?a = add ?b zero => transitivity b; [|ring] end. apply total_ext. intros e He. f_equal. rewrite row_old by lia. rewrite V_idx by (eapply into_in; eassumption). rewrite O1, O2. f_equal. lia.
  - destruct (Nat.eqb_spec r c) as [Eq7|Ne7]; [lia|]. rewrite Bool.andb_false_r. rewrite row_old by lia. rewrite (row_new c _ C). destruct (old_div r R Hn) as [O1 O2].
    unfold V at 1. rewrite (st_sym _ _ _ _ _ _ _ ST) by apply In1. rewrite (Nat.mod_small c), (Nat.div_small c) by assumption.
    rewrite (st_past _ _ _ _ _ _ _ ST) by (first [apply In1 | apply nth_In; assumption | rewrite O2; lia]).
    match goal with |- ?a = add ?b zero => transitivity b; [|ring] end. apply total_ext. intros e He. f_equal. assert (He' : In e es) by (eapply into_in; eassumption).
    destruct (Usable e He') as (Fe & _ & Le). unfold V. destruct (idx_ok e He') as (_ & I2 & I3). rewrite I2, I3, O1. rewrite (st_sym _ _ _ _ _ _ _ ST) by (try apply In1; assumption). f_equal. rewrite O2. lia.
  - rewrite row_old, row_old by lia. destruct (Nat.ltb_spec r n); [lia|]. cbn [andb]. destruct (old_div c C Hn) as [O1 O2]. destruct (old_div r R Hn) as [Q1 Q2].
    match goal with |- ?a = add ?b zero => transitivity b; [|ring] end. unfold V. rewrite O1, Q1, O2, Q2. f_equal. lia.
Qed.

Variable pinv : nat -> (nat -> nat -> T) -> nat -> nat -> T.
Hypothesis Inv : inverts zero one add mul pinv (N * N) (minus_action zero one mul sub N tr).
Lemma upto_sumn k f : upto zero add k f = sumn k f.
Proof. induction k as [|k IH]; cbn; [reflexivity|]. rewrite IH. reflexivity. Qed.
Lemma idb_ok j : N <> 0 -> j < N * N -> identity_block zero one N p j = (if Nat.ltb (j / N) n && Nat.eqb (j / N) (j mod N) then one else zero).
Proof.
  intros HN Hj. unfold identity_block, set_block, eye. replace (N / p) with n by (rewrite Nat.mul_comm, Nat.div_mul by lia; reflexivity). rewrite !Nat.sub_0_r. cbn [Nat.leb Nat.add].
  destruct (Nat.ltb_spec (j / N) n); cbn [andb]; [|reflexivity]. destruct (Nat.ltb_spec (j mod N) n); [reflexivity|]. destruct (Nat.eqb_spec (j / N) (j mod N)) as [Eq8|Ne8]; [lia|reflexivity].
Qed.
Lemma variances_ok : exists d, variances zero one add mul sub pinv es vs p = Ok d /\ dkeys d = vs /\ forall k, In k vs -> dget d k = Some (G k k 0%Z).
Proof.
  unfold variances. destruct matrix_ok as (m & E & Hm). rewrite E. cbn [rbind].
  set (vec := fun i => sumn (N * N) (fun j => mul (pinv (N * N) (fun r c => sub (eye zero one r c) (kron mul N m m r c)) i j) (identity_block zero one N p j))).
  assert (Vec : forall i, i < N * N -> vec i = V (i / N) (i mod N)).
  { intros i Hi. assert (HN : N <> 0) by (intros X; rewrite X in Hi; lia).
    assert (Bd : forall j, j < N * N -> j / N < N /\ j mod N < N) by (intros j Hj; split; [apply Nat.div_lt_upper_bound; assumption|apply Nat.mod_upper_bound; assumption]).
    set (B := pinv (N * N) (fun r c => sub (eye zero one r c) (kron mul N m m r c))).
    assert (LI : left_inverse zero one add mul (N * N) B (minus_action zero one mul sub N tr)).
    { apply Inv. intros a b Ha Hb. unfold minus_action, eye, kron. rewrite !Hm by (apply Bd; assumption). reflexivity. }
    transitivity (sumn (N * N) (fun j => mul (B i j) (sumn (N * N) (fun l => mul (minus_action zero one mul sub N tr j l) (V (l / N) (l mod N)))))).
    - unfold vec. apply sumn_ext. intros j Hj. f_equal. rewrite (idb_ok j HN Hj). destruct (Bd j Hj) as [B1 B2].
      transitivity (sub (V (j / N) (j mod N)) (sumn N (fun k => sumn N (fun l => mul (mul (tr (j / N) k) (tr (j mod N) l)) (V k l))))).
      + rewrite (V_eq (j / N) (j mod N)) at 1 by assumption. ring.
      + symmetry. unfold minus_action. transitivity (sumn (N * N) (fun l => sub (if Nat.eqb l j then V (l / N) (l mod N) else zero) (mul (mul (tr (j / N) (l / N)) (tr (j mod N) (l mod N))) (V (l / N) (l mod N))))).
        * apply sumn_ext. intros l Hl. rewrite (Nat.eqb_sym j l). destruct (Nat.eqb l j); ring.
        * rewrite sumn_sub. f_equal; [apply (sumn_delta (N * N) j (fun l => V (l / N) (l mod N)) Hj)|]. rewrite sumn_prod. apply sumn_ext. intros a Ha. apply sumn_ext. intros b Hb.
          rewrite Nat.div_add_l, (Nat.div_small b) by assumption. rewrite (Nat.add_comm (a * N)), Nat.mod_add, (Nat.mod_small b) by assumption. rewrite Nat.add_0_r. reflexivity.
    - transitivity (sumn (N * N) (fun l => mul (sumn (N * N) (fun j => mul (B i j) (minus_action zero one mul sub N tr j l))) (V (l / N) (l mod N)))).
      + transitivity (sumn (N * N) (fun j => sumn (N * N) (fun l => mul (mul (B i j) (minus_action zero one mul sub N tr j l)) (V (l / N) (l mod N))))).
        * apply sumn_ext. intros j Hj. rewrite <- sumn_scale. apply sumn_ext. intros l Hl. ring.
        * rewrite sumn_swap. apply sumn_ext. intros l Hl. apply sumn_scale_r.
      + rewrite <- (sumn_delta (N * N) i (fun l => V (l / N) (l mod N)) Hi). apply sumn_ext. intros l Hl. specialize (LI i l Hi Hl). rewrite upto_sumn in LI. rewrite LI. rewrite (Nat.eqb_sym i l). destruct (Nat.eqb l i); ring. }
  set (val := fun v => vec (pos v * N + pos v)).
  assert (Fold : forall l d, (forall v, In v l -> In v vs) -> NoDup l -> (forall v, In v l -> ~ In v (dkeys d)) ->
    exists d', rfold (fun d v => match position vs v with Some i => if Nat.ltb i N then Ok (dset d v (vec (i * N + i))) else Err IndexError | None => Err KeyError end) l d = Ok d' /\ d' = d ++ map (fun v => (v, val v)) l).
  { induction l as [|v l IH]; intros d S N1 D; [exists d; rewrite app_nil_r; split; reflexivity|]. cbn [rfold]. destruct (position_in vs v (S v (or_introl eq_refl))) as (i & P). assert (Pv : pos v = i) by (unfold pos; rewrite P; reflexivity).
    rewrite P. destruct (position_some _ _ _ P) as [Hi _]. assert (n <= N) by (destruct p; [lia|cbn; lia]). destruct (Nat.ltb_spec i N); [|lia]. cbn [rbind]. inversion N1 as [|? ? N2 N3]; subst.
    assert (Ed : dset d v (vec (pos v * N + pos v)) = d ++ [(v, val v)]).
    { assert (X : ~ In v (dkeys d)) by (apply D; left; reflexivity). clear - X. unfold val. revert X. generalize (vec (pos v * N + pos v)) as w. induction d as [|[k x] d IH]; intros w X; [reflexivity|]. cbn. destruct (eqb_spec v k) as [Ek|Ek]; [subst; destruct X; left; reflexivity|]. rewrite IH; [reflexivity|]. intros Y; apply X; right; exact Y. }
    destruct (IH (d ++ [(v, val v)])) as (d' & E1 & E2).
    - intros; apply S; right; assumption.
    - exact N3.
    - intros w Hw Y. unfold dkeys in Y. rewrite map_app in Y. apply in_app_iff in Y. destruct Y as [Y|[Y|[]]]; [exact (D w (or_intror Hw) Y)|]. cbn in Y. subst. contradiction.
    - exists d'. split; [rewrite Ed; exact E1|]. rewrite E2, <- app_assoc. reflexivity. }
  destruct (Fold vs [] (fun _ H => H) ND (fun _ _ H => H)) as (d & E1 & E2). exists d. split; [exact E1|]. cbn [app] in E2. subst d. split.
  - unfold dkeys. rewrite map_map. cbn. apply map_id.
  - intros k Hk. assert (D : forall l, In k l -> dget (map (fun v => (v, val v)) l) k = Some (val k)).
    { induction l as [|v l IH]; intros H; [destruct H|]. cbn. destruct (eqb_spec k v) as [Ek|Ek]; [subst; reflexivity|]. destruct H as [->|H]; [congruence|]. exact (IH H). }
    rewrite (D vs Hk). f_equal. unfold val. destruct (pos_ok k Hk) as [P1 P2]. assert (n <= N) by (destruct p; [lia|cbn; lia]).
    assert (Q : pos k * N + pos k < N * N) by (apply Nat.lt_le_trans with (S (pos k) * N); [cbn; lia|apply Nat.mul_le_mono_r; lia]).
    rewrite (Vec _ Q). rewrite Nat.div_add_l, (Nat.div_small (pos k)) by lia. rewrite (Nat.add_comm (pos k * N)), Nat.mod_add, (Nat.mod_small (pos k) N) by lia.
    rewrite Nat.add_0_r. unfold V. rewrite (Nat.mod_small (pos k) n) by lia. rewrite P2. f_equal. lia.
Qed.
End Main.
End Facts.
