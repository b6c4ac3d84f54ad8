(* The whole of initial_values, and the covariances of a generated series. *)
From Coq Require Import Ring Setoid.
From Verif Require Import Base PyDict PyDictFacts Graph Dag SampleGen SampleSpec SampleFacts Initial InitialSpec InitialFacts.
Open Scope list_scope.

Lemma fold_max l : forall a, a <= fold_left Nat.max l a /\ (forall x, In x l -> x <= fold_left Nat.max l a) /\ (fold_left Nat.max l a = a \/ In (fold_left Nat.max l a) l).
Proof.
  induction l as [|x l IH]; intros a; [cbn; intuition lia|]. cbn [fold_left]. destruct (IH (Nat.max a x)) as (A & B & C). split; [lia|split].
  - intros y [->|Hy]; [lia|apply B; exact Hy].
  - destruct C as [C|C]; [|right; right; exact C]. destruct (Nat.max_spec a x) as [[_ M]|[_ M]]; rewrite M in C; rewrite M, C; [right; left; reflexivity|left; reflexivity].
Qed.
Lemma longest_ok {T} (es : list (sedge T)) p : (forall e, In e es -> (se_time e <= 0)%Z) -> largest_lag es p -> longest_lag es = Ok p.
Proof.
  intros Neg [Up (e & He & Le)]. unfold longest_lag. destruct es as [|e0 es0] eqn:Es; [destruct He|]. rewrite <- Es in *. f_equal.
  destruct (fold_max (map (fun e => Z.abs_nat (se_time e)) es) 0) as (_ & B & C).
  assert (A : forall e, In e es -> Z.abs_nat (se_time e) = Z.to_nat (lag e)) by (intros f Hf; unfold lag; specialize (Neg f Hf); lia).
  assert (L : p <= fold_left Nat.max (map (fun e => Z.abs_nat (se_time e)) es) 0).
  { specialize (B (Z.abs_nat (se_time e)) (in_map _ _ _ He)). rewrite (A e He), Le, Nat2Z.id in B. exact B. }
  destruct C as [C|C]; [lia|]. apply in_map_iff in C. destruct C as (f & Ef & Hf). rewrite <- Ef in L |- *. specialize (Up f Hf). rewrite (A f Hf) in *. lia.
Qed.

Section Values.
Context {T : Type}.
Variables zero one : T.
Variables add mul sub : T -> T -> T.
Variable pinv : nat -> (nat -> nat -> T) -> nat -> nat -> T.
Lemma values_of_variances root normal es vs p (d : dict string T) (g : string -> T) : NoDup vs -> longest_lag es = Ok p -> variances zero one add mul sub pinv es vs p = Ok d -> dkeys d = vs -> (forall k, In k vs -> dget d k = Some (g k)) ->
  exists r, initial_values zero one add mul sub pinv root normal es vs = Ok r /\ dkeys r = vs /\ forall i k, nth_error vs i = Some k -> dget r k = Some (normal i (root (g k))).
Proof.
  intros ND L E K H. unfold initial_values. rewrite L. cbn [rbind]. rewrite E. cbn [rbind]. eexists. split; [reflexivity|].
  set (f := fun iv : nat * (string * T) => (fst (snd iv), normal (fst iv) (root (snd (snd iv))))).
  assert (Kg : forall (l : dict string T) s, dkeys (map f (combine (seq s (List.length l)) l)) = dkeys l).
  { induction l as [|[k v] l IH]; intros s; [reflexivity|]. cbn. f_equal. apply IH. }
  assert (Gg : forall (l : dict string T) s i k v, NoDup (dkeys l) -> nth_error l i = Some (k, v) -> dget (map f (combine (seq s (List.length l)) l)) k = Some (normal (s + i) (root v))).
  { induction l as [|[k0 v0] l IH]; intros s i k v N1 Hn; [destruct i; discriminate|]. inversion N1 as [|? ? N2 N3]; subst. destruct i as [|i]; cbn in Hn |- *.
    - injection Hn as -> ->. rewrite eqb_refl, Nat.add_0_r. reflexivity.
    - assert (Ne : k <> k0). { intros ->. apply N2. change k0 with (fst (k0, v)). apply in_map. eapply nth_error_In. exact Hn. }
      rewrite (eqb_neq _ _ Ne). rewrite (IH (S s) i k v N3 Hn). f_equal. f_equal. lia. }
  split; [rewrite Kg; exact K|]. intros i k Hk. assert (Hn : nth_error d i = Some (k, g k)).
  { assert (X : nth_error (dkeys d) i = Some k) by (rewrite K; exact Hk). unfold dkeys in X. rewrite nth_error_map in X. destruct (nth_error d i) as [[k' v]|] eqn:E1; [|discriminate]. cbn in X. injection X as ->.
    assert (Y := NoDup_dget d k v). rewrite <- K in ND. specialize (H k (nth_error_In _ _ Hk)). rewrite (Y ND (nth_error_In _ _ E1)) in H. congruence. }
  rewrite (Gg d 0 i k (g k)); [reflexivity|rewrite K; exact ND|exact Hn].
Qed.
(* an edge of lag zero is taken for an edge of the largest lag *)
Lemma zero_lag_index p : 0 < p -> list_index p (0 * -1 - 1)%Z = list_index p (- Z.of_nat p * -1 - 1)%Z.
Proof.
  intros H. unfold list_index. change (0 * -1 - 1)%Z with (-1)%Z. destruct (Z.ltb_spec (-1) 0); [|lia]. destruct (Z.ltb_spec (- Z.of_nat p * -1 - 1) 0); [lia|].
  replace (- Z.of_nat p * -1 - 1)%Z with (-1 + Z.of_nat p)%Z by lia. reflexivity.
Qed.
Definition moved (p : nat) (e : sedge T) : sedge T := mkSE (se_from e) (if Z.eqb (se_time e) 0 then - Z.of_nat p else se_time e)%Z (se_to e) (se_value e).
Lemma zero_lag root normal es vs p : 0 < p -> (forall e, In e es -> (se_time e <= 0)%Z) -> largest_lag es p ->
  initial_values zero one add mul sub pinv root normal es vs = initial_values zero one add mul sub pinv root normal (map (moved p) es) vs.
Proof.
  intros Hp Neg LL. unfold initial_values. rewrite (longest_ok es p Neg LL). rewrite (longest_ok (map (moved p) es) p).
  - cbn [rbind]. f_equal. unfold variances, coefficient_matrix, coefficients.
    assert (E : forall l m, rfold (set_coefficient vs p) l m = rfold (set_coefficient vs p) (map (moved p) l) m).
    { induction l as [|e l IH]; intros m; [reflexivity|]. cbn [map rfold]. assert (S : set_coefficient vs p m e = set_coefficient vs p m (moved p e)).
      { unfold set_coefficient, moved. cbn. destruct (Z.eqb_spec (se_time e) 0) as [->|Ne]; [rewrite (zero_lag_index p Hp)|]; reflexivity. }
      rewrite <- S. destruct (set_coefficient vs p m e); [cbn [rbind]; apply IH|reflexivity]. }
    rewrite <- E. reflexivity.
  - intros e He. apply in_map_iff in He. destruct He as (f & <- & Hf). specialize (Neg f Hf). unfold moved. cbn. destruct (Z.eqb_spec (se_time f) 0); lia.
  - destruct LL as [Up (e & He & Le)]. split.
    + intros f Hf. apply in_map_iff in Hf. destruct Hf as (f0 & <- & Hf). specialize (Up f0 Hf). unfold lag, moved in *. cbn. destruct (Z.eqb_spec (se_time f0) 0); lia.
    + exists (moved p e). split; [apply in_map; exact He|]. unfold lag, moved in *. cbn. destruct (Z.eqb_spec (se_time e) 0); lia.
Qed.
End Values.

Section Series.
Context {T : Type}.
Variables zero one : T.
Variables add mul sub : T -> T -> T.
Variable opp : T -> T.
Hypothesis RT : ring_theory zero one add mul sub opp eq.
Add Ring Tring2 : RT.
Notation total := (InitialSpec.total zero add).
Context {V : Type}.
Variables (vzero : V) (vadd vmul : V -> V -> V) (const : T -> V) (cov : V -> V -> T).
Hypothesis CV : covariance zero add mul vzero vadd vmul const cov.
Variables (rnd : nat -> V) (init : string -> V).
Hypothesis WH : white zero one cov rnd init.
Variables (es : list (sedge T)) (vs : list string) (G : string -> string -> Z -> T).
Hypothesis ND : NoDup vs.
Hypothesis Men : forall x, mentioned es x -> In x vs.
Hypothesis Lag1 : forall e, In e es -> se_time e = (-1)%Z.
Hypothesis ST : stationary zero one add mul es vs G.
Hypothesis Ini : forall x y, In x vs -> In y vs -> cov (init x) (init y) = G x y 0%Z.
Variables (size : nat) (d : dict string (list V)).
Hypothesis Cell0 : forall k, In k vs -> cell_at d k 0 = Some (init k).
Hypothesis Auto : forall t j k, 1 <= t < size -> nth_error vs j = Some k -> autoregressive vadd vmul vzero init (with_constants const es) d t k (rnd ((t - 1) * List.length vs + j)).
Definition X (x : string) (t : nat) : V := match cell_at d x t with Some v => v | None => vzero end.

Lemma cov_linear : forall terms start w, cov (linear vadd vmul start terms) w = add (cov start w) (total terms (fun p => cov (vmul (fst p) (snd p)) w)).
Proof.
  induction terms as [|[a b] l IH]; intros start w; [cbn; ring|]. unfold linear in *. cbn [fold_left fst snd]. rewrite IH, (cov_add _ _ _ _ _ _ _ _ CV).
  change (total ((a, b) :: l) (fun p => cov (vmul (fst p) (snd p)) w)) with (add (cov (vmul a b) w) (total l (fun p => cov (vmul (fst p) (snd p)) w))). ring.
Qed.
Lemma incoming_into x : incoming (with_constants const es) x = with_constants const (into es x).
Proof. unfold incoming, into, with_constants. clear. induction es as [|e l IH]; [reflexivity|]. cbn [map filter se_to]. destruct (string_dec (se_to e) x); cbn [map]; [f_equal; exact IH|exact IH]. Qed.
Lemma X_cov t x j w : 1 <= t < size -> nth_error vs j = Some x ->
  cov (X x t) w = add (total (into es x) (fun e => mul (se_value e) (cov (X (se_from e) (t - 1)) w))) (cov (rnd ((t - 1) * List.length vs + j)) w).
Proof.
  intros Ht Hj. destruct (Auto t j x Ht Hj) as (xs & F & E). unfold X at 1. rewrite E. rewrite (cov_add _ _ _ _ _ _ _ _ CV), cov_linear, (cov_zero _ _ _ _ _ _ _ _ CV). f_equal.
  rewrite incoming_into in *. assert (S : forall e, In e (into es x) -> se_time e = (-1)%Z) by (intros e He; apply Lag1; unfold into in He; apply filter_In in He; exact (proj1 He)).
  clear E. revert xs F S. generalize (into es x) as l. induction l as [|e l IH]; intros xs F S; inversion F as [|? y ? ys Ly Ll]; subst; [cbn; ring|].
  specialize (IH ys Ll (fun e' I => S e' (or_intror I))). cbn [with_constants map combine]. 
  match goal with |- add zero (total ((?a, ?b) :: ?r) ?f) = _ => change (total ((a, b) :: r) f) with (add (f (a, b)) (total r f)) end. cbn [fst snd].
  change (total (e :: l) (fun e0 => mul (se_value e0) (cov (X (se_from e0) (t - 1)) w))) with (add (mul (se_value e) (cov (X (se_from e) (t - 1)) w)) (total l (fun e0 => mul (se_value e0) (cov (X (se_from e0) (t - 1)) w)))).
  rewrite <- IH. cbn [se_value]. rewrite (cov_scale _ _ _ _ _ _ _ _ CV). unfold lagged in Ly. cbn [se_time se_from] in Ly. rewrite (S e (or_introl eq_refl)) in Ly. change (Z.abs_nat (-1)) with 1 in Ly.
  destruct (Nat.ltb_spec t 1); [lia|]. unfold X. rewrite Ly. unfold with_constants. ring.
Qed.
Lemma X0 x : In x vs -> X x 0 = init x.
Proof. intros H. unfold X. rewrite (Cell0 x H). reflexivity. Qed.
Lemma into_vs e x : In e (into es x) -> In (se_from e) vs /\ se_to e = x /\ In e es.
Proof.
  intros H. unfold into in H. apply filter_In in H. destruct H as [H1 H2]. destruct (string_dec (se_to e) x); [|discriminate]. repeat split; [|assumption|assumption].
  apply Men. exists x. left. exists e. auto.
Qed.
Lemma tot_zero {A} (l : list A) f : (forall a, In a l -> f a = zero) -> total l f = zero.
Proof. intros H. transitivity (total l (fun _ => zero)); [apply total_ext; exact H|apply (total_zero zero one add mul sub opp RT)]. Qed.
Lemma noise_later : forall s y i, In y vs -> s < size -> s * List.length vs <= i -> cov (X y s) (rnd i) = zero.
Proof.
  induction s as [|s IH]; intros y i Hy Hs Hi; [rewrite X0 by exact Hy; apply (proj2 WH)|]. destruct (In_nth_error vs y Hy) as (j & Hj).
  rewrite (X_cov (S s) y j) by (try exact Hj; lia). assert (B : j < List.length vs) by (apply nth_error_Some; congruence). rewrite (proj1 WH).
  replace (S s - 1) with s by lia. destruct (Nat.eqb_spec (s * List.length vs + j) i); [cbn in Hi; lia|]. rewrite tot_zero; [ring|]. intros e He. destruct (into_vs e y He) as (F & _). rewrite (IH (se_from e) i F) by (cbn in Hi; lia). ring.
Qed.
Lemma later : forall t s x y, s <= t -> t < size -> In x vs -> In y vs -> cov (X x t) (X y s) = G x y (Z.of_nat t - Z.of_nat s)%Z.
Proof.
  induction t as [|t IH]; intros s x y Hs Ht Hx Hy.
  - assert (s = 0) as -> by lia. rewrite !X0 by assumption. apply Ini; assumption.
  - destruct (In_nth_error vs x Hx) as (j & Hj). assert (B : j < List.length vs) by (apply nth_error_Some; congruence). rewrite (X_cov (S t) x j) by (try exact Hj; lia). replace (S t - 1) with t by lia.
    destruct (Nat.eq_dec s (S t)) as [->|Ne].
    + replace (Z.of_nat (S t) - Z.of_nat (S t))%Z with 0%Z by lia. rewrite (st_now _ _ _ _ _ _ _ ST x y Hx Hy). destruct (In_nth_error vs y Hy) as (j' & Hj'). assert (B' : j' < List.length vs) by (apply nth_error_Some; congruence). f_equal.
      * apply total_ext. intros e He. destruct (into_vs e x He) as (F & _ & E1). rewrite (cov_sym _ _ _ _ _ _ _ _ CV). rewrite (X_cov (S t) y j') by (try exact Hj'; lia). replace (S t - 1) with t by lia.
        rewrite (cov_sym _ _ _ _ _ _ _ _ CV (rnd _)), (noise_later t (se_from e)) by (try assumption; lia).
        transitivity (mul (se_value e) (total (into es y) (fun f => mul (se_value f) (cov (X (se_from f) t) (X (se_from e) t))))); [ring|].
        rewrite <- (total_scale zero one add mul sub opp RT). apply total_ext. intros f Hf. destruct (into_vs f y Hf) as (Ff & _ & E2). rewrite (IH t) by (try assumption; lia).
        rewrite (st_sym _ _ _ _ _ _ _ ST) by assumption. unfold lag. rewrite (Lag1 e E1), (Lag1 f E2). replace (- (Z.of_nat t - Z.of_nat t))%Z with (- (-1) - - (-1))%Z by lia. ring.
      * rewrite (cov_sym _ _ _ _ _ _ _ _ CV). rewrite (X_cov (S t) y j') by (try exact Hj'; lia). replace (S t - 1) with t by lia. rewrite tot_zero.
        -- rewrite (proj1 WH). destruct (Nat.eqb_spec (t * List.length vs + j') (t * List.length vs + j)) as [E|E]; destruct (string_dec x y) as [Exy|Exy]; try ring.
           ++ exfalso. apply Exy. assert (j = j') by lia. subst. congruence.
           ++ exfalso. apply E. f_equal. subst y. exact (proj1 (NoDup_nth_error vs) ND j' j B' (eq_trans Hj' (eq_sym Hj))).
        -- intros f Hf. destruct (into_vs f y Hf) as (Ff & _ & E2). rewrite (noise_later t) by (try assumption; lia). ring.
    + rewrite (st_past _ _ _ _ _ _ _ ST x y _ Hx Hy) by lia. rewrite (cov_sym _ _ _ _ _ _ _ _ CV (rnd _)), (noise_later s y) by (try assumption; try lia; assert (s <= t) by lia; nia).
      match goal with |- add ?a zero = _ => transitivity a; [ring|] end. apply total_ext. intros e He. destruct (into_vs e x He) as (F & _ & E1). rewrite (IH s) by (try assumption; lia). f_equal. f_equal. unfold lag. rewrite (Lag1 e E1). lia.
Qed.
Lemma series_cov x y t s a b : In x vs -> In y vs -> t < size -> s < size -> cell_at d x t = Some a -> cell_at d y s = Some b -> cov a b = G x y (Z.of_nat t - Z.of_nat s)%Z.
Proof.
  intros Hx Hy Ht Hs Ea Eb. assert (Xa : X x t = a) by (unfold X; rewrite Ea; reflexivity). assert (Xb : X y s = b) by (unfold X; rewrite Eb; reflexivity). rewrite <- Xa, <- Xb.
  destruct (Nat.le_ge_cases s t) as [L|L]; [apply later; assumption|]. rewrite (cov_sym _ _ _ _ _ _ _ _ CV), later by assumption. rewrite (st_sym _ _ _ _ _ _ _ ST) by assumption. f_equal. lia.
Qed.
End Series.
