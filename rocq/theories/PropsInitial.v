(* Property theorems about the initial values of generated time series (causy/sample_generator.py). *)
From Coq Require Import Ring Setoid QArith Qcanon.
From Verif Require Import Base PyDict PyDictFacts Graph Dag SampleGen SampleSpec SampleFacts SeriesFacts Initial InitialSpec InitialFacts InitialFacts2.
Open Scope string_scope.
Open Scope nat_scope.
Open Scope list_scope.

(* C89: if every edge reaches back in time, no variable has two edges from the same source with the same lag, and
   the pseudo-inverse is an inverse of the system that is solved, then the scale of the initial value of every
   variable is the root of its variance in the stationary process of the edge list. *)
Theorem C89_stationary_variance : forall (T : Type) (zero one : T) (add mul sub : T -> T -> T) (opp : T -> T), ring_theory zero one add mul sub opp eq ->
  forall pinv root normal (es : list (sedge T)) vs p G,
  NoDup vs -> (forall x, mentioned es x -> In x vs) -> (forall e, In e es -> (se_time e < 0)%Z) -> distinct_edges es -> largest_lag es p ->
  inverts zero one add mul pinv (p * List.length vs * (p * List.length vs)) (minus_action zero one mul sub (p * List.length vs) (transition zero one add es vs)) ->
  stationary zero one add mul es vs G ->
  exists d, initial_values zero one add mul sub pinv root normal es vs = Ok d /\ dkeys d = vs /\
    forall i k, nth_error vs i = Some k -> dget d k = Some (normal i (root (G k k 0%Z))).
Proof.
  intros T zero one add mul sub opp RT pinv root normal es vs p G ND Men Neg Dist LL Inv ST.
  assert (Hp : 0 < p) by (destruct LL as [_ (e & He & Le)]; specialize (Neg e He); unfold lag in Le; lia).
  assert (U : forall e, In e es -> usable vs p e).
  { intros e He. split; [|split].
    - apply Men. exists (se_to e). left. exists e. auto.
    - apply Men. exists (se_from e). right. exists e. auto.
    - specialize (Neg e He). assert (X := proj1 LL e He). unfold lag in *. lia. }
  destruct (variances_ok zero one add mul sub opp RT es vs p ND U Dist Hp G ST pinv Inv) as (d & E & K & H).
  apply (values_of_variances zero one add mul sub pinv root normal es vs p d (fun k => G k k 0%Z) ND); try assumption.
  apply longest_ok; [|exact LL]. intros e He. specialize (Neg e He). lia.
Qed.
Print Assumptions C89_stationary_variance.

(* an edge between values at the same time is treated as if it had the largest lag *)
Theorem C89_same_time : forall (T : Type) (zero one : T) (add mul sub : T -> T -> T) pinv root normal (es : list (sedge T)) vs p,
  0 < p -> (forall e, In e es -> (se_time e <= 0)%Z) -> largest_lag es p ->
  initial_values zero one add mul sub pinv root normal es vs =
  initial_values zero one add mul sub pinv root normal
    (map (fun e => mkSE (se_from e) (if Z.eqb (se_time e) 0 then - Z.of_nat p else se_time e)%Z (se_to e) (se_value e)) es) vs.
Proof. intros. apply zero_lag; assumption. Qed.
Print Assumptions C89_same_time.
Theorem C89_no_edges : forall (T : Type) (zero one : T) (add mul sub : T -> T -> T) pinv root normal vs,
  initial_values zero one add mul sub pinv root normal [] vs = Err ValueError.
Proof. reflexivity. Qed.
Print Assumptions C89_no_edges.

(* C90: a series with lags of one step, started with initial values that have the covariances of the stationary
   process, has the covariances of the stationary process everywhere. *)
Theorem C90_stays_stationary : forall (T : Type) (zero one : T) (add mul sub : T -> T -> T) (opp : T -> T), ring_theory zero one add mul sub opp eq ->
  forall (V : Type) (vzero : V) vadd vmul const cov rnd init (es : list (sedge T)) vs G size,
  covariance zero add mul vzero vadd vmul const cov -> white zero one cov rnd init ->
  NoDup vs -> (forall x, mentioned es x -> In x vs) -> (forall e, In e es -> se_time e = (-1)%Z) -> 1 <= size ->
  stationary zero one add mul es vs G -> (forall x y, In x vs -> In y vs -> cov (init x) (init y) = G x y 0%Z) ->
  exists d, generate_series vadd vmul rnd vzero init (with_constants const es) vs size = Ok d /\ dkeys d = vs /\
    forall x y t s, In x vs -> In y vs -> t < size -> s < size ->
      exists a b, cell_at d x t = Some a /\ cell_at d y s = Some b /\ cov a b = G x y (Z.of_nat t - Z.of_nat s)%Z.
Proof.
  intros T zero one add mul sub opp RT V vzero vadd vmul const cov rnd init es vs G size CV WH ND Men Lag Hs ST Ini.
  destruct (series_ok vadd vmul rnd vzero init (with_constants const es) vs ND) with (size := size) as (d & E & K & Len & C0 & Au).
  - intros x (y & [(e & He & E1 & E2)|(e & He & E1 & E2)]); apply in_map_iff in He; destruct He as (f & <- & Hf); cbn in *; apply Men; exists y; [left|right]; exists f; auto.
  - intros e He. apply in_map_iff in He. destruct He as (f & <- & Hf). cbn. rewrite (Lag f Hf). lia.
  - exact Hs.
  - exists d. split; [exact E|]. split; [exact K|]. intros x y t s Hx Hy Ht Hs'.
    destruct (Len x Hx) as (c1 & D1 & L1). destruct (Len y Hy) as (c2 & D2 & L2).
    destruct (nth_error c1 t) as [a|] eqn:Na; [|apply nth_error_None in Na; lia]. destruct (nth_error c2 s) as [b|] eqn:Nb; [|apply nth_error_None in Nb; lia].
    assert (Ca : cell_at d x t = Some a) by (unfold cell_at; rewrite D1; exact Na). assert (Cb : cell_at d y s = Some b) by (unfold cell_at; rewrite D2; exact Nb).
    exists a, b. split; [exact Ca|]. split; [exact Cb|].
    eapply series_cov with (zero := zero) (one := one) (add := add) (mul := mul) (sub := sub) (opp := opp) (rnd := rnd) (init := init) (es := es) (vs := vs) (size := size) (d := d); eassumption.
Qed.
Print Assumptions C90_stays_stationary.

(* The generator draws the initial values independently with the variances of C89.  If in the stationary process
   different variables are uncorrelated at the same time, the series is stationary. *)
Theorem C90_generated_partial : forall (T : Type) (zero one : T) (add mul sub : T -> T -> T) (opp : T -> T), ring_theory zero one add mul sub opp eq ->
  forall (V : Type) (vzero : V) vadd vmul const cov rnd init pinv (es : list (sedge T)) vs G size vars,
  covariance zero add mul vzero vadd vmul const cov -> white zero one cov rnd init ->
  NoDup vs -> (forall x, mentioned es x -> In x vs) -> (forall e, In e es -> se_time e = (-1)%Z) -> distinct_edges es -> es <> [] -> 1 <= size ->
  inverts zero one add mul pinv (List.length vs * List.length vs) (minus_action zero one mul sub (List.length vs) (transition zero one add es vs)) ->
  variances zero one add mul sub pinv es vs 1 = Ok vars ->
  (forall x, In x vs -> dget vars x = Some (cov (init x) (init x))) -> (forall x y, In x vs -> In y vs -> x <> y -> cov (init x) (init y) = zero) ->
  stationary zero one add mul es vs G -> (forall x y, In x vs -> In y vs -> x <> y -> G x y 0%Z = zero) ->
  exists d, generate_series vadd vmul rnd vzero init (with_constants const es) vs size = Ok d /\ dkeys d = vs /\
    forall x y t s, In x vs -> In y vs -> t < size -> s < size ->
      exists a b, cell_at d x t = Some a /\ cell_at d y s = Some b /\ cov a b = G x y (Z.of_nat t - Z.of_nat s)%Z.
Proof.
  intros T zero one add mul sub opp RT V vzero vadd vmul const cov rnd init pinv es vs G size vars CV WH ND Men Lag Dist Ne Hs Inv Va Ix Ixy ST Gxy.
  eapply C90_stays_stationary; try eassumption. intros x y Hx Hy. destruct (string_dec x y) as [<-|Nxy]; [|rewrite (Ixy x y Hx Hy Nxy), (Gxy x y Hx Hy Nxy); reflexivity].
  assert (U : forall e, In e es -> usable vs 1 e).
  { intros e He. split; [|split].
    - apply Men. exists (se_to e). left. exists e. auto.
    - apply Men. exists (se_from e). right. exists e. auto.
    - unfold lag. rewrite (Lag e He). lia. }
  destruct (variances_ok zero one add mul sub opp RT es vs 1 ND U Dist ltac:(lia) G ST pinv) as (d & E & K & H).
  - rewrite Nat.mul_1_l. exact Inv.
  - rewrite Va in E. injection E as ->. specialize (Ix x Hx). rewrite (H x Hx) in Ix. congruence.
Qed.
Print Assumptions C90_generated_partial.

(* random variables for the examples: a constant and the coefficients of independent variables with variances w 0, w 1, ... *)
Definition form : Type := Qc * list Qc.
Fixpoint padd (a b : list Qc) : list Qc :=
  match a, b with x :: a', y :: b' => (x + y)%Qc :: padd a' b' | [], _ => b | _, [] => a end.
Definition fadd (a b : form) : form := ((fst a + fst b)%Qc, padd (snd a) (snd b)).
Definition fmul (a b : form) : form := ((fst a * fst b)%Qc, map (Qcmult (fst a)) (snd b)).
Definition fconst (q : Qc) : form := (q, []).
Fixpoint dot (w : nat -> Qc) (i : nat) (a b : list Qc) : Qc :=
  match a, b with x :: a', y :: b' => (w i * (x * y) + dot w (S i) a' b')%Qc | _, _ => 0%Qc end.
Definition fcov (w : nat -> Qc) (a b : form) : Qc := dot w 0 (snd a) (snd b).
Definition unit_form (i : nat) : form := (0%Qc, repeat 0%Qc i ++ [1%Qc]).
Lemma fcov_ok w : covariance 0%Qc Qcplus Qcmult (fconst 0%Qc) fadd fmul fconst (fcov w).
Proof.
  assert (Nil : forall a i, dot w i a [] = 0%Qc) by (intros [|] i; reflexivity). split; unfold fcov; cbn [fst snd fconst fadd fmul].
  - intros [? a] [? b]. cbn [snd]. generalize 0. revert b. induction a as [|x a IH]; intros [|y b] i; cbn; try reflexivity. rewrite IH. ring.
  - reflexivity.
  - intros [? a] [? b] [? c]. cbn [snd]. generalize 0. revert b c. induction a as [|x a IH]; intros [|y b] [|z c] i; cbn; try ring. rewrite IH. ring.
  - intros q [? a] [? b]. cbn [snd]. generalize 0. revert b. induction a as [|x a IH]; intros [|y b] i; cbn; try ring. rewrite IH. ring.
Qed.
Lemma dot_zeros w : forall a k i, dot w i (repeat 0%Qc k) a = 0%Qc.
Proof. intros a k; revert a; induction k as [|k IH]; intros [|x a] i; cbn; try reflexivity. rewrite IH. ring. Qed.
Lemma unit_cov w i j : fcov w (unit_form i) (unit_form j) = if Nat.eqb i j then w i else 0%Qc.
Proof.
  unfold fcov, unit_form. cbn [snd]. assert (H : forall i j k, dot w k (repeat 0%Qc i ++ [1%Qc]) (repeat 0%Qc j ++ [1%Qc]) = if Nat.eqb i j then w (k + i) else 0%Qc).
  { clear. induction i as [|i IH]; intros [|j] k; cbn [repeat app dot Nat.eqb].
    - rewrite Nat.add_0_r. ring.
    - destruct (repeat 0%Qc j ++ [1%Qc]); cbn; ring.
    - destruct (repeat 0%Qc i ++ [1%Qc]); cbn; ring.
    - rewrite IH. rewrite Nat.add_succ_r. cbn [Nat.add]. destruct (Nat.eqb i j); ring. }
  exact (H i j 0).
Qed.
(* the initial value of the i-th of m variables and the noise *)
Definition draw (vs : list string) (x : string) : form := match position vs x with Some i => unit_form i | None => fconst 0%Qc end.
Definition noises (m i : nat) : form := unit_form (m + i).
Definition weights (l : list Qc) (i : nat) : Qc := nth i l 1%Qc.
Lemma draws_white vs l : List.length l = List.length vs -> white 0%Qc 1%Qc (fcov (weights l)) (noises (List.length vs)) (draw vs).
Proof.
  intros L. split.
  - intros i j. unfold noises. rewrite unit_cov. destruct (Nat.eqb_spec (List.length vs + i) (List.length vs + j)); destruct (Nat.eqb_spec i j); try lia; [|reflexivity].
    unfold weights. apply nth_overflow. lia.
  - intros x i. unfold draw, noises. destruct (position vs x) as [j|] eqn:P; [|reflexivity]. apply position_some in P. rewrite unit_cov. destruct (Nat.eqb_spec j (List.length vs + i)); [lia|reflexivity].
Qed.
Lemma draws_independent vs l x y : x <> y -> fcov (weights l) (draw vs x) (draw vs y) = 0%Qc.
Proof.
  intros Ne. unfold draw. destruct (position vs x) as [i|] eqn:P; [|reflexivity]. destruct (position vs y) as [j|] eqn:Q; [|destruct (unit_form i) as [? [|]]; reflexivity].
  rewrite unit_cov. destruct (Nat.eqb_spec i j) as [->|]; [|reflexivity]. apply position_some in P. apply position_some in Q. destruct P as [_ P], Q as [_ Q]. congruence.
Qed.
Definition q (a : Z) (b : positive) : Qc := Q2Qc (a # b).
Definition Qc_variances (pinv : nat -> (nat -> nat -> Qc) -> nat -> nat -> Qc) := variances 0%Qc 1%Qc Qcplus Qcmult Qcminus pinv.
Definition Qc_inverts := inverts 0%Qc 1%Qc Qcplus Qcmult.
Definition Qc_system (es : list (sedge Qc)) (vs : list string) (p : nat) := minus_action 0%Qc 1%Qc Qcmult Qcminus (p * List.length vs) (transition 0%Qc 1%Qc Qcplus es vs).
Definition rows (b : list (list Qc)) (i j : nat) : Qc := nth j (nth i b []) 0%Qc.

(* two variables that depend on their own past only *)
Definition es_own : list (sedge Qc) := [mkSE "X" (-1) "X" (q 1 2); mkSE "Y" (-1) "Y" (q 1 2)].
Definition inv_own : nat -> (nat -> nat -> Qc) -> nat -> nat -> Qc := fun _ _ i j => if Nat.eqb i j then q 4 3 else 0%Qc.
Definition G_own (x y : string) (h : Z) : Qc := if string_dec x y then (q 4 3 * q 1 2 ^ Z.abs_nat h)%Qc else 0%Qc.
Lemma own_stationary : stationary 0%Qc 1%Qc Qcplus Qcmult es_own ["X"; "Y"] G_own.
Proof.
  assert (P : forall h, (0 < h)%Z -> (q 1 2 ^ Z.abs_nat h)%Qc = (q 1 2 * q 1 2 ^ Z.abs_nat (h - 1))%Qc).
  { intros h Hh. replace (Z.abs_nat h) with (S (Z.abs_nat (h - 1))) by lia. reflexivity. }
  split.
  - intros x y h _ _. unfold G_own. replace (Z.abs_nat (- h)) with (Z.abs_nat h) by lia. destruct (string_dec x y); destruct (string_dec y x); congruence.
  - intros x y [<-|[<-|[]]] [<-|[<-|[]]]; apply Qc_is_canon; vm_compute; reflexivity.
  - intros x y h Hx Hy Hh. unfold G_own. rewrite (P h Hh). destruct Hx as [<-|[<-|[]]]; destruct Hy as [<-|[<-|[]]];
        unfold InitialSpec.total, into, lag; cbn; ring.
Qed.

Ltac small := repeat match goal with H : ?i < S ?n |- _ => destruct i as [|i]; [clear H|apply Nat.succ_lt_mono in H] | H : ?i < 0 |- _ => exfalso; inversion H end.
Ltac inverse_by_computation :=
  let m := fresh in let E := fresh in let i := fresh "i" in let j := fresh "j" in let Hi := fresh in let Hj := fresh in
  intros m E i j Hi Hj; clear E; cbn in Hi, Hj; small; apply Qc_is_canon; vm_compute; reflexivity.
Lemma found_by_computation (a : option Qc) (b : Qc) : match a with Some x => Qc_eq_bool x b | None => false end = true -> a = Some b.
Proof. destruct a as [x|]; [|discriminate]. intros H. apply Qc_eq_bool_correct in H. congruence. Qed.
Lemma own_inverts : Qc_inverts inv_own 4 (Qc_system es_own ["X"; "Y"] 1).
Proof. inverse_by_computation. Qed.
Lemma own_mentioned x : mentioned es_own x -> In x ["X"; "Y"].
Proof. intros (y & [(e & [<-|[<-|[]]] & E1 & E2)|(e & [<-|[<-|[]]] & E1 & E2)]); cbn in *; auto. Qed.
Lemma own_facts : NoDup ["X"; "Y"] /\ (forall e, In e es_own -> se_time e = (-1)%Z) /\ distinct_edges es_own /\ largest_lag es_own 1.
Proof.
  split; [repeat constructor; cbn; intuition discriminate|]. split; [intros e [<-|[<-|[]]]; reflexivity|]. split; [repeat constructor; cbn; intuition discriminate|].
  split; [intros e [<-|[<-|[]]]; cbn; lia|]. eexists. split; [left; reflexivity|reflexivity].
Qed.
Example C89_nonvacuous : NoDup ["X"; "Y"] /\ (forall x, mentioned es_own x -> In x ["X"; "Y"]) /\ distinct_edges es_own /\ largest_lag es_own 1 /\
  Qc_inverts inv_own (1 * 2 * (1 * 2)) (Qc_system es_own ["X"; "Y"] 1) /\ stationary 0%Qc 1%Qc Qcplus Qcmult es_own ["X"; "Y"] G_own /\
  exists d v, initial_values 0%Qc 1%Qc Qcplus Qcmult Qcminus inv_own (fun x => x) (fun _ x => x) es_own ["X"; "Y"] = Ok d /\ dget d "Y" = Some v /\ v = q 4 3.
Proof.
  destruct own_facts as (A & B & C & D). split; [exact A|]. split; [exact own_mentioned|]. split; [exact C|]. split; [exact D|]. split; [exact own_inverts|]. split; [exact own_stationary|].
  eexists. eexists. split; [reflexivity|]. split; [reflexivity|]. apply Qc_is_canon. vm_compute. reflexivity.
Qed.
Example C89_same_time_nonvacuous : largest_lag [mkSE "X" (-2) "X" (q 1 2); mkSE "X" 0 "Y" (q 1 2)] 2 /\
  (forall e, In e [mkSE "X" (-2) "X" (q 1 2); mkSE "X" 0 "Y" (q 1 2)] -> (se_time e <= 0)%Z).
Proof. split; [split; [intros e [<-|[<-|[]]]; cbn; lia|eexists; split; [left; reflexivity|reflexivity]]|intros e [<-|[<-|[]]]; cbn; lia]. Qed.
Example C90_nonvacuous : covariance 0%Qc Qcplus Qcmult (fconst 0%Qc) fadd fmul fconst (fcov (weights [q 4 3; q 4 3])) /\
  white 0%Qc 1%Qc (fcov (weights [q 4 3; q 4 3])) (noises 2) (draw ["X"; "Y"]) /\
  (exists vars, Qc_variances inv_own es_own ["X"; "Y"] 1 = Ok vars /\
    forall x, In x ["X"; "Y"] -> dget vars x = Some (fcov (weights [q 4 3; q 4 3]) (draw ["X"; "Y"] x) (draw ["X"; "Y"] x))) /\
  (forall x y, In x ["X"; "Y"] -> In y ["X"; "Y"] -> x <> y -> fcov (weights [q 4 3; q 4 3]) (draw ["X"; "Y"] x) (draw ["X"; "Y"] y) = 0%Qc /\ G_own x y 0%Z = 0%Qc).
Proof.
  split; [apply fcov_ok|]. split; [exact (draws_white ["X"; "Y"] [q 4 3; q 4 3] eq_refl)|]. split.
  - eexists. split; [reflexivity|]. intros x [<-|[<-|[]]]; apply found_by_computation; vm_compute; reflexivity.
  - intros x y _ _ Ne. split; [apply draws_independent; exact Ne|]. unfold G_own. destruct (string_dec x y); [contradiction|reflexivity].
Qed.

(* two edges from the same source with the same lag: the series uses their sum, the initial values the last one *)
Definition es_twice : list (sedge Qc) := [mkSE "X" (-1) "X" (q 1 4); mkSE "X" (-1) "X" (q 1 4)].
Definition inv1 : nat -> (nat -> nat -> Qc) -> nat -> nat -> Qc := fun _ m _ _ => (/ m O O)%Qc.
Definition G_twice (x y : string) (h : Z) : Qc := (q 4 3 * q 1 2 ^ Z.abs_nat h)%Qc.
Theorem C89_repeated_edges_refuted : exists (es : list (sedge Qc)) vs pinv G d v, NoDup vs /\ (forall x, mentioned es x -> In x vs) /\ (forall e, In e es -> se_time e = (-1)%Z) /\
  (forall m, m 0 0 <> 0%Qc -> left_inverse 0%Qc 1%Qc Qcplus Qcmult 1 (pinv 1 m) m) /\ stationary 0%Qc 1%Qc Qcplus Qcmult es vs G /\
  initial_values 0%Qc 1%Qc Qcplus Qcmult Qcminus pinv (fun x => x) (fun _ x => x) es vs = Ok d /\ vs = ["X"] /\ dget d "X" = Some v /\ v <> G "X" "X" 0%Z.
Proof.
  exists es_twice, ["X"], inv1, G_twice. eexists. eexists. split; [repeat constructor; cbn; tauto|]. split; [|split; [|split; [|split]]].
  - intros x (y & [(e & [<-|[<-|[]]] & E1 & E2)|(e & [<-|[<-|[]]] & E1 & E2)]); cbn in *; auto.
  - intros e [<-|[<-|[]]]; reflexivity.
  - intros m Hm [|i] [|j] Hi Hj; try lia. cbn. unfold inv1. field. exact Hm.
  - split.
    + intros x y h _ _. unfold G_twice. replace (Z.abs_nat (- h)) with (Z.abs_nat h) by lia. reflexivity.
    + intros x y [<-|[]] [<-|[]]; apply Qc_is_canon; vm_compute; reflexivity.
    + intros x y h [<-|[]] [<-|[]] Hh. unfold G_twice. replace (Z.abs_nat h) with (S (Z.abs_nat (h - 1))) by lia. unfold InitialSpec.total, into, lag. cbn -[q].
      replace (q 1 2) with (q 1 4 + q 1 4)%Qc at 1 by (apply Qc_is_canon; vm_compute; reflexivity). ring.
  - split; [reflexivity|]. split; [reflexivity|]. split; [reflexivity|]. intros X. apply (f_equal (fun c => Qc_eq_bool c (q 4 3))) in X. vm_compute in X. discriminate.
Qed.
Print Assumptions C89_repeated_edges_refuted.

(* The initial values are drawn independently of each other: when one variable depends on another one, the series
   is not stationary; nor is it when an edge reaches back two steps. *)
Definition es_cross : list (sedge Qc) := [mkSE "X" (-1) "X" (q 1 2); mkSE "X" (-1) "Y" (q 1 1); mkSE "Y" (-1) "Y" (q 1 2)].
Definition inv_cross : nat -> (nat -> nat -> Qc) -> nat -> nat -> Qc :=
  fun _ _ => rows [[q 4 3; q 0 1; q 0 1; q 0 1]; [q 8 9; q 4 3; q 0 1; q 0 1]; [q 8 9; q 0 1; q 4 3; q 0 1]; [q 80 27; q 8 9; q 8 9; q 4 3]].
Definition es_long : list (sedge Qc) := [mkSE "X" (-1) "X" (q 1 2); mkSE "X" (-2) "X" (q 1 4)].
Definition inv_long : nat -> (nat -> nat -> Qc) -> nat -> nat -> Qc :=
  fun _ _ => rows [[q 48 25; q 8 25; q 8 25; q 3 25]; [q 32 25; q 32 25; q 12 25; q 2 25]; [q 32 25; q 12 25; q 32 25; q 2 25]; [q 48 25; q 8 25; q 8 25; q 28 25]].
(* the variances of an entry at time 0 and at time 1 differ *)
Definition drifts (es : list (sedge Qc)) (vs : list string) (p : nat) : Prop :=
  exists pinv vars (cov : form -> form -> Qc) rnd init d x a b,
  NoDup vs /\ (forall x, mentioned es x -> In x vs) /\ (forall e, In e es -> (se_time e < 0)%Z) /\ distinct_edges es /\ largest_lag es p /\
  Qc_inverts pinv (p * List.length vs * (p * List.length vs)) (Qc_system es vs p) /\ Qc_variances pinv es vs p = Ok vars /\
  covariance 0%Qc Qcplus Qcmult (fconst 0%Qc) fadd fmul fconst cov /\ white 0%Qc 1%Qc cov rnd init /\
  (forall x, In x vs -> dget vars x = Some (cov (init x) (init x))) /\ (forall x y, In x vs -> In y vs -> x <> y -> cov (init x) (init y) = 0%Qc) /\
  generate_series fadd fmul rnd (fconst 0%Qc) init (with_constants fconst es) vs 2 = Ok d /\
  cell_at d x 0 = Some a /\ cell_at d x 1 = Some b /\ cov a a <> cov b b.
Theorem C90_dependent_variables_refuted : exists es vs, (forall e, In e es -> se_time e = (-1)%Z) /\ drifts es vs 1.
Proof.
  exists es_cross, ["X"; "Y"]. split; [intros e [<-|[<-|[<-|[]]]]; reflexivity|]. exists inv_cross. eexists. exists (fcov (weights [q 4 3; q 116 27])), (noises 2), (draw ["X"; "Y"]). eexists. exists "Y". eexists. eexists.
  split; [repeat constructor; cbn; intuition discriminate|]. split; [intros x (y & [(e & [<-|[<-|[<-|[]]]] & E1 & E2)|(e & [<-|[<-|[<-|[]]]] & E1 & E2)]); cbn in *; auto|].
  split; [intros e [<-|[<-|[<-|[]]]]; cbn; lia|]. split; [repeat constructor; cbn; intuition discriminate|]. split; [split; [intros e [<-|[<-|[<-|[]]]]; cbn; lia|eexists; split; [left; reflexivity|reflexivity]]|].
  split; [inverse_by_computation|]. split; [reflexivity|]. split; [apply fcov_ok|]. split; [exact (draws_white ["X"; "Y"] [q 4 3; q 116 27] eq_refl)|].
  split; [intros x [<-|[<-|[]]]; apply found_by_computation; vm_compute; reflexivity|]. split; [intros; apply draws_independent; assumption|].
  split; [reflexivity|]. split; [reflexivity|]. split; [reflexivity|]. intros X. apply (f_equal (fun c => Qc_eq_bool c (q 116 27))) in X. vm_compute in X. discriminate.
Qed.
Print Assumptions C90_dependent_variables_refuted.
Theorem C90_longer_lags_refuted : exists es vs, List.length vs = 1 /\ drifts es vs 2.
Proof.
  exists es_long, ["X"]. split; [reflexivity|]. exists inv_long. eexists. exists (fcov (weights [q 48 25])), (noises 1), (draw ["X"]). eexists. exists "X". eexists. eexists.
  split; [repeat constructor; cbn; intuition discriminate|]. split; [intros x (y & [(e & [<-|[<-|[]]] & E1 & E2)|(e & [<-|[<-|[]]] & E1 & E2)]); cbn in *; auto|].
  split; [intros e [<-|[<-|[]]]; cbn; lia|]. split; [repeat constructor; cbn; intuition discriminate|]. split; [split; [intros e [<-|[<-|[]]]; cbn; lia|eexists; split; [right; left; reflexivity|reflexivity]]|].
  split; [inverse_by_computation|]. split; [reflexivity|]. split; [apply fcov_ok|]. split; [exact (draws_white ["X"] [q 48 25] eq_refl)|].
  split; [intros x [<-|[]]; apply found_by_computation; vm_compute; reflexivity|]. split; [intros; apply draws_independent; assumption|].
  split; [reflexivity|]. split; [reflexivity|]. split; [reflexivity|]. intros X. apply (f_equal (fun c => Qc_eq_bool c (q 48 25))) in X. vm_compute in X. discriminate.
Qed.
Print Assumptions C90_longer_lags_refuted.
