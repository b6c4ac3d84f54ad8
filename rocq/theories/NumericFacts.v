(* Proofs about the numeric formulas. *)
From Coq Require Import Reals List Lia Lra Psatz.
From Verif Require Import Numeric NumericSpec.
Import ListNotations.
Open Scope R_scope.

(* ---- finite sums ---- *)
Lemma sumn_ext n f g : (forall k, (k < n)%nat -> f k = g k) -> sumn n f = sumn n g.
Proof. induction n as [|n IH]; intros H; cbn; [reflexivity|]. rewrite IH, (H n) by (auto with arith; intros; apply H; lia). reflexivity. Qed.
Lemma sumn_plus n f g : sumn n (fun k => f k + g k) = sumn n f + sumn n g.
Proof. induction n as [|n IH]; cbn; [lra|]. rewrite IH. lra. Qed.
Lemma sumn_scale n c f : sumn n (fun k => c * f k) = c * sumn n f.
Proof. induction n as [|n IH]; cbn; [lra|]. rewrite IH. lra. Qed.
Lemma sumn_minus n f g : sumn n (fun k => f k - g k) = sumn n f - sumn n g.
Proof. induction n as [|n IH]; cbn; [lra|]. rewrite IH. lra. Qed.
Lemma sumn_zero n : sumn n (fun _ => 0) = 0.
Proof. induction n as [|n IH]; cbn; lra. Qed.
Lemma sumn_const n c : sumn n (fun _ => c) = INR n * c.
Proof. induction n as [|n IH]; [cbn; lra|]. cbn [sumn]. rewrite IH, S_INR. lra. Qed.
Lemma sumn_swap n m f : sumn n (fun i => sumn m (fun j => f i j)) = sumn m (fun j => sumn n (fun i => f i j)).
Proof. induction n as [|n IH]; cbn [sumn]; [symmetry; apply sumn_zero|]. rewrite IH, <- sumn_plus. reflexivity. Qed.
Lemma sumn_shift n f : sumn (S n) f = f 0%nat + sumn n (fun k => f (S k)).
Proof. induction n as [|n IH]; cbn [sumn]; [lra|]. cbn [sumn] in IH. rewrite IH. lra. Qed.
Lemma sumn_single n i (f : nat -> R) : (i < n)%nat -> (forall k, (k < n)%nat -> k <> i -> f k = 0) -> sumn n f = f i.
Proof.
  induction n as [|n IH]; intros Hi H; [lia|]. cbn [sumn]. destruct (Nat.eq_dec i n) as [->|N].
  - rewrite (sumn_ext n f (fun _ => 0)), sumn_zero by (intros k Hk; apply H; lia). lra.
  - rewrite IH by (try lia; intros k Hk Ne; apply H; lia). rewrite (H n) by lia. lra.
Qed.
Lemma sumn_nonneg n f : (forall k, (k < n)%nat -> 0 <= f k) -> 0 <= sumn n f.
Proof. induction n as [|n IH]; intros H; cbn; [lra|]. assert (0 <= sumn n f) by (apply IH; intros; apply H; lia). assert (0 <= f n) by (apply H; lia). lra. Qed.
Lemma sumn_pos_zero n f : (forall k, (k < n)%nat -> 0 <= f k) -> sumn n f = 0 -> forall k, (k < n)%nat -> f k = 0.
Proof.
  induction n as [|n IH]; intros H E k Hk; [lia|]. cbn in E. assert (A : 0 <= sumn n f) by (apply sumn_nonneg; intros; apply H; lia). assert (B : 0 <= f n) by (apply H; lia).
  destruct (Nat.eq_dec k n) as [->|N]; [lra|]. apply IH; [intros; apply H; lia|lra|lia].
Qed.

(* ---- inner products of vectors given as functions ---- *)
Definition ip (n : nat) (f g : nat -> R) : R := sumn n (fun t => f t * g t).
Lemma ip_sym n f g : ip n f g = ip n g f.
Proof. apply sumn_ext. intros; lra. Qed.
Lemma ip_ext n f f' g g' : (forall t, (t < n)%nat -> f t = f' t) -> (forall t, (t < n)%nat -> g t = g' t) -> ip n f g = ip n f' g'.
Proof. intros H1 H2. apply sumn_ext. intros t Ht. rewrite H1, H2 by exact Ht. reflexivity. Qed.
Lemma ip_scale n c f g : ip n (fun t => c * f t) g = c * ip n f g.
Proof. unfold ip. rewrite <- sumn_scale. apply sumn_ext. intros; lra. Qed.
Lemma ip_plus n f f' g : ip n (fun t => f t + f' t) g = ip n f g + ip n f' g.
Proof. unfold ip. rewrite <- sumn_plus. apply sumn_ext. intros; lra. Qed.
Lemma ip_minus n f f' g : ip n (fun t => f t - f' t) g = ip n f g - ip n f' g.
Proof. unfold ip. rewrite <- sumn_minus. apply sumn_ext. intros; lra. Qed.
Lemma ip_comb n m c (F : nat -> nat -> R) g : ip n (fun t => sumn m (fun k => c k * F k t)) g = sumn m (fun k => c k * ip n (F k) g).
Proof.
  unfold ip. rewrite (sumn_ext n _ (fun t => sumn m (fun k => c k * (F k t * g t)))).
  - rewrite sumn_swap. apply sumn_ext. intros k _. apply sumn_scale.
  - intros t _. rewrite Rmult_comm, <- sumn_scale. apply sumn_ext. intros; lra.
Qed.
Lemma ip_nonneg n f : 0 <= ip n f f.
Proof. apply sumn_nonneg. intros; nra. Qed.
Lemma ip_zero n f : ip n f f = 0 -> forall t, (t < n)%nat -> f t = 0.
Proof. intros H t Ht. assert (X := sumn_pos_zero n (fun t => f t * f t) (fun k _ => Rle_0_sqr (f k)) H t Ht). cbn in X. nra. Qed.
Lemma ip_zero_l n f g : ip n f f = 0 -> ip n f g = 0.
Proof. intros H. unfold ip. rewrite (sumn_ext n _ (fun _ => 0)); [apply sumn_zero|]. intros t Ht. rewrite (ip_zero n f H t Ht). lra. Qed.
Lemma ip_pos n f g : ip n f g <> 0 -> 0 < ip n f f.
Proof. intros H. assert (A := ip_nonneg n f). destruct (Req_dec (ip n f f) 0) as [E|E]; [|lra]. elim H. apply ip_zero_l; exact E. Qed.
Lemma ip_sq n f g c : ip n (fun t => f t - c * g t) (fun t => f t - c * g t) = ip n f f - (2 * c) * ip n f g + (c * c) * ip n g g.
Proof. unfold ip. rewrite <- !sumn_scale, <- sumn_minus, <- sumn_plus. apply sumn_ext. intros; ring. Qed.
(* Cauchy-Schwarz *)
Lemma cauchy n f g : ip n f g * ip n f g <= ip n f f * ip n g g.
Proof.
  destruct (Req_dec (ip n g g) 0) as [E|E].
  - rewrite (ip_sym n f g), (ip_zero_l n g f E), E. lra.
  - assert (P : 0 < ip n g g) by (assert (X := ip_nonneg n g); lra).
    set (c := ip n f g / ip n g g). assert (Q := ip_nonneg n (fun t => f t - c * g t)). rewrite ip_sq in Q.
    assert (CE : c * ip n g g = ip n f g) by (unfold c; field; lra).
    replace (ip n f f - 2 * c * ip n f g + c * c * ip n g g) with (ip n f f - c * ip n f g) in Q by (rewrite <- CE; ring).
    apply (Rmult_le_compat_r (ip n g g)) in Q; [|lra]. rewrite Rmult_0_l in Q.
    replace ((ip n f f - c * ip n f g) * ip n g g) with (ip n f f * ip n g g - (c * ip n g g) * ip n f g) in Q by ring. rewrite CE in Q. lra.
Qed.

(* ---- the correlation of residuals and the precision matrix ---- *)
Section Matrix.
Variables (n m : nat) (s : R) (X : nat -> nat -> R) (P : nat -> nat -> R).
Hypothesis Hs : 0 < s.
Hypothesis Hm : (2 <= m)%nat.
Hypothesis Inv : forall i j, (i < m)%nat -> (j < m)%nat -> sumn m (fun k => P i k * (ip n (X k) (X j) * s)) = if Nat.eq_dec i j then 1 else 0.
Definition W (i : nat) : nat -> R := fun t => sumn m (fun k => P i k * X k t).
Lemma W_X i j : (i < m)%nat -> (j < m)%nat -> ip n (W i) (X j) * s = if Nat.eq_dec i j then 1 else 0.
Proof.
  intros Hi Hj. unfold W. rewrite ip_comb. rewrite <- (Inv i j Hi Hj), Rmult_comm, <- sumn_scale. apply sumn_ext. intros; lra.
Qed.
Lemma W_W i j : (i < m)%nat -> (j < m)%nat -> ip n (W i) (W j) * s = P i j.
Proof.
  intros Hi Hj. unfold W at 1. rewrite ip_comb, Rmult_comm, <- sumn_scale. rewrite (sumn_single m j).
  - replace (s * (P i j * ip n (X j) (W j))) with (P i j * (ip n (W j) (X j) * s)) by (rewrite (ip_sym n (X j)); ring). rewrite W_X by assumption. destruct (Nat.eq_dec j j); [lra|congruence].
  - exact Hj.
  - intros k Hk Ne. replace (s * (P i k * ip n (X k) (W j))) with (P i k * (ip n (W j) (X k) * s)) by (rewrite (ip_sym n (X k)); ring). rewrite W_X by assumption. destruct (Nat.eq_dec j k); [congruence|lra].
Qed.
Lemma P_sym i j : (i < m)%nat -> (j < m)%nat -> P i j = P j i.
Proof. intros Hi Hj. rewrite <- !W_W by assumption. rewrite ip_sym. reflexivity. Qed.
Lemma P_pos i : (i < m)%nat -> 0 < P i i.
Proof.
  intros Hi. rewrite <- W_W by exact Hi. apply Rmult_lt_0_compat; [|exact Hs]. apply (ip_pos n (W i) (X i)). intros E. assert (H := W_X i i Hi Hi). rewrite E in H. destruct (Nat.eq_dec i i); [lra|congruence].
Qed.
(* residuals of the first two variables on the others *)
Variables (E0 E1 : nat -> R) (b0 b1 : nat -> R).
Hypothesis R0 : forall t, (t < n)%nat -> E0 t = X 0 t - sumn (m - 2) (fun j => b0 j * X (S (S j)) t).
Hypothesis R1 : forall t, (t < n)%nat -> E1 t = X 1 t - sumn (m - 2) (fun j => b1 j * X (S (S j)) t).
Hypothesis O0 : forall j, (j < m - 2)%nat -> ip n (X (S (S j))) E0 = 0.
Hypothesis O1 : forall j, (j < m - 2)%nat -> ip n (X (S (S j))) E1 = 0.
Lemma comb_zero F b : (forall j, (j < m - 2)%nat -> ip n (X (S (S j))) F = 0) -> ip n (fun t => sumn (m - 2) (fun j => b j * X (S (S j)) t)) F = 0.
Proof. intros H. rewrite (ip_comb n (m - 2) b (fun j => X (S (S j))) F). rewrite (sumn_ext _ _ (fun _ => 0)); [apply sumn_zero|]. intros k Hk. rewrite H by exact Hk. lra. Qed.
Lemma X0_E F : (forall j, (j < m - 2)%nat -> ip n (X (S (S j))) F = 0) -> ip n (X 0) F = ip n E0 F.
Proof. intros H. rewrite (ip_ext n E0 (fun t => X 0 t - sumn (m - 2) (fun j => b0 j * X (S (S j)) t)) F F) by (auto). rewrite ip_minus, comb_zero by exact H. lra. Qed.
Lemma X1_E F : (forall j, (j < m - 2)%nat -> ip n (X (S (S j))) F = 0) -> ip n (X 1) F = ip n E1 F.
Proof. intros H. rewrite (ip_ext n E1 (fun t => X 1 t - sumn (m - 2) (fun j => b1 j * X (S (S j)) t)) F F) by (auto). rewrite ip_minus, comb_zero by exact H. lra. Qed.
Lemma W_E i F : (i < m)%nat -> (forall j, (j < m - 2)%nat -> ip n (X (S (S j))) F = 0) -> ip n (W i) F = P i 0%nat * ip n E0 F + P i 1%nat * ip n E1 F.
Proof.
  intros Hi H. unfold W. rewrite ip_comb. transitivity (sumn (S (S (m - 2))) (fun k => P i k * ip n (X k) F)); [f_equal; lia|]. rewrite !sumn_shift. rewrite (sumn_ext (m - 2) _ (fun _ => 0)).
  - rewrite sumn_zero, X0_E, X1_E by exact H. lra.
  - intros k Hk. rewrite H by lia. lra.
Qed.
Lemma W_res i F (x : nat) b : (i < 2)%nat -> (x < 2)%nat -> (forall t, (t < n)%nat -> F t = X x t - sumn (m - 2) (fun j => b j * X (S (S j)) t)) ->
  ip n (W i) F * s = if Nat.eq_dec i x then 1 else 0.
Proof.
  intros Hi Hx HF. rewrite ip_sym. rewrite (ip_ext n F (fun t => X x t - sumn (m - 2) (fun j => b j * X (S (S j)) t)) (W i) (W i)) by auto. rewrite ip_minus.
  assert (Z : ip n (fun t => sumn (m - 2) (fun j => b j * X (S (S j)) t)) (W i) * s = sumn (m - 2) (fun j => b j * (ip n (W i) (X (S (S j))) * s))).
  { rewrite (ip_comb n (m - 2) b (fun j => X (S (S j))) (W i)). rewrite Rmult_comm, <- sumn_scale. apply sumn_ext. intros k _. rewrite (ip_sym n (W i)). ring. }
  rewrite Rmult_minus_distr_r, Z, (ip_sym n (X x)), W_X by lia. rewrite (sumn_ext _ _ (fun _ => 0)), sumn_zero; [lra|].
  intros k Hk. rewrite W_X by lia. destruct (Nat.eq_dec i (S (S k))); [lia|lra].
Qed.
Lemma precision_residuals : let a := ip n E0 E0 in let b := ip n E0 E1 in let c := ip n E1 E1 in
  0 < a /\ 0 < c /\ exists k, 0 < k /\ P 0 0 = c * k /\ P 1 1 = a * k /\ P 0 1 = - b * k.
Proof.
  intros a b c.
  assert (A := W_res 0 E0 0 b0 ltac:(lia) ltac:(lia) R0). assert (B := W_res 0 E1 1 b1 ltac:(lia) ltac:(lia) R1).
  assert (C := W_res 1 E0 0 b0 ltac:(lia) ltac:(lia) R0). assert (D := W_res 1 E1 1 b1 ltac:(lia) ltac:(lia) R1).
  rewrite W_E in A, C by (try lia; exact O0). rewrite W_E in B, D by (try lia; exact O1).
  rewrite (ip_sym n E1 E0) in A, C. fold a b c in A, B, C, D. cbn in A, B, C, D.
  rewrite (P_sym 1 0) in C, D by lia. assert (P0 := P_pos 0 ltac:(lia)). assert (P1 := P_pos 1 ltac:(lia)).
  assert (Ha : 0 < a). { assert (X0 := ip_nonneg n E0). fold a in X0. destruct (Req_dec a 0) as [Z|Z]; [|lra]. assert (Y := ip_zero_l n E0 E1 Z). fold b in Y. rewrite Z, Y in A. lra. }
  assert (Hc : 0 < c). { assert (X0 := ip_nonneg n E1). fold c in X0. destruct (Req_dec c 0) as [Z|Z]; [|lra]. assert (Y := ip_zero_l n E1 E0 Z). rewrite ip_sym in Y. fold b in Y. rewrite Z, Y in D. lra. }
  split; [exact Ha|]. split; [exact Hc|].
  assert (Q0 : P 0 0 * (s * (a * c - b * b)) = c).
  { replace (P 0 0 * (s * (a * c - b * b))) with (c * ((P 0 0 * a + P 0 1 * b) * s) - b * ((P 0 0 * b + P 0 1 * c) * s))%R by ring. rewrite A, B. ring. }
  assert (Q1 : P 1 1 * (s * (a * c - b * b)) = a).
  { replace (P 1 1 * (s * (a * c - b * b))) with (a * ((P 0 1 * b + P 1 1 * c) * s) - b * ((P 0 1 * a + P 1 1 * b) * s))%R by ring. rewrite D, C. ring. }
  assert (Q2 : P 0 1 * (s * (a * c - b * b)) = - b).
  { replace (P 0 1 * (s * (a * c - b * b))) with (a * ((P 0 0 * b + P 0 1 * c) * s) - b * ((P 0 0 * a + P 0 1 * b) * s))%R by ring. rewrite A, B. ring. }
  set (d := s * (a * c - b * b)) in *. assert (Hd : 0 < d).
  { destruct (Rle_or_lt d 0) as [L|L]; [|exact L]. exfalso. assert (P 0 0 * d <= 0) by nra. lra. }
  exists (/ d). split; [apply Rinv_0_lt_compat; exact Hd|]. repeat split; apply (Rmult_eq_reg_r d); try lra; [rewrite Q0|rewrite Q1|rewrite Q2]; field; lra.
Qed.
End Matrix.

(* ---- what the code computes from the inverse ---- *)
Lemma root_mm m A B i j : (i < m)%nat -> mm m (root_diag A) B i j = sqrt (A i i) * B i j.
Proof.
  intros Hi. unfold mm. rewrite (sumn_single m i); [|exact Hi|].
  - unfold root_diag. destruct (Nat.eq_dec i i); [reflexivity|congruence].
  - intros k Hk Ne. unfold root_diag. destruct (Nat.eq_dec i k); [congruence|]. rewrite sqrt_0. lra.
Qed.
Lemma mm_root m A B i j : (j < m)%nat -> mm m B (root_diag A) i j = B i j * sqrt (A j j).
Proof.
  intros Hj. unfold mm. rewrite (sumn_single m j); [|exact Hj|].
  - unfold root_diag. destruct (Nat.eq_dec j j); [reflexivity|congruence].
  - intros k Hk Ne. unfold root_diag. destruct (Nat.eq_dec k j); [congruence|]. rewrite sqrt_0. lra.
Qed.
Lemma matrix_par_plain m P : (2 <= m)%nat -> 0 < P 0%nat 0%nat -> 0 < P 1%nat 1%nat ->
  matrix_par m P = - P 0%nat 1%nat / sqrt (P 0%nat 0%nat * P 1%nat 1%nat).
Proof.
  intros Hm H0 H1. unfold matrix_par. rewrite !mm_root, !root_mm by lia.
  assert (S0 := sqrt_sqrt _ (Rlt_le _ _ H0)). assert (S1 := sqrt_sqrt _ (Rlt_le _ _ H1)).
  set (p := sqrt (P 0%nat 0%nat)) in *. set (q := sqrt (P 1%nat 1%nat)) in *.
  assert (Hp : 0 < p) by (apply sqrt_lt_R0; exact H0). assert (Hq : 0 < q) by (apply sqrt_lt_R0; exact H1).
  rewrite <- S0, <- S1. replace (p * (p * p) * p * (q * (q * q) * q)) with ((p * p * (q * q)) * (p * p * (q * q))) by ring.
  replace (p * p * (q * q)) with ((p * q) * (p * q)) at 3 by ring. rewrite !sqrt_square by (repeat apply Rmult_le_pos; lra). field. lra.
Qed.

(* ---- lists as vectors ---- *)
Lemma vsum_sumn x : vsum x = sumn (length x) (at_ x).
Proof. induction x as [|a x IH]; [reflexivity|]. cbn [length]. rewrite sumn_shift. cbn [vsum]. rewrite IH. unfold at_. cbn [nth]. reflexivity. Qed.
Lemma vmul_length x y : length x = length y -> length (vmul x y) = length x.
Proof. revert y. induction x as [|a x IH]; intros [|b y] H; try discriminate; [reflexivity|]. cbn in *. rewrite IH by lia. reflexivity. Qed.
Lemma vmul_at x y t : length x = length y -> at_ (vmul x y) t = at_ x t * at_ y t.
Proof.
  revert y t. induction x as [|a x IH]; intros [|b y] t H; try discriminate; unfold at_ in *; [destruct t; cbn; lra|]. cbn in H. destruct t as [|t]; cbn [vmul nth]; [reflexivity|].
  apply IH. lia.
Qed.
Lemma dot_ip x y n : length x = n -> length y = n -> dot x y = ip n (at_ x) (at_ y).
Proof. intros <- H. unfold dot. rewrite vsum_sumn, vmul_length by auto. apply sumn_ext. intros t _. apply vmul_at. auto. Qed.
Lemma center_length x : length (center x) = length x.
Proof. apply map_length. Qed.
Lemma at_map f x t : (t < length x)%nat -> at_ (map f x) t = f (at_ x t).
Proof. intros H. unfold at_. rewrite (nth_indep _ 0 (f 0)) by (rewrite map_length; exact H). apply map_nth. Qed.
Lemma center_at x t : (t < length x)%nat -> at_ (center x) t = at_ x t - mean x.
Proof. apply at_map. Qed.
Lemma center_sum x : vsum (center x) = 0.
Proof.
  rewrite vsum_sumn, center_length. rewrite (sumn_ext _ _ (fun t => at_ x t - mean x)) by (intros; apply center_at; assumption).
  rewrite sumn_minus, sumn_const, <- vsum_sumn. unfold mean. destruct x as [|a x]; [cbn; lra|]. field. apply not_0_INR. cbn; lia.
Qed.
Lemma mean_eq x n : length x = n -> (0 < n)%nat -> sumn n (at_ x) = INR n * mean x.
Proof. intros <- H. unfold mean. rewrite vsum_sumn. field. apply not_0_INR. lia. Qed.

Lemma residual_centered n v zs e : (0 < n)%nat -> length v = n -> observations n zs -> residual n v zs e -> exists b,
  (forall t, (t < n)%nat -> at_ e t = at_ (center v) t - sumn (length zs) (fun j => b j * at_ (center (nth j zs [])) t)) /\
  (forall j, (j < length zs)%nat -> ip n (at_ (center (nth j zs []))) (at_ e) = 0).
Proof.
  intros Hn Lv Ob (_ & a & cs & _ & Eq & Se & Or). exists (fun j => nth j cs 0).
  assert (Lz : forall j, (j < length zs)%nat -> length (nth j zs []) = n) by (intros j Hj; apply Ob, nth_In; exact Hj).
  assert (Ea : a = mean v - sumn (length zs) (fun j => nth j cs 0 * mean (nth j zs []))).
  { assert (H : sumn n (at_ e) = INR n * (mean v - a - sumn (length zs) (fun j => nth j cs 0 * mean (nth j zs [])))).
    { rewrite (sumn_ext n _ _ Eq), !sumn_minus, sumn_const, (mean_eq v n Lv Hn), sumn_swap.
      rewrite (sumn_ext (length zs) _ (fun j => INR n * (nth j cs 0 * mean (nth j zs [])))).
      - rewrite sumn_scale. ring.
      - intros j Hj. rewrite sumn_scale, (mean_eq _ n (Lz j Hj) Hn). ring. }
    rewrite Se in H. assert (INR n <> 0) by (apply not_0_INR; lia). assert (mean v - a - sumn (length zs) (fun j => nth j cs 0 * mean (nth j zs [])) = 0) by (apply (Rmult_eq_reg_l (INR n)); lra). lra. }
  split.
  - intros t Ht. rewrite Eq, center_at by (try rewrite Lv; exact Ht). rewrite (sumn_ext _ (fun j => nth j cs 0 * at_ (center (nth j zs [])) t) (fun j => nth j cs 0 * at_ (nth j zs []) t - nth j cs 0 * mean (nth j zs []))).
    + rewrite sumn_minus, Ea. ring.
    + intros j Hj. rewrite center_at by (rewrite Lz; assumption). ring.
  - intros j Hj. unfold ip. rewrite (sumn_ext n _ (fun t => at_ e t * at_ (nth j zs []) t - mean (nth j zs []) * at_ e t)).
    + rewrite sumn_minus, sumn_scale, Se, Or by exact Hj. lra.
    + intros t Ht. rewrite center_at by (rewrite Lz; assumption). ring.
Qed.

Lemma inv_ip n m vs P : (2 <= n)%nat -> m = length vs -> observations n vs -> inverts m P (cov vs) ->
  forall i j, (i < m)%nat -> (j < m)%nat -> sumn m (fun k => P i k * (ip n (at_ (center (nth k vs []))) (at_ (center (nth j vs []))) * / (INR n - 1))) = if Nat.eq_dec i j then 1 else 0.
Proof.
  intros Hn -> Ob Inv i j Hi Hj. rewrite <- (Inv i j Hi Hj). apply sumn_ext. intros k Hk. unfold cov. rewrite (dot_ip _ _ n), (Ob (nth k vs [])); [reflexivity|..]; try rewrite center_length; try apply Ob; apply nth_In; assumption.
Qed.
Lemma s_pos n : (2 <= n)%nat -> 0 < / (INR n - 1).
Proof. intros H. apply Rinv_0_lt_compat. apply le_INR in H. cbn in H. lra. Qed.
Lemma ratio_cancel a b c k : 0 < a -> 0 < c -> 0 < k -> - (- b * k) / sqrt (c * k * (a * k)) = b / (sqrt a * sqrt c).
Proof.
  intros Ha Hc Hk. assert (A := sqrt_lt_R0 a Ha). assert (C := sqrt_lt_R0 c Hc). replace (c * k * (a * k)) with ((a * c) * (k * k)) by ring. rewrite sqrt_mult by nra. rewrite sqrt_square by lra. rewrite sqrt_mult by lra.
  field. repeat split; lra.
Qed.
Lemma cosine_ip n x y : length x = n -> length y = n -> cosine x y = ip n (at_ x) (at_ y) / (sqrt (ip n (at_ x) (at_ x)) * sqrt (ip n (at_ y) (at_ y))).
Proof. intros Lx Ly. unfold cosine, ip. rewrite Lx. reflexivity. Qed.

Theorem matrix_residuals n x y zs P e0 e1 : (2 <= n)%nat -> observations n (x :: y :: zs) -> inverts (length (x :: y :: zs)) P (cov (x :: y :: zs)) ->
  residual n x zs e0 -> residual n y zs e1 -> matrix_par (length (x :: y :: zs)) P = cosine e0 e1.
Proof.
  intros Hn Ob Inv Rx Ry. set (vs := x :: y :: zs) in *. assert (Oz : observations n zs) by (intros v Hv; apply Ob; right; right; exact Hv).
  assert (Lx : length x = n) by (apply Ob; left; reflexivity). assert (Ly : length y = n) by (apply Ob; right; left; reflexivity).
  assert (Le0 := proj1 Rx). assert (Le1 := proj1 Ry).
  destruct (residual_centered n x zs e0 ltac:(lia) Lx Oz Rx) as (b0 & A0 & B0). destruct (residual_centered n y zs e1 ltac:(lia) Ly Oz Ry) as (b1 & A1 & B1).
  assert (M : (length vs - 2 = length zs)%nat) by (cbn; lia).
  assert (Q := precision_residuals n (length vs) (/ (INR n - 1)) (fun k => at_ (center (nth k vs []))) P (s_pos n Hn) ltac:(cbn; lia) (inv_ip n _ vs P Hn eq_refl Ob Inv) (at_ e0) (at_ e1) b0 b1).
  rewrite M in Q. specialize (Q A0 A1 B0 B1). cbn zeta in Q. destruct Q as (Ha & Hc & k & Hk & E1 & E2 & E3).
  rewrite matrix_par_plain; [|cbn; lia|rewrite E1; nra|rewrite E2; nra]. rewrite E1, E2, E3, (cosine_ip n) by assumption. apply ratio_cancel; assumption.
Qed.

(* ---- C45 ---- *)
Lemma vmul_mean x y n : length x = n -> length y = n -> mean (vmul x y) = ip n (at_ x) (at_ y) / INR n.
Proof. intros Lx Ly. unfold mean. rewrite vmul_length by congruence. rewrite Lx. change (vsum (vmul x y)) with (dot x y). rewrite (dot_ip x y n) by assumption. reflexivity. Qed.
Lemma std_ip x n : length x = n -> std x = sqrt (ip n (at_ (center x)) (at_ (center x)) / INR n).
Proof. intros L. unfold std. change (vsum (vmul (center x) (center x))) with (dot (center x) (center x)). rewrite (dot_ip _ _ n), L by (rewrite center_length; exact L). reflexivity. Qed.
Lemma cosine_bound n f g : 0 < ip n f f -> 0 < ip n g g -> -1 <= ip n f g / (sqrt (ip n f f) * sqrt (ip n g g)) <= 1.
Proof.
  intros Hf Hg. assert (A := sqrt_lt_R0 _ Hf). assert (B := sqrt_lt_R0 _ Hg). assert (C := cauchy n f g).
  rewrite <- (sqrt_sqrt (ip n f f)), <- (sqrt_sqrt (ip n g g)) in C by lra. set (p := sqrt (ip n f f)) in *. set (q := sqrt (ip n g g)) in *. set (d := ip n f g) in *.
  assert (Hpq : 0 < p * q) by nra.
  assert (K : - (p * q) <= d <= p * q) by (split; nra). split; apply (Rmult_le_reg_r (p * q)); try exact Hpq; unfold Rdiv; rewrite ?Rmult_assoc, ?Rinv_l by lra; lra.
Qed.
Lemma pearson_cosine n x y : (0 < n)%nat -> length x = n -> length y = n ->
  pearson x y = if Req_EM_T (ip n (at_ (center x)) (at_ (center x)) * ip n (at_ (center y)) (at_ (center y))) 0 then None else Some (cosine (center x) (center y)).
Proof.
  intros Hn Lx Ly. unfold pearson. rewrite (std_ip x n Lx), (std_ip y n Ly), (vmul_mean _ _ n) by (rewrite center_length; assumption).
  rewrite (cosine_ip n) by (rewrite center_length; assumption).
  assert (HN : 0 < INR n) by (apply lt_0_INR; exact Hn).
  set (a := ip n (at_ (center x)) (at_ (center x))). set (c := ip n (at_ (center y)) (at_ (center y))). set (b := ip n (at_ (center x)) (at_ (center y))).
  assert (Ha : 0 <= a) by apply ip_nonneg. assert (Hc : 0 <= c) by apply ip_nonneg.
  assert (SN := sqrt_lt_R0 _ HN). rewrite !sqrt_div by lra.
  destruct (Req_EM_T (sqrt a / sqrt (INR n) * (sqrt c / sqrt (INR n))) 0) as [Z|Z]; destruct (Req_EM_T (a * c) 0) as [Y|Y]; try reflexivity.
  - exfalso. assert (0 < a /\ 0 < c) as [Pa Pc] by (split; destruct Ha, Hc; subst; try lra; elim Y; nra).
    assert (A := sqrt_lt_R0 _ Pa). assert (C := sqrt_lt_R0 _ Pc). assert (0 < sqrt a / sqrt (INR n)) by (apply Rdiv_lt_0_compat; assumption). assert (0 < sqrt c / sqrt (INR n)) by (apply Rdiv_lt_0_compat; assumption). nra.
  - exfalso. apply Z. apply Rmult_integral in Y. destruct Y as [->| ->]; rewrite sqrt_0; unfold Rdiv; lra.
  - assert (0 < a /\ 0 < c) as [Pa Pc] by (split; nra).
    assert (A := sqrt_lt_R0 _ Pa). assert (C := sqrt_lt_R0 _ Pc).
    replace (b / INR n / (sqrt a / sqrt (INR n) * (sqrt c / sqrt (INR n)))) with (b / (sqrt a * sqrt c)).
    + destruct (cosine_bound n (at_ (center x)) (at_ (center y)) Pa Pc) as [L U]. fold a b c in L, U. unfold clamp.
      destruct (Rlt_dec _ (-1)); [lra|]. destruct (Rlt_dec 1 _); [lra|]. reflexivity.
    + rewrite <- (sqrt_sqrt (INR n)) at 1 by lra. field. repeat split; lra.
Qed.

Definition vec (n : nat) (f : nat -> R) : list R := map f (seq 0 n).
Lemma vec_length n f : length (vec n f) = n.
Proof. unfold vec. rewrite map_length, seq_length. reflexivity. Qed.
Lemma vec_at n f t : (t < n)%nat -> at_ (vec n f) t = f t.
Proof. intros H. unfold at_, vec. rewrite (nth_indep _ 0 (f 0%nat)) by (rewrite map_length, seq_length; exact H). rewrite map_nth, seq_nth by exact H. reflexivity. Qed.

(* constant variables *)
Lemma centered_zero n x : (0 < n)%nat -> length x = n -> (ip n (at_ (center x)) (at_ (center x)) = 0 <-> forall s t, (s < n)%nat -> (t < n)%nat -> at_ x s = at_ x t).
Proof.
  intros Hn L. split.
  - intros Z s t Hs Ht. assert (A := ip_zero _ _ Z s Hs). assert (B := ip_zero _ _ Z t Ht). rewrite center_at in A, B by (rewrite L; assumption). lra.
  - intros H. assert (M : mean x = at_ x 0). { apply (Rmult_eq_reg_l (INR n)); [|apply not_0_INR; lia]. rewrite <- (mean_eq x n L Hn), (sumn_ext n _ (fun _ => at_ x 0)); [apply sumn_const|]. intros k Hk. apply H; lia. }
    unfold ip. rewrite (sumn_ext n _ (fun _ => 0)); [apply sumn_zero|]. intros t Ht. rewrite center_at by (rewrite L; exact Ht). rewrite M, (H t 0%nat) by lia. lra.
Qed.
(* affine changes of a variable *)
Lemma affine_center n a b x t : (0 < n)%nat -> length x = n -> (t < n)%nat -> at_ (center (map (fun v => a * v + b) x)) t = a * at_ (center x) t.
Proof.
  intros Hn L Ht. rewrite !center_at by (rewrite ?map_length, L; exact Ht). rewrite at_map by (rewrite L; exact Ht).
  assert (M : mean (map (fun v => a * v + b) x) = a * mean x + b).
  { apply (Rmult_eq_reg_l (INR n)); [|apply not_0_INR; lia]. rewrite <- (mean_eq _ n) by (rewrite ?map_length; assumption).
    rewrite (sumn_ext n _ (fun t => a * at_ x t + b)) by (intros k Hk; apply at_map; rewrite L; exact Hk). rewrite sumn_plus, sumn_scale, sumn_const, (mean_eq x n L Hn). ring. }
  rewrite M. ring.
Qed.
Lemma pearson_affine n a b x y : (0 < n)%nat -> length x = n -> length y = n -> a <> 0 ->
  pearson (map (fun v => a * v + b) x) y = option_map (fun r => (if Rlt_dec 0 a then 1 else -1) * r) (pearson x y).
Proof.
  intros Hn Lx Ly Na. assert (Lx' : length (map (fun v => a * v + b) x) = n) by (rewrite map_length; exact Lx).
  rewrite !(pearson_cosine n) by assumption. rewrite !(cosine_ip n) by (rewrite center_length; assumption).
  set (x' := map (fun v => a * v + b) x) in *.
  assert (E : forall t, (t < n)%nat -> at_ (center x') t = a * at_ (center x) t) by (intros t Ht; apply (affine_center n); assumption).
  assert (E1 : forall g, ip n (at_ (center x')) g = a * ip n (at_ (center x)) g) by (intros g; rewrite <- ip_scale; apply ip_ext; auto).
  assert (E2 : ip n (at_ (center x')) (at_ (center x')) = a * a * ip n (at_ (center x)) (at_ (center x))) by (rewrite E1, ip_sym, E1, Rmult_assoc; reflexivity).
  rewrite E2, E1. set (p := ip n (at_ (center x)) (at_ (center x))). set (q := ip n (at_ (center y)) (at_ (center y))). set (d := ip n (at_ (center x)) (at_ (center y))).
  assert (Hp : 0 <= p) by apply ip_nonneg. assert (Hq : 0 <= q) by apply ip_nonneg.
  assert (AA : 0 < a * a) by nra.
  destruct (Req_EM_T (a * a * p * q) 0) as [Z|Z]; destruct (Req_EM_T (p * q) 0) as [Y|Y]; cbn [option_map]; try reflexivity.
  - elim Y. apply (Rmult_eq_reg_l (a * a)); lra.
  - elim Z. rewrite Rmult_assoc, Y. lra.
  - f_equal. assert (0 < p) by nra. assert (0 < q) by nra. assert (P := sqrt_lt_R0 p H). assert (Q := sqrt_lt_R0 q H0).
    rewrite sqrt_mult by lra. replace (sqrt (a * a)) with (Rabs a) by (symmetry; apply sqrt_Rsqr_abs).
    destruct (Rlt_dec 0 a) as [G|G].
    + rewrite Rabs_right by lra. field. repeat split; lra.
    + rewrite Rabs_left by lra. field. repeat split; lra.
Qed.
Lemma cosine_sym n x y : length x = n -> length y = n -> cosine x y = cosine y x.
Proof. intros Lx Ly. rewrite !(cosine_ip n) by assumption. rewrite (ip_sym n (at_ x)), (Rmult_comm (sqrt _)). reflexivity. Qed.

(* ---- existence of the residuals, and the statistic is never 1 or -1 ---- *)
Section Exist.
Variables (n : nat) (x y : list R) (zs : list (list R)) (P : matrix).
Hypothesis Hn : (2 <= n)%nat.
Hypothesis Ob : observations n (x :: y :: zs).
Hypothesis Inv : inverts (length (x :: y :: zs)) P (cov (x :: y :: zs)).
Let vs := x :: y :: zs.
Let m := length vs.
Let X : nat -> nat -> R := fun k => at_ (center (nth k vs [])).
Let s := / (INR n - 1).
Let Inv' := inv_ip n m vs P Hn eq_refl Ob Inv.
Lemma det2 : 0 < P 0%nat 0%nat * P 1%nat 1%nat - P 0%nat 1%nat * P 0%nat 1%nat.
Proof.
  assert (H0 : (0 < m)%nat) by (cbn; lia). assert (H1 : (1 < m)%nat) by (cbn; lia).
  assert (p0 := P_pos n m s X P (s_pos n Hn) Inv' 0 H0). assert (A := W_W n m s X P Inv' 0 0 H0 H0). assert (B := W_W n m s X P Inv' 0 1 H0 H1). assert (C := W_W n m s X P Inv' 1 1 H1 H1).
  set (w0 := W m X P 0) in *. set (w1 := W m X P 1) in *. set (l := P 0%nat 1%nat / P 0%nat 0%nat).
  assert (Q := ip_sq n w1 w0 l). rewrite (ip_sym n w1 w0) in Q.
  assert (G : ip n (fun t => w1 t - l * w0 t) (fun t => w1 t - l * w0 t) * s = (P 0%nat 0%nat * P 1%nat 1%nat - P 0%nat 1%nat * P 0%nat 1%nat) / P 0%nat 0%nat).
  { rewrite Q. replace ((ip n w1 w1 - 2 * l * ip n w0 w1 + l * l * ip n w0 w0) * s) with (ip n w1 w1 * s - 2 * l * (ip n w0 w1 * s) + l * l * (ip n w0 w0 * s)) by ring. rewrite A, B, C. unfold l. field. lra. }
  assert (Pos : 0 < ip n (fun t => w1 t - l * w0 t) (fun t => w1 t - l * w0 t)).
  { apply (ip_pos n _ (X 1%nat)). rewrite ip_minus, ip_scale. intros Z.
    assert (U := W_X n m s X P Inv' 1 1 H1 H1). assert (V := W_X n m s X P Inv' 0 1 H0 H1). fold w0 w1 in U, V. cbn in U, V.
    assert (Sp := s_pos n Hn). fold s in Sp. assert (ip n w0 (X 1%nat) = 0) by (apply (Rmult_eq_reg_r s); lra). rewrite H in Z. assert (ip n w1 (X 1%nat) = 0) by lra. rewrite H2 in U. lra. }
  assert (Sp := s_pos n Hn). fold s in Sp.
  assert (R := Rmult_lt_0_compat _ _ Pos Sp). rewrite G in R. apply (Rmult_lt_compat_r (P 0%nat 0%nat)) in R; [|exact p0]. unfold Rdiv in R. rewrite Rmult_0_l, Rmult_assoc, Rinv_l in R by lra. lra.
Qed.
Lemma matrix_par_strict : -1 < matrix_par m P < 1.
Proof.
  assert (H0 : (0 < m)%nat) by (cbn; lia). assert (H1 : (1 < m)%nat) by (cbn; lia).
  assert (p0 := P_pos n m s X P (s_pos n Hn) Inv' 0 H0). assert (p1 := P_pos n m s X P (s_pos n Hn) Inv' 1 H1). assert (D := det2).
  rewrite matrix_par_plain by (try assumption; cbn; lia). set (d := P 0%nat 1%nat) in *. assert (G : 0 < P 0%nat 0%nat * P 1%nat 1%nat) by nra.
  assert (Q := sqrt_lt_R0 _ G). assert (E := sqrt_sqrt _ (Rlt_le _ _ G)). set (q := sqrt (P 0%nat 0%nat * P 1%nat 1%nat)) in *.
  assert (- q < d < q) by (split; nra). split; apply (Rmult_lt_reg_r q); try exact Q; unfold Rdiv; rewrite ?Rmult_assoc, ?Rinv_l by lra; lra.
Qed.
(* the combination c0 * W0 + c1 * W1 with coefficient 1 on the variable v and 0 on the other is a residual *)
Lemma residual_build c0 c1 (v : nat) : (v < 2)%nat -> c0 * P 0%nat 0%nat + c1 * P 1%nat 0%nat = (if Nat.eq_dec v 0 then 1 else 0) ->
  c0 * P 0%nat 1%nat + c1 * P 1%nat 1%nat = (if Nat.eq_dec v 1 then 1 else 0) ->
  residual n (nth v vs []) zs (vec n (fun t => c0 * W m X P 0 t + c1 * W m X P 1 t)).
Proof.
  intros Hv E0 E1. set (b := fun j => - (c0 * P 0%nat (S (S j)) + c1 * P 1%nat (S (S j)))).
  assert (Lz : forall j, (j < length zs)%nat -> length (nth j zs []) = n) by (intros j Hj; apply Ob; right; right; apply nth_In; exact Hj).
  assert (Lv : length (nth v vs []) = n) by (apply Ob; destruct v as [|[|v]]; [left|right; left|lia]; reflexivity).
  assert (H0 : (0 < m)%nat) by (cbn; lia). assert (H1 : (1 < m)%nat) by (cbn; lia).
  assert (F : forall t, (t < n)%nat -> c0 * W m X P 0 t + c1 * W m X P 1 t = X v t - sumn (length zs) (fun j => b j * X (S (S j)) t)).
  { intros t Ht. unfold W. change m with (S (S (length zs))). rewrite !sumn_shift.
    assert (Z : c0 * sumn (length zs) (fun k => P 0%nat (S (S k)) * X (S (S k)) t) + c1 * sumn (length zs) (fun k => P 1%nat (S (S k)) * X (S (S k)) t) = - sumn (length zs) (fun j => b j * X (S (S j)) t)).
    { rewrite <- !sumn_scale, <- sumn_plus. replace (- sumn (length zs) (fun j => b j * X (S (S j)) t)) with ((-1) * sumn (length zs) (fun j => b j * X (S (S j)) t)) by ring. rewrite <- sumn_scale. apply sumn_ext. intros k _. unfold b. ring. }
    transitivity ((c0 * P 0%nat 0%nat + c1 * P 1%nat 0%nat) * X 0%nat t + (c0 * P 0%nat 1%nat + c1 * P 1%nat 1%nat) * X 1%nat t +
      (c0 * sumn (length zs) (fun k => P 0%nat (S (S k)) * X (S (S k)) t) + c1 * sumn (length zs) (fun k => P 1%nat (S (S k)) * X (S (S k)) t))); [ring|].
    rewrite Z, E0, E1. destruct v as [|[|v]]; [| |lia]; cbn [Nat.eq_dec]; cbn; ring. }
  split; [apply vec_length|]. exists (mean (nth v vs []) - sumn (length zs) (fun j => b j * mean (nth j zs []))), (vec (length zs) b).
  split; [apply vec_length|]. split; [|split].
  - intros t Ht. rewrite vec_at, F by exact Ht. unfold X at 1. rewrite center_at by (rewrite Lv; exact Ht).
    rewrite (sumn_ext _ (fun j => b j * X (S (S j)) t) (fun j => b j * at_ (nth j zs []) t - b j * mean (nth j zs []))).
    + rewrite sumn_minus. rewrite (sumn_ext (length zs) (fun j => nth j (vec (length zs) b) 0 * at_ (nth j zs []) t) (fun j => b j * at_ (nth j zs []) t)); [ring|].
      intros j Hj. fold (at_ (vec (length zs) b) j). rewrite vec_at by exact Hj. reflexivity.
    + intros j Hj. unfold X. cbn [nth vs]. rewrite center_at by (rewrite Lz; assumption). ring.
  - rewrite (sumn_ext n _ _ (vec_at n _)). rewrite (sumn_ext n _ _ F), sumn_minus, sumn_swap.
    assert (Z : forall u, length u = n -> sumn n (at_ (center u)) = 0) by (intros u Lu; rewrite <- Lu, <- center_length, <- vsum_sumn; apply center_sum).
    unfold X at 1. rewrite (Z _ Lv). rewrite (sumn_ext (length zs) _ (fun _ => 0)); [rewrite sumn_zero; lra|]. intros j Hj. rewrite sumn_scale. unfold X. cbn [nth vs]. rewrite (Z _ (Lz j Hj)). lra.
  - intros j Hj.
    assert (U : ip n (fun t => c0 * W m X P 0 t + c1 * W m X P 1 t) (X (S (S j))) = 0).
    { rewrite ip_plus, !ip_scale. assert (Sp := s_pos n Hn). fold s in Sp.
      assert (A := W_X n m s X P Inv' 0 (S (S j)) H0 ltac:(cbn; lia)). assert (B := W_X n m s X P Inv' 1 (S (S j)) H1 ltac:(cbn; lia)). destruct (Nat.eq_dec 0 (S (S j))); [lia|]. destruct (Nat.eq_dec 1 (S (S j))); [lia|].
      assert (A' : ip n (W m X P 0) (X (S (S j))) = 0) by (apply (Rmult_eq_reg_r s); [rewrite A; lra|lra]). assert (B' : ip n (W m X P 1) (X (S (S j))) = 0) by (apply (Rmult_eq_reg_r s); [rewrite B; lra|lra]). rewrite A', B'. lra. }
    assert (V : sumn n (fun t => c0 * W m X P 0 t + c1 * W m X P 1 t) = 0).
    { assert (Z : forall k, (k < m)%nat -> sumn n (X k) = 0). { intros k Hk. unfold X. assert (Lu : length (nth k vs []) = n) by (apply Ob, nth_In; exact Hk). rewrite <- Lu, <- center_length, <- vsum_sumn. apply center_sum. }
      rewrite sumn_plus, !sumn_scale. unfold W. rewrite (sumn_swap n m (fun t k => P 0%nat k * X k t)), (sumn_swap n m (fun t k => P 1%nat k * X k t)).
      rewrite (sumn_ext m (fun k => sumn n (fun t => P 0%nat k * X k t)) (fun _ => 0)) by (intros k Hk; rewrite sumn_scale, Z by exact Hk; lra).
      rewrite (sumn_ext m (fun k => sumn n (fun t => P 1%nat k * X k t)) (fun _ => 0)) by (intros k Hk; rewrite sumn_scale, Z by exact Hk; lra). rewrite sumn_zero. lra. }
    rewrite (sumn_ext n _ (fun t => (c0 * W m X P 0 t + c1 * W m X P 1 t) * X (S (S j)) t + mean (nth j zs []) * (c0 * W m X P 0 t + c1 * W m X P 1 t))).
    + rewrite sumn_plus, sumn_scale, V. change (sumn n (fun t => (c0 * W m X P 0 t + c1 * W m X P 1 t) * X (S (S j)) t)) with (ip n (fun t => c0 * W m X P 0 t + c1 * W m X P 1 t) (X (S (S j)))). rewrite U. lra.
    + intros t Ht. rewrite vec_at by exact Ht. unfold X at 5. cbn [nth vs]. rewrite center_at by (rewrite Lz; assumption). ring.
Qed.
Theorem residuals_exist : (exists e, residual n x zs e) /\ (exists e, residual n y zs e).
Proof.
  assert (D := det2). set (d := P 0%nat 0%nat * P 1%nat 1%nat - P 0%nat 1%nat * P 0%nat 1%nat) in *.
  assert (S01 : P 1%nat 0%nat = P 0%nat 1%nat) by (apply (P_sym n m s X P Inv'); cbn; lia).
  split.
  - eexists. apply (residual_build (P 1%nat 1%nat / d) (- P 0%nat 1%nat / d) 0 ltac:(lia)); cbn; rewrite ?S01; [unfold d; field; fold d; lra|field; lra].
  - eexists. apply (residual_build (- P 0%nat 1%nat / d) (P 0%nat 0%nat / d) 1 ltac:(lia)); cbn; rewrite ?S01; [field; lra|unfold d; field; fold d; lra].
Qed.
End Exist.
