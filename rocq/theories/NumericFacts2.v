(* Proofs about the numeric formulas: three variables, regression, Fisher's test, effects. *)
From Coq Require Import Reals List Lia Lra Psatz.
From Verif Require Import Numeric NumericSpec NumericFacts.
Import ListNotations.
Open Scope R_scope.

(* ---- three variables ---- *)
Lemma ip_sub n f g c h k : ip n (fun t => f t - c * g t) (fun t => h t - k * g t) = ip n f h - k * ip n f g - c * ip n g h + c * k * ip n g g.
Proof. unfold ip. rewrite <- !sumn_scale, <- !sumn_minus, <- sumn_plus. apply sumn_ext. intros; ring. Qed.
Theorem partial3_matrix n x y z P : (2 <= n)%nat -> observations n [x; y; z] -> inverts 3 P (cov [x; y; z]) ->
  exists rxy rxz ryz, pearson x y = Some rxy /\ pearson x z = Some rxz /\ pearson y z = Some ryz /\ partial3 rxy rxz ryz = Some (matrix_par 3 P).
Proof.
  intros Hn Ob Inv. set (vs := [x; y; z]) in *.
  assert (Lx : length x = n) by (apply Ob; left; reflexivity). assert (Ly : length y = n) by (apply Ob; right; left; reflexivity). assert (Lz : length z = n) by (apply Ob; right; right; left; reflexivity).
  assert (Inv' := inv_ip n 3 vs P Hn eq_refl Ob Inv). set (X := fun k => at_ (center (nth k vs []))) in *. set (s := / (INR n - 1)) in *. assert (Sp := s_pos n Hn). fold s in Sp.
  assert (Pos : forall i, (i < 3)%nat -> 0 < ip n (X i) (X i)).
  { intros i Hi. apply (ip_pos n (X i) (W 3 X P i)). intros Z. rewrite ip_sym in Z. assert (H := W_X n 3 s X P Inv' i i Hi Hi). rewrite Z in H. destruct (Nat.eq_dec i i); [lra|congruence]. }
  assert (Px := Pos 0%nat ltac:(lia)). assert (Py := Pos 1%nat ltac:(lia)). assert (Pz := Pos 2%nat ltac:(lia)).
  set (xx := ip n (X 0%nat) (X 0%nat)) in *. set (yy := ip n (X 1%nat) (X 1%nat)) in *. set (zz := ip n (X 2%nat) (X 2%nat)) in *.
  set (xy := ip n (X 0%nat) (X 1%nat)). set (xz := ip n (X 0%nat) (X 2%nat)). set (yz := ip n (X 1%nat) (X 2%nat)).
  set (E0 := fun t => X 0%nat t - (xz / zz) * X 2%nat t). set (E1 := fun t => X 1%nat t - (yz / zz) * X 2%nat t).
  assert (Q := precision_residuals n 3 s X P Sp ltac:(lia) Inv' E0 E1 (fun _ => xz / zz) (fun _ => yz / zz)).
  destruct Q as (Ha & Hc & k & Hk & Q1 & Q2 & Q3).
  - intros t _. unfold E0. cbn. ring.
  - intros t _. unfold E1. cbn. ring.
  - intros j Hj. assert (j = 0)%nat as -> by lia. rewrite ip_sym. unfold E0. rewrite ip_minus, ip_scale. fold xz zz. field. lra.
  - intros j Hj. assert (j = 0)%nat as -> by lia. rewrite ip_sym. unfold E1. rewrite ip_minus, ip_scale. fold yz zz. field. lra.
  - assert (MP : matrix_par 3 P = ip n E0 E1 / (sqrt (ip n E0 E0) * sqrt (ip n E1 E1))).
    { rewrite matrix_par_plain; [|lia|rewrite Q1; nra|rewrite Q2; nra]. rewrite Q1, Q2, Q3. apply ratio_cancel; assumption. }
    assert (Ea : ip n E0 E0 = xx - xz * xz / zz).
    { unfold E0. rewrite ip_sub, (ip_sym n (X 2%nat) (X 0%nat)). fold xx xz zz. field. lra. }
    assert (Ec : ip n E1 E1 = yy - yz * yz / zz).
    { unfold E1. rewrite ip_sub, (ip_sym n (X 2%nat) (X 1%nat)). fold yy yz zz. field. lra. }
    assert (Eb : ip n E0 E1 = xy - xz * yz / zz).
    { unfold E0, E1. rewrite ip_sub, (ip_sym n (X 2%nat) (X 1%nat)). fold xy xz yz zz. field. lra. }
    assert (Cx : forall u v f g, length u = n -> length v = n -> f = at_ (center u) -> g = at_ (center v) -> 0 < ip n f f -> 0 < ip n g g ->
      pearson u v = Some (ip n f g / (sqrt (ip n f f) * sqrt (ip n g g)))).
    { intros u v f g Lu Lv -> -> H1 H2. rewrite (pearson_cosine n) by (try assumption; lia). destruct (Req_EM_T _ 0) as [Z|Z]; [exfalso; nra|]. rewrite (cosine_ip n) by (rewrite center_length; assumption). reflexivity. }
    exists (xy / (sqrt xx * sqrt yy)), (xz / (sqrt xx * sqrt zz)), (yz / (sqrt yy * sqrt zz)).
    split; [apply (Cx x y (X 0%nat) (X 1%nat)); auto|]. split; [apply (Cx x z (X 0%nat) (X 2%nat)); auto|]. split; [apply (Cx y z (X 1%nat) (X 2%nat)); auto|].
    rewrite MP. clear MP. rewrite Ea in Ha. rewrite Ec in Hc. rewrite Ea, Eb, Ec. set (a := xx - xz * xz / zz) in *. set (c := yy - yz * yz / zz) in *.
    assert (Sx := sqrt_lt_R0 _ Px). assert (Sy := sqrt_lt_R0 _ Py). assert (Sz := sqrt_lt_R0 _ Pz). assert (Sa := sqrt_lt_R0 _ Ha). assert (Sc := sqrt_lt_R0 _ Hc).
    assert (XX := sqrt_sqrt _ (Rlt_le _ _ Px)). assert (YY := sqrt_sqrt _ (Rlt_le _ _ Py)). assert (ZZ := sqrt_sqrt _ (Rlt_le _ _ Pz)).
    unfold partial3.
    assert (F1 : 1 - xz / (sqrt xx * sqrt zz) * (xz / (sqrt xx * sqrt zz)) = a / xx).
    { unfold a. clear - Sx Sz XX ZZ. generalize dependent (sqrt xx). generalize dependent (sqrt zz). intros q Sq Q p Sp Pp. rewrite <- Pp, <- Q. field. split; lra. }
    assert (F2 : 1 - yz / (sqrt yy * sqrt zz) * (yz / (sqrt yy * sqrt zz)) = c / yy).
    { unfold c. clear - Sy Sz YY ZZ. generalize dependent (sqrt yy). generalize dependent (sqrt zz). intros q Sq Q p Sp Pp. rewrite <- Pp, <- Q. field. split; lra. }
    rewrite F1, F2. assert (G : sqrt (a / xx * (c / yy)) = sqrt a * sqrt c / (sqrt xx * sqrt yy)).
    { replace (a / xx * (c / yy)) with ((a * c) / (xx * yy)) by (field; lra). rewrite sqrt_div by (try nra; apply Rmult_lt_0_compat; assumption). rewrite !sqrt_mult by lra. reflexivity. }
    rewrite G. destruct (Req_EM_T _ 0) as [Z|Z].
    + exfalso. assert (0 < sqrt a * sqrt c / (sqrt xx * sqrt yy)) by (apply Rdiv_lt_0_compat; apply Rmult_lt_0_compat; assumption). lra.
    + f_equal. clear - Sx Sy Sz Sa Sc XX YY ZZ. generalize dependent (sqrt a). generalize dependent (sqrt c). generalize dependent (sqrt xx). generalize dependent (sqrt yy). generalize dependent (sqrt zz).
      intros q Sq Q r Sr Rr p Sp Pp w Sw u Su. rewrite <- Q. field. repeat split; lra.
Qed.

(* ---- least squares ---- *)
Lemma normal_equations n v cols cs : observations n cols -> least_squares n v cols cs ->
  forall j, (j < length cols)%nat -> sumn n (fun t => (at_ v t - lin cs cols t) * at_ (nth j cols []) t) = 0.
Proof.
  intros Ob [L Min] j Hj. set (r := fun t => at_ v t - lin cs cols t). set (w := at_ (nth j cols [])).
  change (ip n r w = 0). destruct (Req_dec (ip n w w) 0) as [Z|Z]; [rewrite ip_sym; apply ip_zero_l; exact Z|].
  assert (Pw : 0 < ip n w w) by (assert (H := ip_nonneg n w); lra). set (e := ip n r w / ip n w w).
  set (ds := vec (length cols) (fun i => nth i cs 0 + if Nat.eq_dec i j then e else 0)).
  assert (M := Min ds (vec_length _ _)).
  assert (Ed : forall t, lin ds cols t = lin cs cols t + e * w t).
  { intros t. unfold lin. rewrite (sumn_ext _ _ (fun i => nth i cs 0 * at_ (nth i cols []) t + (if Nat.eq_dec i j then e else 0) * at_ (nth i cols []) t)).
    - rewrite sumn_plus. f_equal. rewrite (sumn_single _ j); [destruct (Nat.eq_dec j j); [reflexivity|congruence]|exact Hj|]. intros k _ Ne. destruct (Nat.eq_dec k j); [congruence|lra].
    - intros i Hi. unfold ds. fold (at_ (vec (length cols) (fun i => nth i cs 0 + if Nat.eq_dec i j then e else 0)) i). rewrite vec_at by exact Hi. ring. }
  assert (Q : misfit n v cols ds = ip n r r - 2 * e * ip n r w + e * e * ip n w w).
  { rewrite <- ip_sq. unfold misfit, ip. apply sumn_ext. intros t _. rewrite Ed. unfold r. ring. }
  change (misfit n v cols cs) with (ip n r r) in M. rewrite Q in M. assert (E : e * ip n w w = ip n r w) by (unfold e; field; lra).
  replace (e * e * ip n w w) with (e * ip n r w) in M by (rewrite <- E; ring).
  assert (H : e * ip n r w <= 0) by lra. rewrite <- E in H. replace (e * (e * ip n w w)) with ((e * e) * ip n w w) in H by ring.
  assert (e * e = 0) by nra. assert (e = 0) by nra. rewrite <- E, H1. ring.
Qed.
Theorem recovery n v cols cs ds e : observations n cols -> independent_columns n cols -> length ds = length cols ->
  (forall t, (t < n)%nat -> at_ v t = lin ds cols t + e t) -> (forall j, (j < length cols)%nat -> sumn n (fun t => e t * at_ (nth j cols []) t) = 0) ->
  least_squares n v cols cs -> forall j, (j < length cols)%nat -> nth j cs 0 = nth j ds 0.
Proof.
  intros Ob Ind Ld Eq Orth LS. assert (NE := normal_equations n v cols cs Ob LS). destruct LS as [Lc _].
  set (d := vec (length cols) (fun i => nth i ds 0 - nth i cs 0)).
  assert (Dn : forall j, (j < length cols)%nat -> nth j d 0 = nth j ds 0 - nth j cs 0) by (intros j Hj; apply (vec_at (length cols) (fun i => nth i ds 0 - nth i cs 0)); exact Hj).
  assert (Dl : forall t, lin d cols t = lin ds cols t - lin cs cols t).
  { intros t. unfold lin. rewrite <- sumn_minus. apply sumn_ext. intros j Hj. rewrite Dn by exact Hj. ring. }
  assert (Z : ip n (lin d cols) (lin d cols) = 0).
  { unfold lin at 1. rewrite (ip_comb n (length cols) (fun j => nth j d 0) (fun j => at_ (nth j cols []))). rewrite (sumn_ext _ _ (fun _ => 0)); [apply sumn_zero|].
    intros j Hj. rewrite ip_sym. unfold ip. rewrite (sumn_ext n _ (fun t => (at_ v t - lin cs cols t) * at_ (nth j cols []) t - e t * at_ (nth j cols []) t)); [rewrite sumn_minus, (NE j Hj), (Orth j Hj); ring|].
    intros t Ht. rewrite Dl, (Eq t Ht). ring. }
  intros j Hj. assert (H := Ind d (vec_length _ _) (fun t Ht => ip_zero n _ Z t Ht) j Hj). rewrite Dn in H by exact Hj. lra.
Qed.

(* ---- the regression test ---- *)
Lemma vminus_length x y : length x = length y -> length (vminus x y) = length x.
Proof. intros H. unfold vminus. rewrite map_length, combine_length. lia. Qed.
Lemma vminus_at x y t : length x = length y -> (t < length x)%nat -> at_ (vminus x y) t = at_ x t - at_ y t.
Proof.
  intros L Ht. unfold at_, vminus. rewrite (nth_indep _ 0 ((fun p => fst p - snd p) (0, 0))) by (rewrite map_length, combine_length; lia).
  rewrite (map_nth (fun p : R * R => fst p - snd p)), combine_nth by exact L. reflexivity.
Qed.
Lemma rows_length n cs z : observations n z -> length (combine_rows n cs z) = n.
Proof.
  revert cs. induction z as [|v z IH]; intros [|c cs] Ob; cbn [combine_rows]; try apply repeat_length.
  rewrite map_length, combine_length, map_length, IH, (Ob v) by (try (left; reflexivity); intros u Hu; apply Ob; right; exact Hu). lia.
Qed.
Lemma rows_at n cs z t : observations n z -> length cs = length z -> (t < n)%nat -> at_ (combine_rows n cs z) t = lin cs z t.
Proof.
  revert cs. induction z as [|v z IH]; intros [|c cs] Ob L Ht; try discriminate.
  - cbn. unfold at_, lin. cbn. revert t Ht. induction n as [|n IHn]; intros [|t] Ht; cbn; try reflexivity; try lia. destruct n; [lia|]. apply IHn; [intros u []|lia].
  - assert (Lv : length v = n) by (apply Ob; left; reflexivity). assert (Oz : observations n z) by (intros u Hu; apply Ob; right; exact Hu).
    cbn [combine_rows]. unfold at_ at 1. rewrite (nth_indep _ 0 ((fun p => fst p + snd p) (0, 0))) by (rewrite map_length, combine_length, map_length, rows_length by exact Oz; lia).
    rewrite (map_nth (fun p : R * R => fst p + snd p)), combine_nth by (rewrite map_length, rows_length by exact Oz; exact Lv). cbn [fst snd]. fold (at_ (combine_rows n cs z) t). fold (at_ (map (Rmult c) v) t).
    rewrite IH by (try assumption; cbn in L; lia). rewrite at_map by (rewrite Lv; exact Ht). unfold lin. cbn [length]. rewrite sumn_shift. cbn [nth]. reflexivity.
Qed.
Lemma regression_residual n v zs cs : length v = n -> observations n zs -> centered v -> (forall z, In z zs -> centered z) -> least_squares n v zs cs ->
  residual n v zs (vminus v (combine_rows n cs zs)).
Proof.
  intros Lv Ob Cv Cz LS. assert (NE := normal_equations n v zs cs Ob LS). destruct LS as [Lc _].
  assert (LL : length v = length (combine_rows n cs zs)) by (rewrite rows_length by exact Ob; exact Lv).
  assert (At : forall t, (t < n)%nat -> at_ (vminus v (combine_rows n cs zs)) t = at_ v t - lin cs zs t).
  { intros t Ht. rewrite vminus_at, rows_at by (try assumption; lia). reflexivity. }
  split; [rewrite vminus_length; assumption|]. exists 0, cs. split; [exact Lc|]. split; [|split].
  - intros t Ht. rewrite At by exact Ht. unfold lin. ring.
  - rewrite (sumn_ext n _ _ At), sumn_minus. unfold lin. rewrite sumn_swap, <- Lv, <- vsum_sumn, Cv. rewrite (sumn_ext _ _ (fun _ => 0)); [rewrite sumn_zero; lra|].
    intros j Hj. rewrite sumn_scale, Lv, <- (Ob (nth j zs [])), <- vsum_sumn, Cz by (apply nth_In; exact Hj). lra.
  - intros j Hj. rewrite <- (NE j Hj). apply sumn_ext. intros t Ht. rewrite At by exact Ht. reflexivity.
Qed.
Theorem regression_matrix n x y zs P cx cy : (2 <= n)%nat -> observations n (x :: y :: zs) -> (forall v, In v (x :: y :: zs) -> centered v) ->
  inverts (length (x :: y :: zs)) P (cov (x :: y :: zs)) -> least_squares n x zs cx -> least_squares n y zs cy ->
  regression_par x y zs cx cy = matrix_par (length (x :: y :: zs)) P.
Proof.
  intros Hn Ob Ce Inv Sx Sy. assert (Oz : observations n zs) by (intros v Hv; apply Ob; right; right; exact Hv). assert (Cz : forall v, In v zs -> centered v) by (intros v Hv; apply Ce; right; right; exact Hv).
  assert (Lx : length x = n) by (apply Ob; left; reflexivity). assert (Ly : length y = n) by (apply Ob; right; left; reflexivity).
  assert (Rx := regression_residual n x zs cx Lx Oz (Ce x (or_introl eq_refl)) Cz Sx). assert (Ry := regression_residual n y zs cy Ly Oz (Ce y (or_intror (or_introl eq_refl))) Cz Sy).
  rewrite (matrix_residuals n x y zs P _ _ Hn Ob Inv Rx Ry). unfold regression_par. rewrite Lx, Ly. rewrite (cosine_ip n) by (apply Rx || apply Ry).
  rewrite !(dot_ip _ _ n) by (apply Rx || apply Ry). reflexivity.
Qed.

(* ---- Fisher's test ---- *)
Definition odds (r : R) : R := (1 + r) / (1 - r).
Lemma odds_pos r : -1 < r < 1 -> 0 < odds r.
Proof. intros H. apply Rdiv_lt_0_compat; lra. Qed.
Lemma odds_le r s : -1 < r -> r <= s -> s < 1 -> odds r <= odds s.
Proof.
  intros H1 H2 H3. unfold odds. apply (Rmult_le_reg_r ((1 - r) * (1 - s))); [nra|].
  replace ((1 + r) / (1 - r) * ((1 - r) * (1 - s))) with ((1 + r) * (1 - s)) by (field; lra).
  replace ((1 + s) / (1 - s) * ((1 - r) * (1 - s))) with ((1 + s) * (1 - r)) by (field; lra). nra.
Qed.
Lemma odds_inv r : -1 < r < 1 -> odds (- r) = / odds r.
Proof. intros H. unfold odds. field. lra. Qed.
Lemma ln_le a b : 0 < a -> a <= b -> ln a <= ln b.
Proof. intros H [L| ->]; [left; apply ln_increasing; assumption|right; reflexivity]. Qed.
Lemma fisher_abs r : -1 < r < 1 -> Rabs (1 / 2 * ln (odds r)) = 1 / 2 * ln (odds (Rabs r)).
Proof.
  intros H. destruct (Rle_or_lt 0 r) as [G|G].
  - rewrite (Rabs_right r) by lra. apply Rabs_right. assert (L := ln_le 1 (odds r) ltac:(lra)). rewrite ln_1 in L. assert (1 <= odds r); [|lra].
    replace 1 with (odds 0) by (unfold odds; field). apply odds_le; lra.
  - rewrite (Rabs_left r) by lra. rewrite odds_inv, ln_Rinv by (try apply odds_pos; lra). rewrite Rabs_left1; [lra|].
    assert (L := ln_le (odds r) 1 (odds_pos r H)). rewrite ln_1 in L. assert (odds r <= 1); [|lra]. replace 1 with (odds 0) by (unfold odds; field). apply odds_le; lra.
Qed.
Definition z_value (n k : nat) (r : R) : R := 1 / 2 * ln (odds (Rabs r)) * sqrt (INR n - INR k - 3).
Lemma z_nonneg n k r : -1 < r < 1 -> 0 <= z_value n k r.
Proof. intros H. unfold z_value. rewrite <- fisher_abs by exact H. apply Rmult_le_pos; [apply Rabs_pos|apply sqrt_pos]. Qed.
Lemma fisher_test_eq Phi th n k r : -1 <= r <= 1 ->
  fisher_test Phi th n k r = if Rlt_dec (Rabs r) 1 then (if Rlt_dec (INR n - INR k - 3) 0 then None else Some (if Rlt_dec th (2 * (1 - Phi (z_value n k r))) then true else false)) else None.
Proof.
  intros H. unfold fisher_test. destruct (Rlt_dec (Rabs r) 1) as [A|A].
  - apply Rabs_def2 in A. destruct (Req_EM_T (1 - r) 0); [lra|]. destruct (Rle_dec ((1 + r) / (1 - r)) 0) as [L|_]; [assert (X := odds_pos r ltac:(lra)); unfold odds in X; lra|].
    destruct (Rlt_dec (INR n - INR k - 3) 0); [reflexivity|]. unfold z_value. rewrite <- fisher_abs by lra. reflexivity.
  - destruct (Req_EM_T (1 - r) 0) as [E|E]; [reflexivity|]. assert (r = -1) as ->.
    { destruct (Rle_or_lt 0 r); [rewrite Rabs_right in A by lra|rewrite Rabs_left in A by lra]; lra. }
    destruct (Rle_dec ((1 + -1) / (1 - -1)) 0) as [_|L]; [reflexivity|]. elim L. unfold Rdiv. lra.
Qed.
Lemma z_value_le n k n' k' r s : -1 < r < 1 -> -1 < s < 1 -> Rabs r <= Rabs s -> 0 <= INR n - INR k - 3 <= INR n' - INR k' - 3 -> z_value n k r <= z_value n' k' s.
Proof.
  intros Hr Hs L M. unfold z_value. apply Rmult_le_compat.
  - rewrite <- fisher_abs by exact Hr. apply Rabs_pos.
  - apply sqrt_pos.
  - apply Rmult_le_compat_l; [lra|]. assert (Rabs s < 1) by (apply Rabs_def1; lra). assert (0 <= Rabs r) by apply Rabs_pos. apply ln_le; [apply odds_pos; lra|]. apply odds_le; lra.
  - apply sqrt_le_1; lra.
Qed.

Lemma fisher_none Phi th n k r : -1 <= r <= 1 -> (fisher_test Phi th n k r = None <-> r = 1 \/ r = -1 \/ (n < k + 3)%nat).
Proof.
  intros H. rewrite fisher_test_eq by exact H. assert (N : INR n - INR k - 3 < 0 <-> (n < k + 3)%nat).
  { split; intros L.
    - apply INR_lt. rewrite plus_INR. cbn [INR]. lra.
    - apply lt_INR in L. rewrite plus_INR in L. cbn [INR] in L. lra. }
  destruct (Rlt_dec (Rabs r) 1) as [A|A].
  - apply Rabs_def2 in A. destruct (Rlt_dec _ 0) as [L|L]; split; intros G; try reflexivity; try discriminate; [right; right; apply N, L|].
    exfalso. destruct G as [G|[G|G]]; try lra. apply N in G. lra.
  - split; [intros _|reflexivity]. destruct (Rle_or_lt 0 r); [rewrite Rabs_right in A by lra; left|rewrite Rabs_left in A by lra; right; left]; lra.
Qed.
Lemma fisher_opp Phi th n k r : -1 <= r <= 1 -> fisher_test Phi th n k (- r) = fisher_test Phi th n k r.
Proof. intros H. rewrite !fisher_test_eq by lra. unfold z_value. rewrite Rabs_Ropp. reflexivity. Qed.
Lemma fisher_mono Phi th n k n' k' r s : (forall a b, 0 <= a <= b -> Phi a <= Phi b) -> -1 <= r <= 1 -> -1 < s < 1 -> Rabs r <= Rabs s -> (n + k' <= n' + k)%nat ->
  fisher_test Phi th n k r = Some false -> fisher_test Phi th n' k' s = Some false.
Proof.
  intros Mono Hr Hs L M. rewrite !fisher_test_eq by lra. assert (Sa : Rabs s < 1) by (apply Rabs_def1; lra).
  apply le_INR in M. rewrite !plus_INR in M.
  destruct (Rlt_dec (Rabs r) 1) as [A|A]; [|discriminate]. apply Rabs_def2 in A. destruct (Rlt_dec (INR n - INR k - 3) 0) as [B|B]; [discriminate|].
  destruct (Rlt_dec (Rabs s) 1) as [_|C]; [|lra]. destruct (Rlt_dec (INR n' - INR k' - 3) 0) as [C|_]; [lra|].
  assert (Z := z_value_le n k n' k' r s ltac:(lra) Hs L ltac:(lra)). assert (Z0 := z_nonneg n k r ltac:(lra)). assert (P := Mono _ _ (conj Z0 Z)).
  destruct (Rlt_dec th (2 * (1 - Phi (z_value n k r)))) as [D|D]; [discriminate|]. intros _. destruct (Rlt_dec th _) as [F|F]; [|reflexivity]. lra.
Qed.

(* ---- an invertible covariance matrix needs more observations than variables ---- *)
Definition skip (j0 i : nat) : nat := if Nat.ltb i j0 then i else S i.
Lemma sumn_skip m j0 (f : nat -> R) : (j0 <= m)%nat -> sumn (S m) f = sumn m (fun i => f (skip j0 i)) + f j0.
Proof.
  induction m as [|m IH]; intros H.
  - assert (j0 = 0)%nat as -> by lia. cbn. ring.
  - destruct (Nat.eq_dec j0 (S m)) as [->|Ne].
    + cbn [sumn]. f_equal. rewrite (sumn_ext m (fun i => f (skip (S m) i)) f).
      * unfold skip at 1. destruct (Nat.ltb_spec m (S m)); [reflexivity|lia].
      * intros k Hk. unfold skip. destruct (Nat.ltb_spec k (S m)); [reflexivity|lia].
    + change (sumn (S (S m)) f) with (sumn (S m) f + f (S m)). rewrite IH by lia. cbn [sumn]. unfold skip at 3. destruct (Nat.ltb_spec m j0); [lia|]. ring.
Qed.
Lemma zero_or m (f : nat -> R) : (forall j, (j < m)%nat -> f j = 0) \/ exists j, (j < m)%nat /\ f j <> 0.
Proof.
  induction m as [|m IH]; [left; intros; lia|]. destruct IH as [IH|(j & Hj & N)]; [|right; exists j; split; [lia|exact N]].
  destruct (Req_dec (f m) 0) as [Z|Z]; [left|right; exists m; split; [lia|exact Z]]. intros j Hj. destruct (Nat.eq_dec j m) as [->|Ne]; [exact Z|apply IH; lia].
Qed.
Lemma dependent : forall n m (A : nat -> nat -> R), (n < m)%nat -> exists c, (exists j, (j < m)%nat /\ c j <> 0) /\ forall t, (t < n)%nat -> sumn m (fun j => c j * A j t) = 0.
Proof.
  induction n as [|n IH]; intros m A Hm.
  - exists (fun _ => 1). split; [exists 0%nat; split; [lia|lra]|intros; lia].
  - destruct (zero_or m (fun j => A j n)) as [Z|(j0 & Hj0 & N)].
    + destruct (IH m A ltac:(lia)) as (c & Nz & Eq). exists c. split; [exact Nz|]. intros t Ht. destruct (Nat.eq_dec t n) as [->|Ne]; [|apply Eq; lia].
      rewrite (sumn_ext _ _ (fun _ => 0)); [apply sumn_zero|]. intros j Hj. rewrite Z by exact Hj. ring.
    + destruct m as [|m]; [lia|]. destruct (IH m (fun i t => A (skip j0 i) t - A (skip j0 i) n / A j0 n * A j0 t) ltac:(lia)) as (c' & (i0 & Hi0 & Nz) & Eq).
      set (c0 := - sumn m (fun i => c' i * A (skip j0 i) n) / A j0 n).
      set (c := fun j => if Nat.ltb j j0 then c' j else if Nat.eqb j j0 then c0 else c' (j - 1)%nat).
      assert (Cs : forall i, c (skip j0 i) = c' i).
      { intros i. unfold c, skip. destruct (Nat.ltb_spec i j0) as [L|L].
        - destruct (Nat.ltb_spec i j0); [reflexivity|lia].
        - destruct (Nat.ltb_spec (S i) j0); [lia|]. destruct (Nat.eqb_spec (S i) j0); [lia|]. f_equal. lia. }
      assert (C0 : c j0 = c0) by (unfold c; destruct (Nat.ltb_spec j0 j0); [lia|]; rewrite Nat.eqb_refl; reflexivity).
      exists c. split; [exists (skip j0 i0); split; [unfold skip; destruct (Nat.ltb_spec i0 j0); lia|rewrite Cs; exact Nz]|].
      intros t Ht. rewrite (sumn_skip m j0) by lia. rewrite C0. rewrite (sumn_ext m _ (fun i => c' i * A (skip j0 i) t)) by (intros i _; rewrite Cs; reflexivity).
      destruct (Nat.eq_dec t n) as [->|Ne]; [unfold c0; field; exact N|].
      assert (E := Eq t ltac:(lia)). rewrite (sumn_ext m _ (fun i => c' i * A (skip j0 i) t - (A j0 t / A j0 n) * (c' i * A (skip j0 i) n))) in E by (intros i _; field; exact N).
      rewrite sumn_minus, sumn_scale in E. unfold c0. replace (- sumn m (fun i => c' i * A (skip j0 i) n) / A j0 n * A j0 t) with (- (A j0 t / A j0 n * sumn m (fun i => c' i * A (skip j0 i) n))) by (field; exact N). lra.
Qed.
Lemma enough_observations n vs P : (2 <= n)%nat -> observations n vs -> inverts (length vs) P (cov vs) -> (length vs < n)%nat.
Proof.
  intros Hn Ob Inv. destruct (le_lt_dec n (length vs)) as [L|L]; [|exact L]. exfalso.
  assert (Inv' := inv_ip n (length vs) vs P Hn eq_refl Ob Inv). set (X := fun k => at_ (center (nth k vs []))) in *. set (m := length vs) in *.
  destruct (dependent (n - 1) m X ltac:(lia)) as (c & (j0 & Hj0 & Nz) & Eq).
  assert (Sum : forall k, (k < m)%nat -> X k (n - 1)%nat = - sumn (n - 1) (X k)).
  { intros k Hk. assert (Z := center_sum (nth k vs [])). rewrite vsum_sumn, center_length, (Ob (nth k vs [])) in Z by (apply nth_In; exact Hk). fold (X k) in Z.
    assert (E : sumn n (X k) = sumn (n - 1) (X k) + X k (n - 1)%nat) by (transitivity (sumn (S (n - 1)) (X k)); [f_equal; lia|reflexivity]). rewrite E in Z. lra. }
  assert (All : forall t, (t < n)%nat -> sumn m (fun j => c j * X j t) = 0).
  { intros t Ht. destruct (Nat.eq_dec t (n - 1)) as [->|Ne]; [|apply Eq; lia].
    rewrite (sumn_ext _ _ (fun j => (-1) * sumn (n - 1) (fun t => c j * X j t))).
    - rewrite sumn_scale, sumn_swap. rewrite (sumn_ext (n - 1) _ (fun _ => 0)) by exact Eq. rewrite sumn_zero. ring.
    - intros j Hj. rewrite Sum by exact Hj. rewrite sumn_scale. ring. }
  apply Nz. assert (H : ip n (fun t => sumn m (fun j => c j * X j t)) (W m X P j0) = 0).
  { rewrite (ip_ext n _ (fun _ => 0) _ (W m X P j0)) by (auto; intros t Ht; apply All, Ht). apply ip_zero_l. unfold ip. rewrite (sumn_ext n _ (fun _ => 0)) by (intros; ring). apply sumn_zero. }
  rewrite ip_comb in H. apply (f_equal (fun r => r * / (INR n - 1))) in H. rewrite Rmult_0_l, Rmult_comm, <- sumn_scale in H. rewrite (sumn_single _ j0) in H; [|exact Hj0|].
  - assert (E := W_X n m (/ (INR n - 1)) X P Inv' j0 j0 Hj0 Hj0). destruct (Nat.eq_dec j0 j0); [|congruence]. rewrite ip_sym in E.
    replace (/ (INR n - 1) * (c j0 * ip n (X j0) (W m X P j0))) with (c j0 * (ip n (X j0) (W m X P j0) * / (INR n - 1))) in H by ring. rewrite E in H. lra.
  - intros k Hk Ne. assert (E := W_X n m (/ (INR n - 1)) X P Inv' j0 k Hj0 Hk). destruct (Nat.eq_dec j0 k); [congruence|]. rewrite ip_sym in E.
    replace (/ (INR n - 1) * (c k * ip n (X k) (W m X P j0))) with (c k * (ip n (X k) (W m X P j0) * / (INR n - 1))) by ring. rewrite E. ring.
Qed.

(* ---- perfect correlation ---- *)
Lemma pearson_line n x y r : (0 < n)%nat -> length x = n -> length y = n -> pearson x y = Some r ->
  (Rabs r = 1 <-> exists a b, forall t, (t < n)%nat -> at_ y t = a * at_ x t + b).
Proof.
  intros Hn Lx Ly. rewrite (pearson_cosine n) by assumption. destruct (Req_EM_T _ 0) as [Z|Z]; [discriminate|]. intros E. injection E as E.
  rewrite (cosine_ip n) in E by (rewrite center_length; assumption). set (X := at_ (center x)) in *. set (Y := at_ (center y)) in *.
  assert (Px : 0 < ip n X X) by (assert (G := ip_nonneg n X); destruct (Req_dec (ip n X X) 0) as [Q|Q]; [rewrite Q in Z; lra|lra]).
  assert (Py : 0 < ip n Y Y) by (assert (G := ip_nonneg n Y); destruct (Req_dec (ip n Y Y) 0) as [Q|Q]; [rewrite Q in Z; lra|lra]).
  assert (Sx := sqrt_lt_R0 _ Px). assert (Sy := sqrt_lt_R0 _ Py). assert (XX := sqrt_sqrt _ (Rlt_le _ _ Px)). assert (YY := sqrt_sqrt _ (Rlt_le _ _ Py)).
  assert (R2 : r * r = ip n X Y * ip n X Y / (ip n X X * ip n Y Y)).
  { rewrite <- E. clear - Sx Sy XX YY. set (xy := ip n X Y). clearbody xy. generalize dependent (sqrt (ip n X X)). generalize dependent (sqrt (ip n Y Y)). intros q Sq Q p Sp Pp. rewrite <- Pp, <- Q. field. split; lra. }
  assert (Rp : 0 < ip n X X * ip n Y Y) by (apply Rmult_lt_0_compat; assumption).
  split.
  - intros A. assert (A2 : r * r = 1) by (assert (H := Rsqr_abs r); unfold Rsqr in H; rewrite H, A; ring). rewrite A2 in R2.
    assert (XY : ip n X Y * ip n X Y = ip n X X * ip n Y Y).
    { transitivity (ip n X Y * ip n X Y / (ip n X X * ip n Y Y) * (ip n X X * ip n Y Y)); [field; split; lra|]. rewrite <- R2. ring. }
    set (c := ip n X Y / ip n X X). assert (Q : ip n (fun t => Y t - c * X t) (fun t => Y t - c * X t) = 0).
    { rewrite ip_sq, (ip_sym n Y X). unfold c. replace (ip n Y Y - 2 * (ip n X Y / ip n X X) * ip n X Y + ip n X Y / ip n X X * (ip n X Y / ip n X X) * ip n X X) with (ip n Y Y - ip n X Y * ip n X Y / ip n X X) by (field; lra).
      rewrite XY. field. lra. }
    exists c, (mean y - c * mean x). intros t Ht. assert (H := ip_zero n _ Q t Ht). cbn beta in H. unfold X, Y in H. rewrite !center_at in H by lia. lra.
  - intros (a & b & L). assert (M : mean y = a * mean x + b).
    { assert (H1 := mean_eq x n Lx Hn). assert (H2 := mean_eq y n Ly Hn). rewrite (sumn_ext n _ _ L), sumn_plus, sumn_scale, sumn_const, H1 in H2.
      assert (0 < INR n) by (apply lt_0_INR; exact Hn). apply (Rmult_eq_reg_l (INR n)); [|lra]. rewrite <- H2. ring. }
    assert (YX : forall t, (t < n)%nat -> Y t = a * X t) by (intros t Ht; unfold X, Y; rewrite !center_at, (L t Ht), M by lia; ring).
    assert (E1 : ip n X Y = a * ip n X X) by (rewrite ip_sym, (ip_ext n Y (fun t => a * X t) X X YX) by auto; apply ip_scale).
    assert (E2 : ip n Y Y = a * (a * ip n X X)) by (rewrite (ip_ext n Y (fun t => a * X t) Y Y YX) by auto; rewrite ip_scale, E1; reflexivity).
    rewrite E1, E2 in R2. rewrite E2 in Py.
    assert (A0 : a <> 0) by (intros ->; lra). assert (r * r = 1) by (rewrite R2; field; split; [lra|exact A0]).
    assert (H1 := Rsqr_abs r). unfold Rsqr in H1. assert (H2 := Rabs_pos r). nra.
Qed.
