(* Numbers: correlation (C45), partial correlation (C46, C61), the decision of a test (C62), effects (C63).
   Exact real arithmetic. *)
From Coq Require Import Reals List Lia Lra Psatz.
From Verif Require Import Numeric NumericSpec NumericFacts NumericFacts2.
Import ListNotations.
Open Scope R_scope.

(* C45: for variables that vary, the correlation exists, lies in [-1,1], is the cosine of the centred variables and
   does not depend on their order; *)
Theorem C45_correlation : forall n x y, length x = n -> length y = n ->
  (exists s t, (s < n)%nat /\ (t < n)%nat /\ at_ x s <> at_ x t) -> (exists s t, (s < n)%nat /\ (t < n)%nat /\ at_ y s <> at_ y t) ->
  exists r, pearson x y = Some r /\ pearson y x = Some r /\ -1 <= r <= 1 /\ r = cosine (center x) (center y).
Proof.
  intros n x y Lx Ly (s & t & Hs & Ht & Nx) (s' & t' & Hs' & Ht' & Ny). assert (Hn : (0 < n)%nat) by lia.
  set (X := at_ (center x)). set (Y := at_ (center y)).
  assert (Px : 0 < ip n X X).
  { assert (G := ip_nonneg n X). destruct (Req_dec (ip n X X) 0) as [Q|Q]; [|lra]. elim Nx. apply (proj1 (centered_zero n x Hn Lx) Q); assumption. }
  assert (Py : 0 < ip n Y Y).
  { assert (G := ip_nonneg n Y). destruct (Req_dec (ip n Y Y) 0) as [Q|Q]; [|lra]. elim Ny. apply (proj1 (centered_zero n y Hn Ly) Q); assumption. }
  exists (cosine (center x) (center y)). rewrite (pearson_cosine n x y), (pearson_cosine n y x) by assumption. fold X Y.
  destruct (Req_EM_T (ip n X X * ip n Y Y) 0) as [Z|_]; [nra|]. destruct (Req_EM_T (ip n Y Y * ip n X X) 0) as [Z|_]; [nra|].
  split; [reflexivity|]. split; [f_equal; apply (cosine_sym n); rewrite center_length; assumption|]. split; [|reflexivity].
  rewrite (cosine_ip n) by (rewrite center_length; assumption). apply cosine_bound; assumption.
Qed.
Print Assumptions C45_correlation.
(* it exists only for them; *)
Theorem C45_constant : forall n x y, (0 < n)%nat -> length x = n -> length y = n ->
  (pearson x y = None <-> (forall s t, (s < n)%nat -> (t < n)%nat -> at_ x s = at_ x t) \/ (forall s t, (s < n)%nat -> (t < n)%nat -> at_ y s = at_ y t)).
Proof.
  intros n x y Hn Lx Ly. rewrite (pearson_cosine n) by assumption. rewrite <- (centered_zero n x), <- (centered_zero n y) by assumption.
  destruct (Req_EM_T _ 0) as [Z|Z]; split; intros H; try reflexivity; try discriminate.
  - apply Rmult_integral in Z. exact Z.
  - elim Z. destruct H as [-> | ->]; ring.
Qed.
Print Assumptions C45_constant.
(* it is the same after a change of unit, up to the sign of the factor; *)
Theorem C45_rescale : forall n a b x y, (0 < n)%nat -> length x = n -> length y = n ->
  (0 < a -> pearson (map (fun v => a * v + b) x) y = pearson x y) /\
  (a < 0 -> pearson (map (fun v => a * v + b) x) y = match pearson x y with Some r => Some (- r) | None => None end).
Proof.
  intros n a b x y Hn Lx Ly. split; intros Ha; rewrite (pearson_affine n) by (try assumption; lra).
  - destruct (pearson x y) as [r|]; [|reflexivity]. cbn [option_map]. destruct (Rlt_dec 0 a); [f_equal; ring|lra].
  - destruct (pearson x y) as [r|]; [|reflexivity]. cbn [option_map]. destruct (Rlt_dec 0 a); [lra|f_equal; ring].
Qed.
Print Assumptions C45_rescale.
(* and it is 1 or -1 exactly for variables on a line. *)
Theorem C45_line : forall n x y r, (0 < n)%nat -> length x = n -> length y = n -> pearson x y = Some r ->
  (Rabs r = 1 <-> exists a b, forall t, (t < n)%nat -> at_ y t = a * at_ x t + b).
Proof. exact pearson_line. Qed.
Print Assumptions C45_line.

(* C46: the formula for three variables and the formula with the inverse covariance matrix agree; *)
Theorem C46_agree : forall n x y z P, (2 <= n)%nat -> observations n [x; y; z] -> inverts 3 P (cov [x; y; z]) ->
  exists rxy rxz ryz, pearson x y = Some rxy /\ pearson x z = Some rxz /\ pearson y z = Some ryz /\ partial3 rxy rxz ryz = Some (matrix_par 3 P).
Proof. exact partial3_matrix. Qed.
Print Assumptions C46_agree.
(* and for any number of controls the matrix formula is the correlation of what regression on the controls and a
   constant leaves of the two variables; the residuals exist, and the number is neither 1 nor -1. *)
Theorem C46_partial_correlation : forall n x y zs P, (2 <= n)%nat -> observations n (x :: y :: zs) ->
  inverts (length (x :: y :: zs)) P (cov (x :: y :: zs)) ->
  (exists ex ey, residual n x zs ex /\ residual n y zs ey) /\
  (forall ex ey, residual n x zs ex -> residual n y zs ey -> matrix_par (length (x :: y :: zs)) P = cosine ex ey) /\
  -1 < matrix_par (length (x :: y :: zs)) P < 1.
Proof.
  intros n x y zs P Hn Ob Inv. split; [|split].
  - destruct (residuals_exist n x y zs P Hn Ob Inv) as [[ex Ex] [ey Ey]]. exists ex, ey. split; assumption.
  - intros ex ey Ex Ey. exact (matrix_residuals n x y zs P ex ey Hn Ob Inv Ex Ey).
  - exact (matrix_par_strict n x y zs P Hn Ob Inv).
Qed.
Print Assumptions C46_partial_correlation.

(* C61: the regression test computes the same number for variables with mean zero; *)
Theorem C61_regression_partial : forall n x y zs P cx cy, (2 <= n)%nat -> observations n (x :: y :: zs) -> (forall v, In v (x :: y :: zs) -> centered v) ->
  inverts (length (x :: y :: zs)) P (cov (x :: y :: zs)) -> least_squares n x zs cx -> least_squares n y zs cy ->
  regression_par x y zs cx cy = matrix_par (length (x :: y :: zs)) P.
Proof. exact regression_matrix. Qed.
Print Assumptions C61_regression_partial.

(* C62: a test answers exactly when the correlation is not perfect and there are at least three observations more
   than controls; *)
Theorem C62_answers : forall Phi th n k r, -1 <= r <= 1 -> (fisher_test Phi th n k r = None <-> r = 1 \/ r = -1 \/ (n < k + 3)%nat).
Proof. exact fisher_none. Qed.
Print Assumptions C62_answers.
(* the sign does not matter; *)
Theorem C62_sign : forall Phi th n k r, -1 <= r <= 1 -> fisher_test Phi th n k (- r) = fisher_test Phi th n k r.
Proof. exact fisher_opp. Qed.
Print Assumptions C62_sign.
(* a stronger correlation or more observations never turn dependence into independence; *)
Theorem C62_monotone : forall Phi th n k n' k' r s, (forall a b, 0 <= a <= b -> Phi a <= Phi b) -> -1 <= r <= 1 -> -1 < s < 1 -> Rabs r <= Rabs s -> (n + k' <= n' + k)%nat ->
  fisher_test Phi th n k r = Some false -> fisher_test Phi th n' k' s = Some false.
Proof. exact fisher_mono. Qed.
Print Assumptions C62_monotone.
(* no correlation at all is independence for every threshold below 1; *)
Theorem C62_zero : forall Phi th n k, Phi 0 = 1 / 2 -> th < 1 -> (k + 3 <= n)%nat -> fisher_test Phi th n k 0 = Some true.
Proof.
  intros Phi th n k P0 Ht L. destruct (fisher_test Phi th n k 0) as [b|] eqn:E.
  - rewrite fisher_test_eq in E by lra. rewrite Rabs_R0 in E. destruct (Rlt_dec 0 1); [|lra]. destruct (Rlt_dec _ 0); [discriminate|]. unfold z_value in E. rewrite Rabs_R0 in E.
    replace (odds 0) with 1 in E by (unfold odds; field). rewrite ln_1 in E. replace (1 / 2 * 0 * sqrt (INR n - INR k - 3)) with 0 in E by ring. rewrite P0 in E.
    destruct (Rlt_dec th _) as [_|N]; [symmetry; exact E|lra].
  - apply fisher_none in E; [|lra]. destruct E as [E|[E|E]]; [lra|lra|lia].
Qed.
Print Assumptions C62_zero.
(* and the test on the inverse covariance matrix always answers: if the matrix is invertible there are enough
   observations. *)
Theorem C62_matrix_answers : forall Phi th n x y zs P, (2 <= n)%nat -> observations n (x :: y :: zs) -> inverts (length (x :: y :: zs)) P (cov (x :: y :: zs)) ->
  exists b, fisher_test Phi th n (length zs) (matrix_par (length (x :: y :: zs)) P) = Some b.
Proof.
  intros Phi th n x y zs P Hn Ob Inv. assert (B := matrix_par_strict n x y zs P Hn Ob Inv). assert (L := enough_observations n _ P Hn Ob Inv). cbn [length] in L.
  destruct (fisher_test Phi th n (length zs) (matrix_par (length (x :: y :: zs)) P)) as [b|] eqn:E; [exists b; reflexivity|].
  apply fisher_none in E; [|lra]. destruct E as [E|[E|E]]; [lra|lra|lia].
Qed.
Print Assumptions C62_matrix_answers.

(* C63: if the effect variable is a combination of the cause and the covariates plus noise that is uncorrelated
   with them, the stored effect is the coefficient of the cause; *)
Theorem C63_coefficient : forall n u ps v cs ds e, observations n (u :: ps) -> independent_columns n (u :: ps) -> length ds = length (u :: ps) ->
  (forall t, (t < n)%nat -> at_ v t = lin ds (u :: ps) t + e t) ->
  (forall j, (j < length (u :: ps))%nat -> sumn n (fun t => e t * at_ (nth j (u :: ps) []) t) = 0) ->
  least_squares n v (u :: ps) cs -> effect_value cs = nth 0 ds 0.
Proof. intros n u ps v cs ds e Ob Ind Ld Eq Orth LS. exact (recovery n v (u :: ps) cs ds e Ob Ind Ld Eq Orth LS 0%nat ltac:(cbn; lia)). Qed.
Print Assumptions C63_coefficient.
(* so for variables of mean zero a constant added to the effect variable does not matter. *)
Theorem C63_shift_partial : forall n u ps v b cs cs', length v = n -> observations n (u :: ps) -> independent_columns n (u :: ps) -> (forall p, In p (u :: ps) -> centered p) ->
  least_squares n v (u :: ps) cs -> least_squares n (map (fun a => a + b) v) (u :: ps) cs' -> effect_value cs' = effect_value cs.
Proof.
  intros n u ps v b cs cs' Lv Ob Ind Ce LS LS'. assert (NE := normal_equations n v (u :: ps) cs Ob LS).
  apply (C63_coefficient n u ps (map (fun a => a + b) v) cs' cs (fun t => (at_ v t - lin cs (u :: ps) t) + b) Ob Ind (proj1 LS)); [| |exact LS'].
  - intros t Ht. rewrite at_map by lia. ring.
  - intros j Hj. rewrite (sumn_ext n _ (fun t => (at_ v t - lin cs (u :: ps) t) * at_ (nth j (u :: ps) []) t + b * at_ (nth j (u :: ps) []) t)) by (intros; ring).
    rewrite sumn_plus, (NE j Hj), sumn_scale. assert (In (nth j (u :: ps) []) (u :: ps)) as I by (apply nth_In; exact Hj).
    rewrite <- (Ob _ I), <- vsum_sumn, (Ce _ I). ring.
Qed.
Print Assumptions C63_shift_partial.
(* ---- cases ---- *)
Definition xA : list R := [2; -2; 0; 0].
Definition yA : list R := [2; 0; 0; -2].
Definition zA : list R := [1; -1; -1; 1].
Definition shift : list R -> list R := map (fun a => a + 1).
Definition PA : matrix := fun i j => 3 / 4 * nth j (nth i [[2; -1; -2]; [-1; 1; 1]; [-2; 1; 3]] []) 0.
Ltac sums := repeat (unfold at_, lin, misfit, cov, dot, center, mean, vsum, vmul, sumn, shift, xA, yA, zA, PA, centered; cbn [nth length map INR]).
Lemma obs_A : observations 4 [xA; yA; zA].
Proof. intros v [<-|[<-|[<-|[]]]]; reflexivity. Qed.
Lemma inv_A : inverts 3 PA (cov [xA; yA; zA]).
Proof. intros [|[|[|i]]] [|[|[|j]]] Hi Hj; try lia; sums; destruct (Nat.eq_dec _ _); try lia; try congruence; field. Qed.
Lemma obs_B : observations 4 [shift xA; shift yA; zA].
Proof. intros v [<-|[<-|[<-|[]]]]; reflexivity. Qed.
Lemma inv_B : inverts 3 PA (cov [shift xA; shift yA; zA]).
Proof. intros [|[|[|i]]] [|[|[|j]]] Hi Hj; try lia; sums; destruct (Nat.eq_dec _ _); try lia; try congruence; field. Qed.
Lemma par_A : matrix_par 3 PA = 1 / sqrt 2.
Proof.
  rewrite matrix_par_plain by (unfold PA; cbn; try lia; lra). unfold PA. cbn [nth].
  replace (3 / 4 * 2 * (3 / 4 * 1)) with (3 / 4 * (3 / 4) * 2) by field. rewrite sqrt_mult, sqrt_square by lra.
  assert (0 < sqrt 2) by (apply sqrt_lt_R0; lra). field. lra.
Qed.
Lemma ls_x v : v = xA \/ v = shift xA -> least_squares 4 v [zA] [1].
Proof. intros [-> | ->]; (split; [reflexivity|]; intros [|d [|d' ds]]; try discriminate; intros _; sums; assert (H := Rle_0_sqr (d - 1)); unfold Rsqr in H; nra). Qed.
Lemma ls_y v : v = yA \/ v = shift yA -> least_squares 4 v [zA] [0].
Proof. intros [-> | ->]; (split; [reflexivity|]; intros [|d [|d' ds]]; try discriminate; intros _; sums; assert (H := Rle_0_sqr d); unfold Rsqr in H; nra). Qed.

(* Without the hypothesis on the means the regression test computes something else, because it fits no constant:
   here it finds sqrt (2/3) where the partial correlation is sqrt (1/2). *)
Theorem C61_regression_refuted : exists n x y zs P cx cy, (2 <= n)%nat /\ observations n (x :: y :: zs) /\
  inverts (length (x :: y :: zs)) P (cov (x :: y :: zs)) /\ least_squares n x zs cx /\ least_squares n y zs cy /\
  regression_par x y zs cx cy <> matrix_par (length (x :: y :: zs)) P.
Proof.
  exists 4%nat, (shift xA), (shift yA), [zA], PA, [1], [0]. split; [lia|]. split; [exact obs_B|]. split; [exact inv_B|].
  split; [apply ls_x; right; reflexivity|]. split; [apply ls_y; right; reflexivity|].
  cbn [length]. rewrite par_A. intros E.
  assert (R : regression_par (shift xA) (shift yA) [zA] [1] [0] = 8 / (sqrt 8 * sqrt 12)).
  { unfold regression_par. assert (D1 : dot (vminus (shift xA) (combine_rows (length (shift xA)) [1] [zA])) (vminus (shift yA) (combine_rows (length (shift yA)) [0] [zA])) = 8) by (unfold dot, vminus, combine_rows, shift, xA, yA, zA; cbn; lra).
    assert (D2 : dot (vminus (shift xA) (combine_rows (length (shift xA)) [1] [zA])) (vminus (shift xA) (combine_rows (length (shift xA)) [1] [zA])) = 8) by (unfold dot, vminus, combine_rows, shift, xA, yA, zA; cbn; lra).
    assert (D3 : dot (vminus (shift yA) (combine_rows (length (shift yA)) [0] [zA])) (vminus (shift yA) (combine_rows (length (shift yA)) [0] [zA])) = 12) by (unfold dot, vminus, combine_rows, shift, xA, yA, zA; cbn; lra).
    rewrite D1, D2, D3. reflexivity. }
  rewrite R in E. assert (S2 : 0 < sqrt 2) by (apply sqrt_lt_R0; lra). assert (S8 : 0 < sqrt 8) by (apply sqrt_lt_R0; lra). assert (S12 : 0 < sqrt 12) by (apply sqrt_lt_R0; lra).
  assert (Q : (8 / (sqrt 8 * sqrt 12)) * (8 / (sqrt 8 * sqrt 12)) = (1 / sqrt 2) * (1 / sqrt 2)) by (rewrite E; reflexivity).
  assert (Q1 : (8 / (sqrt 8 * sqrt 12)) * (8 / (sqrt 8 * sqrt 12)) = 64 / ((sqrt 8 * sqrt 8) * (sqrt 12 * sqrt 12))) by (field; lra).
  assert (Q2 : (1 / sqrt 2) * (1 / sqrt 2) = 1 / (sqrt 2 * sqrt 2)) by (field; lra).
  rewrite Q1, Q2, !sqrt_sqrt in Q by lra. lra.
Qed.
Print Assumptions C61_regression_refuted.
(* Nor is the direct effect independent of the zero point of the effect variable. *)
Theorem C63_shift_refuted : exists n u ps v b cs cs', length v = n /\ observations n (u :: ps) /\ independent_columns n (u :: ps) /\
  least_squares n v (u :: ps) cs /\ least_squares n (map (fun a => a + b) v) (u :: ps) cs' /\ effect_value cs' <> effect_value cs.
Proof.
  exists 2%nat, [1; 2], [], [1; 2], 1, [1], [8 / 5]. split; [reflexivity|]. split; [intros v [<-|[]]; reflexivity|]. split; [|split; [|split]].
  - intros [|c [|c' cs]]; try discriminate. intros _ H [|j] Hj; [|cbn in Hj; lia]. assert (H0 := H 0%nat ltac:(lia)). unfold lin, at_ in H0. cbn in H0. cbn. lra.
  - split; [reflexivity|]. intros [|d [|d' ds]]; try discriminate. intros _. unfold misfit, lin, at_. cbn. assert (H := Rle_0_sqr (d - 1)). unfold Rsqr in H. nra.
  - split; [reflexivity|]. intros [|d [|d' ds]]; try discriminate. intros _. unfold misfit, lin, at_. cbn. assert (H := Rle_0_sqr (d - 8 / 5)). unfold Rsqr in H. nra.
  - unfold effect_value. cbn. lra.
Qed.
Print Assumptions C63_shift_refuted.

Example C45_nonvacuous : pearson [1; 2; 3] [1; 3; 2] = Some (1 / 2).
Proof.
  destruct (C45_correlation 3 [1; 2; 3] [1; 3; 2] eq_refl eq_refl) as (r & E & _ & _ & R).
  - exists 0%nat, 1%nat. split; [lia|]. split; [lia|]. unfold at_. cbn. lra.
  - exists 0%nat, 1%nat. split; [lia|]. split; [lia|]. unfold at_. cbn. lra.
  - rewrite E, R. f_equal. unfold cosine, center, mean, at_. cbn.
    match goal with |- ?a / (sqrt ?b * sqrt ?c) = _ => replace a with 1 by field; replace b with 2 by field; replace c with 2 by field end.
    rewrite sqrt_sqrt by lra. reflexivity.
Qed.
Example C45_rescale_nonvacuous : pearson (map (fun v => -2 * v + 7) [1; 2; 3]) [1; 3; 2] = Some (- (1 / 2)).
Proof. rewrite (proj2 (C45_rescale 3 (-2) 7 [1; 2; 3] [1; 3; 2] ltac:(lia) eq_refl eq_refl) ltac:(lra)), C45_nonvacuous. reflexivity. Qed.
Example C45_constant_nonvacuous : pearson [5; 5; 5] [1; 3; 2] = None.
Proof. apply (C45_constant 3); [lia|reflexivity|reflexivity|]. left. intros [|[|[|s]]] [|[|[|t]]] Hs Ht; try lia; reflexivity. Qed.
Example C46_nonvacuous : matrix_par 3 PA = 1 / sqrt 2 /\ exists a b c, pearson xA yA = Some a /\ pearson xA zA = Some b /\ pearson yA zA = Some c /\ partial3 a b c = Some (1 / sqrt 2).
Proof. split; [exact par_A|]. rewrite <- par_A. exact (C46_agree 4 xA yA zA PA ltac:(lia) obs_A inv_A). Qed.
Example C46_partial_correlation_nonvacuous : exists ex ey, residual 4 xA [zA] ex /\ residual 4 yA [zA] ey /\ cosine ex ey = 1 / sqrt 2.
Proof.
  destruct (C46_partial_correlation 4 xA yA [zA] PA ltac:(lia) obs_A inv_A) as ((ex & ey & Ex & Ey) & H & _). exists ex, ey.
  split; [exact Ex|]. split; [exact Ey|]. rewrite <- (H ex ey Ex Ey). exact par_A.
Qed.
Example C61_nonvacuous : regression_par xA yA [zA] [1] [0] = 1 / sqrt 2.
Proof.
  rewrite <- par_A. apply (C61_regression_partial 4 xA yA [zA] PA [1] [0]); [lia|exact obs_A| |exact inv_A|apply ls_x; left; reflexivity|apply ls_y; left; reflexivity].
  intros v [<-|[<-|[<-|[]]]]; sums; lra.
Qed.
Example C62_nonvacuous : fisher_test (fun _ => 1 / 2) (1 / 100) 10 2 (1 / 2) = Some true /\ fisher_test (fun _ => 1) (1 / 100) 10 2 (1 / 2) = Some false /\
  fisher_test (fun _ => 1) (1 / 100) 12 2 (- 3 / 4) = Some false /\ fisher_test (fun _ => 1) (1 / 100) 4 2 (1 / 2) = None.
Proof.
  assert (F : fisher_test (fun _ => 1) (1 / 100) 10 2 (1 / 2) = Some false).
  { rewrite fisher_test_eq by lra. rewrite (Rabs_right (1 / 2)) by lra. destruct (Rlt_dec (1 / 2) 1); [|lra]. destruct (Rlt_dec _ 0) as [L|_]; [cbn in L; lra|]. destruct (Rlt_dec _ _) as [L|_]; [lra|reflexivity]. }
  split; [|split; [exact F|split]].
  - rewrite fisher_test_eq by lra. rewrite (Rabs_right (1 / 2)) by lra. destruct (Rlt_dec (1 / 2) 1); [|lra]. destruct (Rlt_dec _ 0) as [L|_]; [cbn in L; lra|]. destruct (Rlt_dec _ _) as [_|L]; [reflexivity|lra].
  - apply (C62_monotone (fun _ => 1) (1 / 100) 10 2 12 2 (1 / 2) (- 3 / 4)); [intros; lra|lra|lra| |lia|exact F].
    rewrite Rabs_right, Rabs_left by lra. lra.
  - apply C62_answers; [lra|]. right. right. lia.
Qed.
Example C62_matrix_nonvacuous : exists b, fisher_test (fun _ => 1) (1 / 100) 4 1 (1 / sqrt 2) = Some b.
Proof. rewrite <- par_A. exact (C62_matrix_answers (fun _ => 1) (1 / 100) 4 xA yA [zA] PA ltac:(lia) obs_A inv_A). Qed.
(* v = 4 u - 2 p + noise *)
Example C63_nonvacuous : forall cs, least_squares 4 [3; -1; -5; 3] [[1; 0; -1; 0]; [0; 1; 0; -1]] cs ->
  effect_value cs = 4.
Proof.
  intros cs LS. apply (C63_coefficient 4 [1; 0; -1; 0] [[0; 1; 0; -1]] [3; -1; -5; 3] cs [4; -2] (fun t => nth t [-1; 1; -1; 1] 0)); [| |reflexivity| | |exact LS].
  - intros w [<-|[<-|[]]]; reflexivity.
  - intros [|a [|b [|c l]]]; try discriminate. intros _ H. assert (H0 := H 0%nat ltac:(lia)). assert (H1 := H 1%nat ltac:(lia)). unfold lin, at_ in H0, H1. cbn in H0, H1.
    intros [|[|j]] Hj; cbn in *; try lia; lra.
  - intros [|[|[|[|t]]]] Ht; try lia; unfold lin, at_; cbn; lra.
  - intros [|[|j]] Hj; cbn in Hj; try lia; unfold at_; cbn; lra.
Qed.
