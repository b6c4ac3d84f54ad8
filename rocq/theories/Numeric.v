(* The numbers computed by the correlation step and the independence tests, in exact real arithmetic.
   Rounding is not modelled: a float64 is read as a real number, nan as None. *)
From Coq Require Import Reals List Lia Lra.
Import ListNotations.
Open Scope R_scope.

(* tensor.sum() *)
Fixpoint vsum (x : list R) : R := match x with [] => 0 | a :: r => a + vsum r end.
(* elementwise product *)
Fixpoint vmul (x y : list R) : list R := match x, y with a :: r, b :: s => a * b :: vmul r s | _, _ => [] end.
(* tensor.mean() *)
Definition mean (x : list R) : R := vsum x / INR (length x).
(* x_val - x_val.mean() *)
Definition center (x : list R) : list R := map (fun a => a - mean x) x.
(* torch.dot *)
Definition dot (x y : list R) : R := vsum (vmul x y).
(* tensor.std(unbiased=False) *)
Definition std (x : list R) : R := sqrt (vsum (vmul (center x) (center x)) / INR (length x)).

(* calculation.py:43-48 *)
Definition clamp (c : R) : R := if Rlt_dec c (-1) then -1 else if Rlt_dec 1 c then 1 else c.
(* calculation.py:36-48; None is nan (a constant variable) *)
Definition pearson (x y : list R) : option R :=
  let cov_xy := mean (vmul (center x) (center y)) in
  let d := std x * std y in
  if Req_EM_T d 0 then None else Some (clamp (cov_xy / d)).

(* common.py:116-124 (PartialCorrelationTest); None: the test gives up.  For correlations outside [-1,1],
   which C45 excludes, Python would return a complex root. *)
Definition partial3 (cor_xy cor_xz cor_yz : R) : option R :=
  let numerator := cor_xy - cor_xz * cor_yz in
  let denominator := sqrt ((1 - cor_xz * cor_xz) * (1 - cor_yz * cor_yz)) in
  if Req_EM_T denominator 0 then None else Some (numerator / denominator).

Definition matrix := nat -> nat -> R.
(* sum over k < m *)
Fixpoint sumn (m : nat) (f : nat -> R) : R := match m with O => 0 | S k => sumn k f + f k end.
(* torch.mm of two m x m matrices *)
Definition mm (m : nat) (A B : matrix) : matrix := fun i j => sumn m (fun k => A i k * B k j).
(* torch.cov of the stacked values (divisor: observations - 1) *)
Definition cov (vs : list (list R)) : matrix := fun i j =>
  dot (center (nth i vs [])) (center (nth j vs [])) / (INR (length (nth i vs [])) - 1).
(* common.py:205-209: torch.zeros with the diagonal copied; common.py:211-212: elementwise root *)
Definition root_diag (A : matrix) : matrix := fun i j => if Nat.eq_dec i j then sqrt (A i i) else sqrt 0.
(* common.py:200-216 (ExtendedPartialCorrelationTestMatrix), from the inverse of the m x m covariance matrix *)
Definition matrix_par (m : nat) (inverse_cov_matrix : matrix) : R :=
  let helper := mm m (root_diag inverse_cov_matrix) inverse_cov_matrix in
  let precision_matrix := mm m helper (root_diag inverse_cov_matrix) in
  -1 * precision_matrix 0%nat 1%nat / sqrt (precision_matrix 0%nat 0%nat * precision_matrix 1%nat 1%nat).

(* torch.matmul(coefficients, z): the combination of the rows of z *)
Fixpoint combine_rows (n : nat) (cs : list R) (z : list (list R)) : list R :=
  match cs, z with
  | c :: cr, v :: r => map (fun p => fst p + snd p) (combine (map (Rmult c) v) (combine_rows n cr r))
  | _, _ => repeat 0 n
  end.
(* x - y, elementwise *)
Definition vminus (x y : list R) : list R := map (fun p => fst p - snd p) (combine x y).
(* common.py:289-298 (partial_correlation_regression), from the coefficients that lstsq returned *)
Definition regression_par (x y : list R) (z : list (list R)) (model_x model_y : list R) : R :=
  let residual_x := vminus x (combine_rows (length x) model_x z) in
  let residual_y := vminus y (combine_rows (length y) model_y z) in
  dot residual_x residual_y / (sqrt (dot residual_x residual_x) * sqrt (dot residual_y residual_y)).

(* common.py:49-59 and 130-141, for Python floats: Fisher's z and the two-sided p-value against the threshold.
   k is the number of control variables, Phi the normal distribution function (scipy, an argument).
   None: math.log or math.sqrt raises, or division by zero. *)
Definition fisher_test (Phi : R -> R) (threshold : R) (sample_size k : nat) (corr : R) : option bool :=
  if Req_EM_T (1 - corr) 0 then None
  else if Rle_dec ((1 + corr) / (1 - corr)) 0 then None
  else if Rlt_dec (INR sample_size - INR k - 3) 0 then None
  else
    let fisher_z := 1 / 2 * ln ((1 + corr) / (1 - corr)) in
    let z_value := Rabs fisher_z * sqrt (INR sample_size - INR k - 3) in
    let p_value := 2 * (1 - Phi z_value) in
    Some (if Rlt_dec threshold p_value then true else false).

(* multivariate_regression.py:43-60: the coefficient stored as direct effect, from the solution that lstsq
   returned for the columns [cause; covariates ...] *)
Definition effect_value (coefficients : list R) : R := nth 0 coefficients 0.
