(* The decisions of the correlation tests in Python floats without rounding: None is nan, and errors are raised as
   Python does. *)
From Coq Require Import Reals List.
From Verif Require Import Base Numeric.
Import ListNotations.
Open Scope R_scope.

(* common.py:49-59 and 129-141: (1 + corr) / (1 - corr) divides by zero for corr = 1, math.log(0.0) raises ValueError, as does
   math.sqrt of a negative number; for nan math.log gives nan, and nan > threshold is False *)
Definition fisher_py (Phi : R -> R) (threshold : R) (sample_size k : nat) (corr : option R) : res bool :=
  match corr with
  | None => if Rlt_dec (INR sample_size - INR k - 3) 0 then Err ValueError else Ok false
  | Some r =>
      if Req_EM_T (1 - r) 0 then Err ZeroDivisionError
      else if Rle_dec ((1 + r) / (1 - r)) 0 then Err ValueError
      else if Rlt_dec (INR sample_size - INR k - 3) 0 then Err ValueError
      else
        let fisher_z := 1 / 2 * ln ((1 + r) / (1 - r)) in
        let z_value := Rabs fisher_z * sqrt (INR sample_size - INR k - 3) in
        let p_value := 2 * (1 - Phi z_value) in
        Ok (if Rlt_dec threshold p_value then true else false)
  end.
(* common.py:116-124: the denominator is nan, and so not 0, when one of its correlations is; None: the test returns *)
Definition partial_py (Phi : R -> R) (threshold : R) (sample_size k : nat) (cor_xy cor_xz cor_yz : option R) : res (option bool) :=
  let test par_corr := rbind (fisher_py Phi threshold sample_size k par_corr) (fun b => Ok (Some b)) in
  match cor_xz, cor_yz with
  | Some b, Some c =>
      let denominator := sqrt ((1 - b * b) * (1 - c * c)) in
      if Req_EM_T denominator 0 then Ok None
      else match cor_xy with Some a => test (Some ((a - b * c) / denominator)) | None => test None end
  | _, _ => test None
  end.
