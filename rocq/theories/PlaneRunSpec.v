(* Specification vocabulary for C120. *)
From Coq Require Import Reals List.
From Verif Require Import Base PyDict Graph Actions IndepTests Numeric NumericSpec Nan NanSpec PlaneSpec.
Import ListNotations.
Open Scope R_scope.

(* The routines N calculate without rounding, as in C98, and the test with larger conditioning sets uses an inverse of the
   covariance matrix if there is one (common.py:199-233).  The regression of the last step always answers: torch.linalg.lstsq
   accepts columns of any rank. *)
Record python_run (dec : Z -> R) (code : option R -> Z) (Phi : R -> R) (th : R) (n : nat) (vals : id -> list Z) (ns : list id) (N : numerics) : Prop := {
  pr_python : python_on dec code Phi th n vals ns N;
  pr_matrix : forall l P, NoDup l -> (forall z, In z l -> In z ns) -> (3 <= List.length l)%nat ->
    inverts (List.length l) P (cov (map (fun v => map dec (vals v)) l)) ->
    n_matrix N (map vals l) = rbind (fisher_py Phi th n (List.length l - 2) (Some (matrix_par (List.length l) P))) (fun b => Ok (Some b));
  pr_effect : forall xs zs ys, exists c, n_effect N xs zs ys = Ok c }.

(* four rows or more, and the three columns cannot be calculated from each other unless one of them does not vary *)
Definition answerable (n : nat) (x y z : list R) : Prop := (4 <= n)%nat /\ (constant x \/ constant y \/ constant z \/ ~ on_a_plane x y z).
