(* Specification vocabulary for C98: tables with columns that do not vary or that repeat another one. *)
From Coq Require Import Reals List.
From Verif Require Import Base PyDict Graph Actions IndepTests Numeric NumericSpec Nan.
Import ListNotations.
Open Scope R_scope.

Definition constant (v : list R) : Prop := forall s t, (s < List.length v)%nat -> (t < List.length v)%nat -> at_ v s = at_ v t.
(* w is v in other units *)
Definition on_a_line (v w : list R) : Prop := exists a b, forall t, (t < List.length v)%nat -> at_ w t = a * at_ v t + b.

(* no column of the table, apart from constant ones, is another column in other units *)
Definition no_repeats (col : id -> list R) (ns : list id) : Prop :=
  forall x y, In x ns -> In y ns -> x <> y -> ~ constant (col x) -> ~ constant (col y) -> ~ on_a_line (col x) (col y).

(* The routines N calculate without rounding on the columns vals of the variables ns, and treat nan as Python does: dec is
   the number a bit pattern stands for, code the bit pattern of a coefficient.  The matrix test gives up on a singular
   covariance matrix (common.py:200-204). *)
Record python_on (dec : Z -> R) (code : option R -> Z) (Phi : R -> R) (th : R) (n : nat) (vals : id -> list Z) (ns : list id) (N : numerics) : Prop := {
  po_length : forall x, In x ns -> List.length (vals x) = n;
  po_pearson : forall x y, In x ns -> In y ns -> x <> y -> n_pearson N (vals x) (vals y) = Ok (code (pearson (map dec (vals x)) (map dec (vals y))));
  po_corr : forall x y, In x ns -> In y ns -> x <> y ->
    n_corr_test N n (code (pearson (map dec (vals x)) (map dec (vals y)))) = fisher_py Phi th n 0 (pearson (map dec (vals x)) (map dec (vals y)));
  po_partial : forall x y z, In x ns -> In y ns -> In z ns -> NoDup [x; y; z] ->
    let cor u v := pearson (map dec (vals u)) (map dec (vals v)) in
    n_partial N n 1 (code (cor x y)) (code (cor x z)) (code (cor y z)) = partial_py Phi th n 1 (cor x y) (cor x z) (cor y z);
  po_singular : forall l, NoDup l -> (forall z, In z l -> In z ns) -> (3 <= List.length l)%nat ->
    (forall P, ~ inverts (List.length l) P (cov (map (fun v => map dec (vals v)) l))) -> n_matrix N (map vals l) = Ok None }.
