(* Specification vocabulary for data sets that tell the same with some variables turned round: profit for loss, north for
   south. *)
From Coq Require Import Reals List Permutation.
From Verif Require Import Base PyDict Graph Actions IndepTests Numeric NumericSpec Nan UnitsSpec.
Import ListNotations.
Open Scope R_scope.

(* x' has the observations of x in the order p and in other units, perhaps counted the other way *)
Definition turned (p : list nat) (x x' : list R) : Prop := exists a b, a <> 0 /\ x' = map (fun i => a * at_ x i + b) p.
Definition remade (dec : Z -> R) (n : nat) (g0 g0' : graph) : Prop := exists p, Permutation p (seq 0 n) /\
  forall x, In x (dkeys (nodes g0)) -> List.length (values_of g0 x) = n /\ turned p (map dec (values_of g0 x)) (map dec (values_of g0' x)).

(* the routines N calculate without rounding on the columns vals of the variables ns and raise as Python does: dec is the
   number a bit pattern stands for, code the bit pattern of a coefficient *)
Record exact_all (dec : Z -> R) (code : option R -> Z) (Phi : R -> R) (th : R) (n : nat) (no_inverse no_answer : res (option bool)) (vals : id -> list Z) (ns : list id) (N : numerics) : Prop := {
  ea_pearson : forall x y, In x ns -> In y ns -> n_pearson N (vals x) (vals y) = Ok (code (pearson (map dec (vals x)) (map dec (vals y))));
  ea_corr : forall x y, In x ns -> In y ns -> x <> y ->
    n_corr_test N n (code (pearson (map dec (vals x)) (map dec (vals y)))) = fisher_py Phi th n 0 (pearson (map dec (vals x)) (map dec (vals y)));
  ea_partial : forall k x y z, In x ns -> In y ns -> In z ns -> NoDup [x; y; z] ->
    let cor u v := pearson (map dec (vals u)) (map dec (vals v)) in
    n_partial N n k (code (cor x y)) (code (cor x z)) (code (cor y z)) = partial_py Phi th n k (cor x y) (cor x z) (cor y z);
  ea_matrix : forall l P, (forall x, In x l -> In x ns) -> (2 <= List.length l)%nat -> inverts (List.length l) P (cov (map (fun v => map dec (vals v)) l)) ->
    n_matrix N (map vals l) = answer no_answer (fisher_test Phi th n (List.length l - 2) (matrix_par (List.length l) P));
  ea_singular : forall l, (forall x, In x l -> In x ns) -> (2 <= List.length l)%nat ->
    (forall P, ~ inverts (List.length l) P (cov (map (fun v => map dec (vals v)) l))) -> n_matrix N (map vals l) = no_inverse }.
