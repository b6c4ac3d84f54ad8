(* Specification vocabulary for data sets that tell the same in other units or in another order. *)
From Coq Require Import Reals List Permutation.
From Verif Require Import Base PyDict Graph Actions IndepTests Numeric NumericSpec.
Import ListNotations.
Open Scope R_scope.

(* x' has the observations of x in the order p and in other units *)
Definition other_units (p : list nat) (x x' : list R) : Prop := exists a b, 0 < a /\ x' = map (fun i => a * at_ x i + b) p.
(* the data of g0' tell the same as those of g0: n observations in an order common to all variables, for every variable
   in units of its own; dec is the number a bit pattern stands for *)
Definition retold (dec : Z -> R) (n : nat) (g0 g0' : graph) : Prop := exists p, Permutation p (seq 0 n) /\
  forall x, In x (dkeys (nodes g0)) -> List.length (values_of g0 x) = n /\ other_units p (map dec (values_of g0 x)) (map dec (values_of g0' x)).

(* what the matrix test answers for the correlation r; None stands for a raised exception *)
Definition answer (no_answer : res (option bool)) (o : option bool) : res (option bool) := match o with Some b => Ok (Some b) | None => no_answer end.
(* the routines N calculate without rounding on the columns in cols: coefficients are the bit pattern code of the exact
   coefficient (None: nan), and the matrix test decides by the exact inverse of the covariance matrix, or finds that
   there is none *)
Record exact_on (dec : Z -> R) (code : option R -> Z) (Phi : R -> R) (threshold : R) (n : nat) (no_inverse no_answer : res (option bool)) (cols : list Z -> Prop) (N : numerics) : Prop := {
  ex_pearson : forall x y, cols x -> cols y -> n_pearson N x y = Ok (code (pearson (map dec x) (map dec y)));
  ex_matrix : forall l P, (forall x, In x l -> cols x) -> (2 <= List.length l)%nat -> inverts (List.length l) P (cov (map (map dec) l)) ->
    n_matrix N l = answer no_answer (fisher_test Phi threshold n (List.length l - 2) (matrix_par (List.length l) P));
  ex_singular : forall l, (forall x, In x l -> cols x) -> (2 <= List.length l)%nat -> (forall P, ~ inverts (List.length l) P (cov (map (map dec) l))) -> n_matrix N l = no_inverse }.
Definition columns_of (g : graph) (v : list Z) : Prop := exists x, In x (dkeys (nodes g)) /\ v = values_of g x.
