(* Specification vocabulary for C104: a column that is calculated from two others. *)
From Coq Require Import Reals List.
From Verif Require Import Base Numeric NumericSpec Nan.
Import ListNotations.
Open Scope R_scope.

(* one of the three columns is a combination of the others, such as a total or a difference *)
Definition on_a_plane (x y z : list R) : Prop :=
  exists a b c d, ~ (a = 0 /\ b = 0 /\ c = 0) /\ forall t, (t < List.length x)%nat -> a * at_ x t + b * at_ y t + c * at_ z t = d.
(* the three columns are all correlated with each other, by the test *)
Definition mutually_dependent (Phi : R -> R) (th : R) (n : nat) (x y z : list R) : Prop :=
  fisher_py Phi th n 0 (pearson x y) = Ok false /\ fisher_py Phi th n 0 (pearson x z) = Ok false /\ fisher_py Phi th n 0 (pearson y z) = Ok false.
