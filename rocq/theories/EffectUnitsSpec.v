(* Specification vocabulary for tables in which columns are recorded in other units and observations are moved or
   repeated. *)
From Coq Require Import Reals List Permutation.
From Verif Require Import Base PyDict Graph Actions IndepTests Numeric NumericSpec LinearEffectSpec.
Import ListNotations.
Open Scope R_scope.

(* The table of g0' has each of the n observations of g0 k times, in an order common to all columns, and the column of x
   in units of its own: a x of them make one old unit.  The zero of the scale stays where it is. *)
Definition rescaled (dec : Z -> R) (n k : nat) (a : id -> R) (g0 g0' : graph) : Prop := exists p, Permutation p (List.concat (repeat (seq 0 n) k)) /\
  forall x, In x (dkeys (nodes g0)) -> 0 < a x /\ List.length (values_of g0 x) = n /\ map dec (values_of g0' x) = map (fun i => a x * at_ (map dec (values_of g0 x)) i) p.
(* the columns of the variables that point at v, or are connected with it without a direction, are linearly independent *)
Definition separable (dec : Z -> R) (n : nat) (g0 g : graph) (v : id) : Prop :=
  exists ps, NoDup ps /\ (forall p, In p ps <-> directed_edge_exists g p v = true) /\ independent_columns n (map (fun w => map dec (values_of g0 w)) ps).
