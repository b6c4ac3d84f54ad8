(* Specification vocabulary: a table with fewer columns. *)
From Verif Require Import Base PyDict Graph Dag IndepTests SkelSpec.
Open Scope list_scope.

(* the smaller table has some of the columns of the larger one, with the same values *)
Definition fewer_columns (g0 g0' : graph) : Prop :=
  forall x, In x (dkeys (nodes g0')) -> In x (dkeys (nodes g0)) /\ values_of g0' x = values_of g0 x.
(* no cause of a variable in A is missing from A *)
Definition closed_under_causes (D : list (id * id)) (A : list id) : Prop := forall x y, edge_in D x y -> In y A -> In x A.
