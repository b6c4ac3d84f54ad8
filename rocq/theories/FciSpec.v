(* Specification vocabulary for C97. *)
From Verif Require Import Base PyDict Graph OrientSpec.
Open Scope string_scope.

(* what the rule stores on a direction with an arrowhead *)
Definition mark : meta := [("edge_type", MNone)].
(* x -> z is part of an unshielded collider of D *)
Definition arrowhead (D : list (id * id)) (x z : id) : Prop := exists y, vstruct D x z y.
