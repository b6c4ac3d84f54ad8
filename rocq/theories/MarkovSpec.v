(* Specification vocabulary: two DAGs over the same variables that imply the same conditional independences. *)
From Verif Require Import Base Graph Dag SkelSpec.

Definition same_independences (ns : list id) (D D' : list (id * id)) : Prop := forall x y S,
  In x ns -> In y ns -> x <> y -> (forall z, In z S -> In z ns) -> ~ In x S -> ~ In y S -> (dsep D x y S <-> dsep D' x y S).
