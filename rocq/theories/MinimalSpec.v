(* Specification vocabulary: separating sets from which nothing can be left out. *)
From Verif Require Import Base PyDict Graph.

(* T arises from S by leaving out at least one variable *)
Definition smaller_part (T S : list id) : Prop := NoDup T /\ incl T S /\ List.length T < List.length S.
(* S, but no smaller part of it, has the property *)
Definition nothing_superfluous (indep : list id -> Prop) (S : list id) : Prop :=
  indep S /\ forall T, smaller_part T S -> ~ indep T.
