(* Specification vocabulary for tests on graphs whose edges carry no usable correlation. *)
From Verif Require Import Base PyDict Graph.
Open Scope string_scope.
Open Scope list_scope.

(* no edge has a correlation in its metadata *)
Definition uncomputed (g : graph) : Prop := forall u v m, edge_value g u v = Ok (Some m) -> dget m "correlation" = None.
(* no edge has a number there *)
Definition no_number (g : graph) : Prop := forall u v m c, edge_value g u v = Ok (Some m) -> dget m "correlation" <> Some (MNum c).
(* between any two columns there is an edge in both directions, with something other than a number for the correlation *)
Definition texts (g : graph) : Prop := forall u v, In u (dkeys (nodes g)) -> In v (dkeys (nodes g)) -> u <> v ->
  exists m x, edge_value g u v = Ok (Some m) /\ dget m "correlation" = Some x /\ forall c, x <> MNum c.
