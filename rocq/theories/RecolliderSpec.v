(* Specification vocabulary for C119: ColliderTest on a graph that may already have arrows. *)
From Verif Require Import Base PyDict Graph GraphSpec Actions ActionSpec OrientSpec ConflictSpec.
Open Scope string_scope.
Open Scope list_scope.

(* every stored edge is there: nothing is only marked as deleted *)
Definition clean (g : graph) : Prop := forall u v e, get_edge g u v = Ok e -> directed_edge_exists g u v = true.
(* x and y are not joined by a two-way edge, edges lead from both to z, and z is in no separating set recorded for the two *)
Definition taken_for_collider (g : graph) (x z y : id) : Prop := In (x, y) (node_pairs (dkeys (nodes g))) /\ undirected_edge_exists g x y = false /\
  directed_edge_exists g x z = true /\ directed_edge_exists g y z = true /\ ~ in_sepset g x y z.
(* an arrow that was not there before *)
Definition new_arrow (g g' : graph) (a b : id) : Prop := one_way g' a b /\ ~ one_way g a b.
