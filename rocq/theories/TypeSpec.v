(* Specification vocabulary for the edge types. *)
From Verif Require Import Base PyDict Graph GraphSpec OrientSpec.

(* an edge is typed as directed exactly where there is an arrow in one direction only, and as undirected
   exactly where there are both *)
Definition types_match (g : graph) : Prop := forall u v,
  (edge_of_type_exists g u v TDirected = true <-> one_way g u v) /\
  (edge_of_type_exists g u v TUndirected = true <-> two_way g u v).
