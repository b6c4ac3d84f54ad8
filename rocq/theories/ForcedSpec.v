(* Specification vocabulary for C131: knowledge for which the orientation rules are complete. *)
From Verif Require Import Base PyDict Graph Dag SkelSpec OrientSpec.

(* Of no triangle is exactly one direction told. This holds of tiers, and if nothing or everything is told. *)
Definition no_lone_side (D : list (id * id)) (K : id -> id -> Prop) : Prop := forall a b c, K a b -> adjacent (edge_in D) a c -> adjacent (edge_in D) b c -> K a c \/ K c a \/ K b c \/ K c b.
(* D' could be the DAG as well: it has the adjacencies and v-structures of D and the directions told *)
Definition fits (D : list (id * id)) (K : id -> id -> Prop) (D' : list (id * id)) : Prop := equivalent D D' /\ forall x y, K x y -> edge_in D' x y.
