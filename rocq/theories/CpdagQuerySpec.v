(* Specification vocabulary for the d-separation query on graphs with one-way and two-way edges. *)
From Verif Require Import Base PyDict Graph Dag PathSpec OrientSpec.

(* what is between a and c at b: both arrows point at b / in no DAG that the graph stands for do they *)
Definition surely_collider (g : graph) (a b c : id) : Prop := one_way g a b /\ one_way g c b.
Definition surely_no_collider (g : graph) (a b c : id) : Prop :=
  one_way g b a \/ one_way g b c \/ (apart g a c /\ ~ surely_collider g a b c).
(* a path on which every inner node is the one or the other *)
Definition definite (g : graph) (p : list id) : Prop := forall a b c, triple_on p a b c ->
  surely_collider g a b c \/ surely_no_collider g a b c.
(* every path between u and v is of this kind *)
Definition all_definite (g : graph) (u v : id) : Prop := forall p, simple_path (adjR g) u v p -> definite g p.
(* on every path between u and v, S opens either all colliders or none *)
Definition uniform_surely (g : graph) (u v : id) (S : list id) : Prop :=
  forall p a b c a' b' c', simple_path (adjR g) u v p ->
    triple_on p a b c -> surely_collider g a b c -> triple_on p a' b' c' -> surely_collider g a' b' c' ->
    (exists d, reach (one_way g) b d /\ In d S) -> exists d, reach (one_way g) b' d /\ In d S.
