(* Specification vocabulary for C99: unshielded triples and contradicting colliders. *)
From Verif Require Import Base PyDict Graph GraphSpec Actions ActionSpec OrientSpec.
Open Scope string_scope.
Open Scope list_scope.

(* the pairs of nodes, in the order of the nodes *)
Fixpoint node_pairs (l : list id) : list (id * id) :=
  match l with [] => [] | x :: r => map (fun y => (x, y)) r ++ node_pairs r end.
(* a stands before b in l *)
Definition before {A} (l : list A) (a b : A) : Prop := exists l1 l2 l3, l = l1 ++ a :: l2 ++ b :: l3.

(* z is in a separating set recorded when an edge between x and y was removed *)
Definition in_sepset (g : graph) (x y z : id) : Prop := exists i d s, In i (history g (x, y)) /\ t_act i = REMOVE_EDGE_UNDIRECTED /\
  t_data i = Some d /\ dget d "separatedBy" = Some (MNodes s) /\ In z s.
(* what ColliderTest reads is there: every node has an entry in graph.edges, and every recorded removal has data, with a list
   of nodes under separatedBy or nothing there *)
Definition readable (g : graph) : Prop := (forall x, In x (dkeys (nodes g)) -> dmem (edges g) x = true) /\ forall x y i, In i (history g (x, y)) -> t_act i = REMOVE_EDGE_UNDIRECTED ->
  exists d, t_data i = Some d /\ (dget d "separatedBy" = None \/ exists s, dget d "separatedBy" = Some (MNodes s)).

(* x - z - y looks like a collider: x and y are not adjacent, both are adjacent to z, and z is in no recorded separating set *)
Definition candidate (g : graph) (x z y : id) : Prop := In (x, y) (node_pairs (dkeys (nodes g))) /\ edge_exists g x y = false /\
  edge_exists g x z = true /\ edge_exists g y z = true /\ ~ in_sepset g x y z.
(* an arrow of x -> z <- y is the reverse of an arrow of x' -> z' <- y' *)
Definition contradict (x z y x' z' y' : id) : Prop := (z' = x \/ z' = y) /\ (z = x' \/ z = y').
(* a logged result says that the orientation of x - z - y was given up *)
Definition reported (l : list tresult) (x z y : id) : Prop := exists i d, In i l /\ t_act i = DO_NOTHING /\ t_u i = z /\ (t_v i = x \/ t_v i = y) /\
  t_data i = Some d /\ dget d "orientation_conflict" = Some (MBool true) /\ dget d "between" = Some (MBetween x y z).
