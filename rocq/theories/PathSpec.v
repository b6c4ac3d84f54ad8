(* Specification vocabulary for the path and d-separation properties.  No function of the code is
   modelled here. *)
From Verif Require Import Base PyDict Graph GraphPaths Dag.

(* two nodes are adjacent according to the graph's own existence query *)
Definition adjR (g : graph) (a b : id) : Prop := edge_exists g a b = true.

(* the graph has an arrow a -> b / an arrow a -> b and none back *)
Definition arrow (g : graph) (a b : id) : Prop := directed_edge_exists g a b = true.
Definition oneway (g : graph) (a b : id) : Prop :=
  directed_edge_exists g a b = true /\ directed_edge_exists g b a = false.

(* an order in which Python may iterate over set(l) *)
Definition set_order (so : list id -> list id) : Prop :=
  forall l, NoDup (so l) /\ forall x, In x (so l) <-> In x l.

(* every live edge is typed as directed and there is no directed cycle (so every edge is one-way) *)
Record dag_graph (g : graph) : Prop := {
  dg_type : forall u v, arrow g u v -> edge_of_type_exists g u v TDirected = true;
  dg_acyclic : acyclic (arrow g) }.

(* a conditioning set given as nodes *)
Definition nodes_of (S : list id) : list citem := map CNode S.

(* no soft-deleted entry *)
Definition all_live (g : graph) : Prop := forall u v, directed_edge_is_soft_deleted g u v = false.

(* consecutive pairs of a node list *)
Fixpoint pairs_of (p : list id) : list (id * id) :=
  match p with
  | a :: ((b :: _) as r) => (a, b) :: pairs_of r
  | _ => []
  end.

(* a directed path u -> .. -> v with at least one arrow *)
Definition directed_path (g : graph) (u v : id) (p : list id) : Prop :=
  starts u p /\ ends v p /\ chain (arrow g) p /\ 2 <= List.length p.

(* a directed path u -> .. -> v on which no node before the last but one points at v *)
Definition listed_path (g : graph) (u v : id) (p : list id) : Prop :=
  starts u p /\ ends v p /\ chain (arrow g) p /\ 2 <= List.length p /\
  forall p1 a b c p2, p = p1 ++ a :: b :: c :: p2 -> ~ arrow g a v.

(* on every path between u and v, S opens either all colliders or none *)
Definition uniform_colliders (g : graph) (u v : id) (S : list id) : Prop :=
  forall p a b c a' b' c', simple_path (adjacent (arrow g)) u v p ->
    triple_on p a b c -> collider (arrow g) a b c -> triple_on p a' b' c' -> collider (arrow g) a' b' c' ->
    (exists d, reach (arrow g) b d /\ In d S) -> exists d, reach (arrow g) b' d /\ In d S.
