(* Specification vocabulary for the graph properties: which graphs a caller can reach.
   No function of the code is modelled here. *)
From Verif Require Import Base PyDict Graph.

(* A hard remove_edge is called only on pairs that get_edge finds in both directions or in neither. *)
Definition tame_op (g : graph) (o : gop) : Prop :=
  match o with
  | ORemove u v false => is_ok (get_edge g u v) = is_ok (get_edge g v u)
  | _ => True
  end.

Fixpoint tame (os : list gop) (g : graph) : Prop :=
  match os with
  | [] => True
  | o :: r => tame_op g o /\ tame r (fst (run_op o g))
  end.

(* Graphs reached from the empty graph by a tame sequence of calls; exceptions are caught and the
   caller goes on. *)
Definition reachable (g : graph) : Prop := exists os, tame os empty_graph /\ g = run_ops os empty_graph.

(* Graphs reached by any sequence of calls whatsoever. *)
Definition reachable_any (g : graph) : Prop := exists os, g = run_ops os empty_graph.

(* (a,b) is neither (u,v) nor (v,u) *)
Definition elsewhere (u v a b : id) : Prop := (a, b) <> (u, v) /\ (a, b) <> (v, u).

(* the pair of nodes an edge operation names *)
Definition names_pair (o : gop) (u v : id) : Prop :=
  match o with
  | OAddEdge a b _ _ | OAddDirected a b _ _ | ORemove a b _ | ORestore a b | ORemoveDirected a b _
  | ORestoreDirected a b | OUpdate a b _ _ | OUpdateDirected a b _ _ | OHistory a b _ => (a, b) = (u, v)
  | OAddNode _ _ _ | OPurge => False
  end.

Definition exactly_one (a b c d : Prop) : Prop :=
  (a /\ ~ b /\ ~ c /\ ~ d) \/ (~ a /\ b /\ ~ c /\ ~ d) \/ (~ a /\ ~ b /\ c /\ ~ d) \/ (~ a /\ ~ b /\ ~ c /\ d).
