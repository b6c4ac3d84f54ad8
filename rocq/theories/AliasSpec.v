(* What a user sees of the memory of Alias.v: the data of an edge, and the data of a recorded action. *)
From Verif Require Import Base PyDict Graph Alias.
Open Scope list_scope.

Definition data (m : mem) (p : pair) : option meta := match dget (slots m) p with Some i => nth_error (cells m) i | None => None end.
Definition recorded (m : mem) (j : nat) : option meta := match nth_error (past m) j with Some i => nth_error (cells m) i | None => None end.
(* the pairs are of different nodes, and no two are the same or opposite *)
Definition separate (ps : list pair) : Prop := (forall u v, In (u, v) ps -> u <> v) /\ forall i j p q, nth_error ps i = Some p -> nth_error ps j = Some q -> i <> j -> p <> q /\ p <> turn q.
(* some pair or its opposite is in the list *)
Definition touched (ps : list pair) (q : pair) : Prop := In q ps \/ In (turn q) ps.
Definition writes (o : op) (k : string) : Prop := match o with NewEdge _ _ => False | Step _ _ k' _ => k = k' end.
(* what a step of a pipeline is given: pairs that are separate *)
Definition fair (o : op) : Prop := match o with NewEdge _ _ => True | Step _ _ _ ps => separate (map fst ps) end.
(* memories that operations build from nothing *)
Definition reached (m : mem) : Prop := exists os, Forall fair os /\ run_ops os (mkMem [] [] []) = Ok m.
