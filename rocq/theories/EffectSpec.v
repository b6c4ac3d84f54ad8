(* What "the direct effect is estimated" means, in terms of queries. *)
From Verif Require Import Base PyDict Graph IndepTests.
Open Scope string_scope.
Open Scope list_scope.

(* the stored effect of u on v is the answer of the regression of v on u and on every other node with a
   live direction into v, in some order without repetition; nothing else in the edge's data changes *)
Definition effect_of (N : numerics) (g g' : graph) (u v : id) : Prop := exists ps m c,
  NoDup ps /\ (forall p, In p ps <-> p <> u /\ directed_edge_exists g p v = true) /\
  edge_value g u v = Ok (Some m) /\
  n_effect N (values_of g u) (map (values_of g) ps) (values_of g v) = Ok c /\
  edge_value g' u v = Ok (Some (dset m "direct_effect" (MNum c))).
(* the number stored as effect on an edge *)
Definition stored_effect (g : graph) (u v : id) (c : Z) : Prop := exists m, edge_value g u v = Ok (Some m) /\ dget m "direct_effect" = Some (MNum c).
