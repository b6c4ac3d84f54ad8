(* Specification vocabulary for the generators. *)
From Verif Require Import Base PyDict Graph GraphPaths PathSpec ActionSpec Generators.

(* every emitted node combination, in order *)
Definition emitted (l : lazyg) (g : graph) (out : list (list id)) : Prop :=
  exists es, gen_run l g = Ok es /\ out = flat_map contents es.

(* sizes asked for: from min to max, where max = 0 means the number of nodes and is capped by it *)
Definition size_in (cs : csettings) (n k : nat) : Prop :=
  cs_min cs <= k /\ k <= n /\ (cs_max cs = 0 \/ k <= cs_max cs).

(* the nodes z that point at x and that x has an entry for *)
Definition neighbour (g : graph) (x z : id) : Prop :=
  directed_edge_exists g z x = true /\ exists e, get_edge g x z = Ok e.

(* a shuffle permutes *)
Definition is_shuffle (sh : option (nat * id * id -> list (list id) -> list (list id))) : Prop :=
  match sh with None => True | Some f => forall s l, Permutation (f s l) l end.
