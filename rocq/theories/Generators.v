(* causy/generators.py. *)
From Verif Require Import Base PyDict Graph.

(* What a generator yields: one node combination, or a chunk (list) of node combinations.  The executor
   treats both alike as Python iterables (see Pipeline.v). *)
Inductive emission := One (ns : list id) | Chunk (c : list (list id)).

(* The node combinations contained in an emission. *)
Definition contents (e : emission) : list (list id) := match e with One ns => [ns] | Chunk c => c end.

(* A Python generator is resumed while the caller changes the graph.  It is modelled as a list of
   blocks that run one after the other; a block reads the graph it is resumed with.  The keys iterated
   over (graph.nodes, graph.edges, graph.edges[node]) are those at the start; soft removals and updates,
   the only actions of the shipped steps that use a lazy generator, do not change them. *)
Definition lazyg := list (graph -> res (list emission)).
(* all emissions when the graph does not change in between *)
Definition gen_run (l : lazyg) (g : graph) : res (list emission) := rflat (fun f => f g) l.

(* causy/models.py:18-21, interfaces.py:27: min and max; max = 0 is AS_MANY_AS_FIELDS.  Simplification:
   the settings are natural numbers (Python ints could be negative) and not variable references. *)
Record csettings := mkCS { cs_min : nat; cs_max : nat }.

(* generators.py:38-45 and 127-134 *)
Definition cs_stop (cs : csettings) (n : nat) : nat :=
  let stop := if Nat.eqb (cs_max cs) 0 then n + 1 else cs_max cs + 1 in
  if Nat.ltb (n + 1) stop then n + 1 else stop.

(* range(a, b) *)
Definition range (a b : nat) : list nat := seq a (b - a).

(* generators.py:29-54 *)
Definition all_combinations (cs : csettings) (g : graph) : list (list id) :=
  let n := List.length (nodes g) in
  let start := cs_min cs in
  if Nat.ltb n start then []
  else let stop := cs_stop cs n in
       if Nat.ltb stop start then []
       else flat_map (fun k => combos k (dkeys (nodes g))) (range start stop).
Definition gen_all (cs : csettings) (g : graph) : lazyg := [fun _ => Ok (map One (all_combinations cs g))].

(* generators.py:81-87 *)
Definition live_pairs (g : graph) : list (list id) :=
  flat_map (fun p => flat_map (fun w => if directed_edge_exists g (fst p) w then [[fst p; w]] else [])
                              (dkeys (snd p))) (edges g).

(* edges[i : i + size] for i in range(0, len(edges), size); [fuel] bounds the number of slices *)
Fixpoint slices {A} (fuel size : nat) (l : list A) : list (list A) :=
  match fuel, l with
  | _, [] => []
  | 0, _ => []
  | S f, _ => firstn size l :: slices f size (skipn size l)
  end.

(* generators.py:78-94.  range with step 0 raises ValueError.  After the chunks every edge is yielded
   once more on its own. *)
Definition pairs_with_edges (chunked : bool) (size : nat) (g : graph) : res (list emission) :=
  let es := live_pairs g in
  if chunked then
    if Nat.eqb size 0 then Err ValueError
    else Ok (map Chunk (slices (List.length es) size es) ++ map One es)
  else Ok (map One es).
Definition gen_edges (chunked : bool) (size : nat) (g : graph) : lazyg :=
  let r := pairs_with_edges chunked size g in [fun _ => r].

(* generators.py:144-190 for one (range_size, node, neighbour).  [so]: iteration order of a Python set,
   [sh]: what random.shuffle does to a list (None: shuffle_combinations is off).  The
   check against checked_combinations (lines 151-154) never fires because dict keys are unique. *)
Definition pwn_slot (so : list id -> list id) (sh : option (nat * id * id -> list (list id) -> list (list id)))
           (chunked : bool) (s : nat * id * id) (g : graph) : res (list emission) :=
  match s with (k, node, nb) =>
    if negb (directed_edge_exists g node nb) then Ok []
    else if Nat.eqb k 2 then Ok [Chunk [[node; nb]]]
    else match dget (edges g) node with
         | None => Err KeyError
         | Some row =>
             let others := filter (fun m => directed_edge_exists g m node) (dkeys row) in
             let others' := filter (fun m => negb (eqb m nb)) others in
             let cs := combos (k - 2) (so others') in
             let cs' := match sh with Some f => f s cs | None => cs end in
             let l := map (fun c => node :: nb :: c) cs' in
             Ok (if chunked then [Chunk l] else map One l)
         end
  end.
(* the loops of lines 141-147 *)
Definition pwn_slots (g : graph) (ks : list nat) : list (nat * id * id) :=
  flat_map (fun k => flat_map (fun p => map (fun w => (k, fst p, w)) (dkeys (snd p))) (edges g)) ks.
(* generators.py:116-190 *)
Definition gen_neighbours (so : list id -> list id) (sh : option (nat * id * id -> list (list id) -> list (list id)))
           (chunked : bool) (cs : csettings) (g : graph) : lazyg :=
  let n := List.length (nodes g) in
  let start := cs_min cs in
  if Nat.ltb n start then []
  else let stop := cs_stop cs n in
       if Nat.ltb stop start then []
       else if Nat.ltb start 2 then [fun _ => Err ValueError]
       else map (pwn_slot so sh chunked) (pwn_slots g (range start stop)).

(* generators.py:215-226.  [coin i j] tells whether random.randint(0, every_nth) is 0 for the j-th
   emission of the i-th block. *)
Fixpoint keep {A} (c : nat -> bool) (j : nat) (l : list A) : list A :=
  match l with [] => [] | a :: r => if c j then a :: keep c (S j) r else keep c (S j) r end.
Fixpoint gen_sample_from (coin : nat -> nat -> bool) (i : nat) (l : lazyg) : lazyg :=
  match l with
  | [] => []
  | f :: r => (fun g => rbind (f g) (fun es => Ok (keep (coin i) 0 es))) :: gen_sample_from coin (S i) r
  end.
Definition gen_sample (coin : nat -> nat -> bool) (l : lazyg) : lazyg := gen_sample_from coin 0 l.
