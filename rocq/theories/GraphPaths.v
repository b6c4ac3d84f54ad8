(* causy/graph.py: path, descendant and d-separation queries; causy/edge_types.py: directed_paths. *)
From Verif Require Import Base PyDict Graph.

(* Recursive Python functions are run with fuel; [OutOfFuel] marks an unfinished recursion. *)

(* graph.py:257-275.  Iterates over every key of edges[u], soft-deleted ones included; KeyError when
   u has no row (or when self.nodes[w] is missing). *)
Fixpoint directed_path_exists (fuel : nat) (g : graph) (u v : id) : res bool :=
  match fuel with
  | 0 => Err OutOfFuel
  | S n =>
      if directed_edge_exists g u v then Ok true
      else match dget (edges g) u with
           | None => Err KeyError
           | Some row =>
               rexists (fun w => if dmem (nodes g) w then directed_path_exists n g w v else Err KeyError)
                       (dkeys row)
           end
  end.

(* edge_types.py:63-81 (DirectedEdge.GraphAccessMixin.directed_paths), u and v given as ids of nodes. *)
Fixpoint directed_paths (fuel : nat) (g : graph) (u v : id) : res (list (list (id * id))) :=
  match fuel with
  | 0 => Err OutOfFuel
  | S n =>
      if directed_edge_exists g u v then Ok [[(u, v)]]
      else match dget (edges g) u with
           | None => Err KeyError
           | Some row =>
               rflat (fun w => if dmem (nodes g) w then
                                 if directed_edge_exists g u w then
                                   rbind (directed_paths n g w v) (fun ps => Ok (map (cons (u, w)) ps))
                                 else Ok []
                               else Err KeyError) (dkeys row)
           end
  end.

(* graph.py:304-336.  [so] is the iteration order of list(set(descendants)).  The visited set is
   shared by all recursive calls; it is threaded through and returned. *)
Fixpoint descendants_fuel (fuel : nat) (so : list id -> list id) (g : graph) (u : id) (visited : list id)
  : res (list id * list id) :=
  match fuel with
  | 0 => Err OutOfFuel
  | S n =>
      if mem u visited then Ok ([], visited)
      else match dget (edges g) u with
           | None => Ok ([u], u :: visited)
           | Some row =>
               rbind (rfold (fun s c =>
                  if directed_edge_exists g u c && negb (directed_edge_exists g c u) then
                    if negb (mem c (snd s)) then
                      rbind (descendants_fuel n so g c (snd s)) (fun r => Ok (fst s ++ fst r, snd r))
                    else Ok s
                  else Ok s) (dkeys row) ([u], u :: visited))
                 (fun s => Ok (so (fst s), snd s))
           end
  end.
Definition descendants_of_node (fuel : nat) (so : list id -> list id) (g : graph) (u : id) : res (list id) :=
  rbind (descendants_fuel fuel so g u []) (fun p => Ok (fst p)).

(* graph.py:536-567.  The generator's results in order.  visited is the set of nodes on the path. *)
Fixpoint all_paths_fuel (fuel : nat) (g : graph) (u v : id) (visited path : list id)
  : res (list (list id)) :=
  match fuel with
  | 0 => Err OutOfFuel
  | S n =>
      if eqb u v then Ok [path ++ [u]]
      else rflat (fun w => if negb (mem w (u :: visited)) && edge_exists g u w
                           then all_paths_fuel n g w v (u :: visited) (path ++ [u])
                           else Ok []) (dkeys (nodes g))
  end.
Definition all_paths (fuel : nat) (g : graph) (u v : id) : res (list (list id)) := all_paths_fuel fuel g u v [] [].

(* A conditioning set is a list whose members are Node objects or plain strings; a Node never equals a
   string, two Nodes of one graph are equal iff their ids are. *)
Inductive citem := CNode (i : id) | CStr (s : id).
Definition has_node (cs : list citem) (i : id) : bool :=
  existsb (fun c => match c with CNode j => eqb i j | CStr _ => false end) cs.
Definition has_str (cs : list citem) (i : id) : bool :=
  existsb (fun c => match c with CNode _ => false | CStr j => eqb i j end) cs.

(* graph.py:470-482 *)
Definition is_collider (g : graph) (u v w : id) : bool :=
  edge_of_type_exists g u v TDirected && edge_of_type_exists g w v TDirected.

(* graph.py:338-351.  The flag is overwritten by every collider on the path. *)
Fixpoint collider_blocking_aux (fuel : nat) (so : list id -> list id) (g : graph) (path : list id)
         (cs : list citem) (flag : bool) : res bool :=
  match path with
  | a :: ((b :: c :: _) as r1) =>
      if is_collider g a b c then
        match descendants_of_node fuel so g b with
        | Err e => Err e
        | Ok ds => collider_blocking_aux fuel so g r1 cs (negb (existsb (has_node cs) ds))
        end
      else collider_blocking_aux fuel so g r1 cs flag
  | _ => Ok flag
  end.
Definition is_a_collider_blocking fuel so g path cs := collider_blocking_aux fuel so g path cs false.

(* graph.py:353-372 *)
Fixpoint noncollider_in_set (g : graph) (path : list id) (cs : list citem) : bool :=
  match path with
  | a :: ((b :: c :: _) as r1) =>
      (has_node cs b && negb (edge_of_type_exists g a b TDirected && edge_of_type_exists g c b TDirected))
      || noncollider_in_set g r1 cs
  | _ => false
  end.

(* graph.py:374-421.  The early "return False" on a two-node path stops the loop; the remaining paths
   are not examined. *)
Fixpoint dsep_paths (fuel : nat) (so : list id -> list id) (g : graph) (cs : list citem)
         (paths : list (list id)) (all_blocked : bool) : res bool :=
  match paths with
  | [] => Ok all_blocked
  | p :: r =>
      if Nat.eqb (List.length p) 2 then Ok false
      else match is_a_collider_blocking fuel so g p cs with
           | Err e => Err e
           | Ok b => dsep_paths fuel so g cs r (all_blocked && (b || noncollider_in_set g p cs))
           end
  end.
Definition are_nodes_d_separated_dag (fuel : nat) (so : list id -> list id) (g : graph) (u v : id)
           (cs : list citem) : res bool :=
  if has_str cs u || has_str cs v then Err ValueError
  else match all_paths fuel g u v with
       | Err e => Err e
       | Ok [] => Ok true
       | Ok ps => dsep_paths fuel so g cs ps true
       end.

(* graph.py:484-500 *)
Definition is_definite_noncollider (g : graph) (u v w : id) : bool :=
  if edge_of_type_exists g v u TDirected || edge_of_type_exists g v w TDirected then true
  else negb (edge_exists g u w) && negb (is_collider g u v w).

(* graph.py:502-517 *)
Fixpoint definite_status (g : graph) (path : list id) : bool :=
  match path with
  | a :: ((b :: c :: _) as r1) =>
      if is_collider g a b c then definite_status g r1
      else if is_definite_noncollider g a b c then definite_status g r1
      else false
  | _ => true
  end.

(* graph.py:519-534 *)
Fixpoint definite_noncollider_in_set (g : graph) (path : list id) (cs : list citem) : bool :=
  match path with
  | a :: ((b :: c :: _) as r1) =>
      (has_node cs b && is_definite_noncollider g a b c) || definite_noncollider_in_set g r1 cs
  | _ => false
  end.

(* graph.py:423-468 *)
Fixpoint dsep_cpdag_paths (fuel : nat) (so : list id -> list id) (g : graph) (cs : list citem)
         (paths : list (list id)) (all_blocked : bool) : res bool :=
  match paths with
  | [] => Ok all_blocked
  | p :: r =>
      if Nat.eqb (List.length p) 2 then Ok false
      else if definite_status g p then
             match is_a_collider_blocking fuel so g p cs with
             | Err e => Err e
             | Ok b => dsep_cpdag_paths fuel so g cs r (all_blocked && (definite_noncollider_in_set g p cs || b))
             end
           else dsep_cpdag_paths fuel so g cs r false
  end.
Definition are_nodes_d_separated_cpdag (fuel : nat) (so : list id -> list id) (g : graph) (u v : id)
           (cs : list citem) : res bool :=
  if has_str cs u || has_str cs v then Err ValueError
  else match all_paths fuel g u v with
       | Err e => Err e
       | Ok [] => Ok true
       | Ok ps => dsep_cpdag_paths fuel so g cs ps true
       end.
