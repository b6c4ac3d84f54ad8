(* causy/sample_generator.py. *)
From Coq Require DecimalString.
From Verif Require Import Base PyDict Graph Construct.
Open Scope string_scope.
Open Scope list_scope.

(* sample_generator.py:25-57 (NodeReference, TimeAwareNodeReference, SampleEdge).  se_time is the
   point_in_time of from_node; the IID generator does not read it.  Numbers are of any type T. *)
Record sedge (T : Type) := mkSE { se_from : string; se_time : Z; se_to : string; se_value : T }.
Arguments mkSE {T}. Arguments se_from {T}. Arguments se_time {T}. Arguments se_to {T}. Arguments se_value {T}.

(* sample_generator.py:96-105.  [so]: iteration order of a Python set. *)
Definition find_variables {T} (so : list string -> list string) (es : list (sedge T)) : list string :=
  so (flat_map (fun e => [se_from e; se_to e]) es).
(* sample_generator.py:107-113 *)
Definition edges_to {T} (es : list (sedge T)) (n : string) : list (sedge T) := filter (fun e => eqb (se_to e) n) es.

(* sorted() of a list of strings *)
Definition sort_names (l : list string) : list string := map fst (sort_items (map (fun n => (n, tt)) l)).

(* nodes.remove(node): the first occurrence *)
Fixpoint remove_first (n : string) (l : list string) : list string :=
  match l with [] => [] | m :: r => if eqb m n then r else m :: remove_first n r end.
(* sample_generator.py:152-154 *)
Definition sources_in {T} (es : list (sedge T)) (sorted : list string) (n : string) : bool :=
  forallb (fun e => mem (se_from e) sorted) (edges_to es n).
(* sample_generator.py:142-158.  One unit of fuel per turn of the while loop; when no node qualifies the
   for loop ends without a change and the while loop goes on. *)
Fixpoint topologic_sort {T} (fuel : nat) (es : list (sedge T)) (nodes sorted : list string) : res (list string) :=
  match nodes with
  | [] => Ok sorted
  | _ => match fuel with
         | 0 => Err OutOfFuel
         | S f => match find (sources_in es sorted) nodes with
                  | Some n => topologic_sort f es (remove_first n nodes) (sorted ++ [n])
                  | None => topologic_sort f es nodes sorted
                  end
         end
  end.
(* sample_generator.py:132-140 *)
Definition iid_variables {T} (fuel : nat) (so : list string -> list string) (es : list (sedge T)) : res (list string) :=
  topologic_sort fuel es (sort_names (find_variables so es)) [].

Section Numbers.
Context {T : Type}.
Variable add mul : T -> T -> T.     (* addition and multiplication of tensor entries *)
Variable rnd : nat -> T.            (* the i-th number that random_fn returns *)

(* a + b and a * b elementwise for tensors of the same length *)
Fixpoint vadd (a b : list T) : list T :=
  match a, b with x :: a', y :: b' => add x y :: vadd a' b' | _, _ => [] end.
Definition vscale (c : T) (a : list T) : list T := map (mul c) a.

(* sample_generator.py:168-172: draws for the j-th variable *)
Definition noise (size j : nat) : list T := map (fun i => rnd (j * size + i)) (seq 0 size).
Fixpoint init_repr (size j : nat) (vs : list string) (d : dict string (list T)) : dict string (list T) :=
  match vs with [] => d | k :: r => init_repr size (S j) r (dset d k (noise size j)) end.

(* sample_generator.py:187-189 *)
Definition add_edge_term (e : sedge T) (d : dict string (list T)) : res (dict string (list T)) :=
  match dget d (se_to e), dget d (se_from e) with
  | Some a, Some b => Ok (dset d (se_to e) (vadd a (vscale (se_value e) b)))
  | _, _ => Err KeyError
  end.
(* sample_generator.py:160-190.  ingoing_edges[to_node] is _get_edges_for_node_to(to_node). *)
Definition generate_data (es : list (sedge T)) (vs : list string) (size : nat) : res (dict string (list T)) :=
  rfold (fun d n => rfold (fun d e => add_edge_term e d) (edges_to es n) d) vs (init_repr size 0 vs []).

(* sample_generator.py:193-205; data[key][i] *)
Definition shaped_row (d : dict string (list T)) (i : nat) : res (dict string T) :=
  rfold (fun r p => match nth_error (snd p) i with Some x => Ok (dset r (fst p) x) | None => Err IndexError end) d [].
Fixpoint shaped_rows (d : dict string (list T)) (is : list nat) : res (list (dict string T)) :=
  match is with [] => Ok [] | i :: r => rbind (shaped_row d i) (fun x => rbind (shaped_rows d r) (fun t => Ok (x :: t))) end.
Definition generate_shaped_data (es : list (sedge T)) (vs : list string) (size : nat) : res (list (dict string T)) :=
  rbind (generate_data es vs size) (fun d => shaped_rows d (seq 0 size)).

(* sample_generator.py:267-304.  [init k]: the initial value drawn for variable k (lines 407-443: see
   Initial.v); [vs]: iteration order of the set of variables, the same in every loop.  A negative list
   index counts from the end. *)
Definition py_index (l : list T) (i : Z) : res T :=
  let n := Z.of_nat (List.length l) in
  let j := if Z.ltb i 0 then (i + n)%Z else i in
  if Z.ltb j 0 then Err IndexError
  else match nth_error l (Z.to_nat j) with Some x => Ok x | None => Err IndexError end.
Definition lag_term (init : string -> T) (d : dict string (list T)) (t : nat) (e : sedge T) : res T :=
  if Z.ltb (Z.of_nat t) (Z.abs (se_time e)) then Ok (mul (se_value e) (init (se_from e)))
  else match dget d (se_from e) with
       | None => Err KeyError
       | Some l => rbind (py_index l (Z.of_nat t + se_time e)%Z) (fun x => Ok (mul (se_value e) x))
       end.
(* one variable at time t; [zero] is torch.tensor(0.0) and [k] counts the calls of random_fn *)
Definition series_step (zero : T) (init : string -> T) (es : list (sedge T)) (t : nat) (s : dict string (list T) * nat) (n : string)
  : res (dict string (list T) * nat) :=
  rbind (rfold (fun acc e => rbind (lag_term init (fst s) t e) (fun x => Ok (add acc x))) (edges_to es n) zero) (fun r =>
  match dget (fst s) n with
  | None => Err KeyError
  | Some l => Ok (dset (fst s) n (l ++ [add r (rnd (snd s))]), S (snd s))
  end).
Definition generate_series (zero : T) (init : string -> T) (es : list (sedge T)) (vs : list string) (size : nat) : res (dict string (list T)) :=
  rbind (rfold (fun s t => rfold (series_step zero init es t) vs s) (seq 1 (size - 1))
               (fold_left (fun d k => dset d k [init k]) vs [], 0)) (fun s => Ok (fst s)).
End Numbers.

(* sample_generator.py:214-230: the sample graph.  The metadata given to add_node is not modelled. *)
Fixpoint add_samples (output : dict string (list Z)) (vs : list string) : ST unit :=
  match vs with
  | [] => ret tt
  | i :: r => match dget output i with
              | None => raise KeyError
              | Some x => add_node i (Some x) i ;;; add_samples output r
              end
  end.
Fixpoint add_arrows (l : list (id * id)) : ST unit :=
  match l with
  | [] => ret tt
  | (u, v) :: r =>
      g <- gget ;;
      (if dmem (nodes g) u && dmem (nodes g) v then add_directed_edge u v (Some []) TDirected else raise KeyError) ;;;
      add_arrows r
  end.
Definition iid_graph (es : list (sedge Z)) (vs : list string) (output : dict string (list Z)) : graph * res unit :=
  (add_samples output vs ;;; add_arrows (map (fun e => (se_from e, se_to e)) es)) empty_graph.
(* sample_generator.py:207-230 after the constructor *)
Definition iid_generate (add mul : Z -> Z -> Z) (rnd : nat -> Z) (fuel : nat) (so : list string -> list string)
           (es : list (sedge Z)) (size : nat) : res (dict string (list Z) * graph) :=
  rbind (iid_variables fuel so es) (fun vs =>
  rbind (generate_data add mul rnd es vs size) (fun d =>
  match iid_graph es vs d with (g, Ok _) => Ok (d, g) | (_, Err e) => Err e end)).

(* str(t) *)
Definition dec (t : nat) : string := DecimalString.NilEmpty.string_of_uint (Nat.to_uint t).
(* f"{i}-t{t}", the id of the node for variable i at time t; the name f"{i} - t{t}" *)
Definition time_id (i : string) (t : nat) : id := (i ++ "-t" ++ dec t)%string.
Definition time_name (i : string) (t : nat) : string := (i ++ " - t" ++ dec t)%string.
(* sample_generator.py:314-321 *)
Definition time_nodes (vs : list string) (size : nat) : list (string * nat) := flat_map (fun i => map (fun t => (i, t)) (seq 0 size)) vs.
Fixpoint add_time_nodes (output : dict string (list Z)) (l : list (string * nat)) : ST unit :=
  match l with
  | [] => ret tt
  | (i, t) :: r =>
      match dget output i with
      | None => raise KeyError
      | Some x => match nth_error x t with
                  | None => raise IndexError
                  | Some y => add_node (time_name i t) (Some [y]) (time_id i t) ;;; add_time_nodes output r
                  end
      end
  end.
(* sample_generator.py:323-337 *)
Definition time_arrows (es : list (sedge Z)) (size : nat) : list (id * id) :=
  flat_map (fun t => flat_map (fun e =>
    if Z.ltb (Z.of_nat t - Z.abs (se_time e)) 0 then []
    else [(time_id (se_from e) (t - Z.abs_nat (se_time e)), time_id (se_to e) t)]) es) (seq 1 (size - 1)).
(* sample_generator.py:306-339 *)
Definition series_generate (add mul : Z -> Z -> Z) (rnd : nat -> Z) (zero : Z) (init : string -> Z) (es : list (sedge Z))
           (vs : list string) (size : nat) : res (dict string (list Z) * graph) :=
  rbind (generate_series add mul rnd zero init es vs size) (fun d =>
  match (add_time_nodes d (time_nodes vs size) ;;; add_arrows (time_arrows es size)) empty_graph with
  | (g, Ok _) => Ok (d, g) | (_, Err e) => Err e end).
