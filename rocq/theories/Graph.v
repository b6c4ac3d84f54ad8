(* causy/graph.py: graph state, queries on edges, mutators of GraphManager. *)
From Verif Require Import Base PyDict.

(* Node ids are Python strings (graph.py:31).  Node objects are represented by their id: every method
   below converts a Node argument to its id first ("if isinstance(u, Node): u = u.id", or u.id). *)
Definition id := string.

(* causy/edge_types.py:18-21 and the shipped edge types; TOther stands for user-defined ones. *)
Inductive etype := TDirected | TUndirected | TBiDirected | TOther (n : string).

Definition etype_eqb (a b : etype) : bool :=
  match a, b with
  | TDirected, TDirected | TUndirected, TUndirected | TBiDirected, TBiDirected => true
  | TOther x, TOther y => String.eqb x y
  | _, _ => false
  end.

(* Values stored in metadata and TestResult.data dicts.  A float64 is its 64-bit pattern.
   MNodes: list of nodes; MTriple: [x, y, [z..]]; MBetween: {"x":..,"y":..,"z":..}. *)
Inductive mval :=
| MNone | MBool (b : bool) | MNum (bits : Z) | MStr (s : string)
| MNodes (l : list id) | MTriple (x y : id) (zs : list id) | MBetween (x y z : id).

Definition meta := dict string mval.

(* graph.py:39-58 (Edge). *)
Record edge := mkEdge { e_u : id; e_v : id; e_type : etype; e_meta : option meta; e_del : bool }.

(* causy/models.py:36-52 (TestResultAction). *)
Inductive taction :=
| UPDATE_EDGE | UPDATE_EDGE_DIRECTED | UPDATE_EDGE_TYPE | UPDATE_EDGE_TYPE_DIRECTED
| REMOVE_EDGE_UNDIRECTED | REMOVE_EDGE_DIRECTED | RESTORE_EDGE | RESTORE_EDGE_DIRECTED | DO_NOTHING.

Definition taction_eqb (a b : taction) : bool :=
  match a, b with
  | UPDATE_EDGE, UPDATE_EDGE | UPDATE_EDGE_DIRECTED, UPDATE_EDGE_DIRECTED
  | UPDATE_EDGE_TYPE, UPDATE_EDGE_TYPE | UPDATE_EDGE_TYPE_DIRECTED, UPDATE_EDGE_TYPE_DIRECTED
  | REMOVE_EDGE_UNDIRECTED, REMOVE_EDGE_UNDIRECTED | REMOVE_EDGE_DIRECTED, REMOVE_EDGE_DIRECTED
  | RESTORE_EDGE, RESTORE_EDGE | RESTORE_EDGE_DIRECTED, RESTORE_EDGE_DIRECTED
  | DO_NOTHING, DO_NOTHING => true
  | _, _ => false
  end.

(* causy/models.py:55-59 (TestResult). *)
Record tresult := mkT { t_u : id; t_v : id; t_act : taction; t_data : option meta }.

(* causy/models.py (ActionHistoryStep), without the duration field. *)
Inductive hstep :=
| HStep (h_name : string) (h_actions h_proposed : list tresult) (h_steps : list hstep).

(* graph.py:24-36 (Node): values as bit patterns; node metadata is not modelled. *)
Record node := mkNode { n_name : string; n_values : list Z }.

Notation dict2 := (dict id (dict id edge)) (only parsing).

(* graph.py:582-588 (Graph). *)
Record graph := mkGraph {
  nodes  : dict id node;
  edges  : dict2;
  redges : dict2;              (* _reverse_edges *)
  dedges : dict2;              (* _deleted_edges *)
  ehist  : dict (id * id) (list tresult);
  ahist  : list hstep }.

(* graph.py:624-638 (GraphManager.__init__). *)
Definition empty_graph : graph := mkGraph [] [] [] [] [] [].

(* ---------- two-level dict access ---------- *)

(* d[u][v] for a present entry *)
Definition dget2 (d : dict2) (u v : id) : option edge :=
  match dget d u with Some r => dget r v | None => None end.

(* d[u][v] = e ; None models the KeyError when u is not a key of d *)
Definition dset2 (d : dict2) (u v : id) (e : edge) : option dict2 :=
  match dget d u with Some r => Some (dset d u (dset r v e)) | None => None end.

(* del d[u][v] ; None models the KeyError when u or v is missing *)
Definition ddel2 (d : dict2) (u v : id) : option dict2 :=
  match dget d u with
  | Some r => if dmem r v then Some (dset d u (ddel r v)) else None
  | None => None
  end.

(* attribute assignment on the object d[u][v] ; None models the KeyError *)
Definition dupd2 (d : dict2) (u v : id) (f : edge -> edge) : option dict2 :=
  match dget2 d u v with Some e => dset2 d u v (f e) | None => None end.

(* v in d[u] guarded by u in d *)
Definition dmem2 (d : dict2) (u v : id) : bool :=
  match dget2 d u v with Some _ => true | None => false end.

(* ---------- state and exception monad ---------- *)

(* A mutator: the new graph is returned also when an exception is raised, so effects that happened
   before the exception are kept. *)
Definition ST (A : Type) := graph -> graph * res A.
Definition ret {A} (a : A) : ST A := fun g => (g, Ok a).
Definition raise {A} (e : exn) : ST A := fun g => (g, Err e).
Definition bind {A B} (m : ST A) (k : A -> ST B) : ST B :=
  fun g => match m g with (g', Ok a) => k a g' | (g', Err e) => (g', Err e) end.
Definition gget : ST graph := fun g => (g, Ok g).
Notation "x <- m ;; k" := (bind m (fun x => k)) (at level 61, m at next level, right associativity).
Notation "m ;;; k" := (bind m (fun _ : unit => k)) (at level 61, right associativity).

Definition with_edges (g : graph) (d : dict2) : graph :=
  mkGraph (nodes g) d (redges g) (dedges g) (ehist g) (ahist g).
Definition with_redges (g : graph) (d : dict2) : graph :=
  mkGraph (nodes g) (edges g) d (dedges g) (ehist g) (ahist g).
Definition with_dedges (g : graph) (d : dict2) : graph :=
  mkGraph (nodes g) (edges g) (redges g) d (ehist g) (ahist g).
Definition with_ehist (g : graph) (h : dict (id * id) (list tresult)) : graph :=
  mkGraph (nodes g) (edges g) (redges g) (dedges g) h (ahist g).
Definition with_nodes (g : graph) (n : dict id node) : graph :=
  mkGraph n (edges g) (redges g) (dedges g) (ehist g) (ahist g).
Definition with_ahist (g : graph) (h : list hstep) : graph :=
  mkGraph (nodes g) (edges g) (redges g) (dedges g) (ehist g) h.

Definition on_edges (f : dict2 -> option dict2) : ST unit :=
  fun g => match f (edges g) with Some d => (with_edges g d, Ok tt) | None => (g, Err KeyError) end.
Definition on_redges (f : dict2 -> option dict2) : ST unit :=
  fun g => match f (redges g) with Some d => (with_redges g d, Ok tt) | None => (g, Err KeyError) end.
Definition on_dedges (f : dict2 -> option dict2) : ST unit :=
  fun g => match f (dedges g) with Some d => (with_dedges g d, Ok tt) | None => (g, Err KeyError) end.

Definition set_del (b : bool) (e : edge) : edge := mkEdge (e_u e) (e_v e) (e_type e) (e_meta e) b.
Definition set_meta (m : option meta) (e : edge) : edge := mkEdge (e_u e) (e_v e) (e_type e) m (e_del e).
Definition set_type (t : etype) (e : edge) : edge := mkEdge (e_u e) (e_v e) t (e_meta e) (e_del e).

(* ---------- queries ---------- *)

(* graph.py:66-85 *)
Definition directed_edge_is_soft_deleted (g : graph) (u v : id) : bool :=
  match dget2 (edges g) u v with Some e => e_del e | None => false end.

(* graph.py:87-100.  KeyError when u has no entry in _reverse_edges; self.nodes[n] may raise too. *)
Fixpoint nodes_lookup (g : graph) (l : list id) : res (list id) :=
  match l with
  | [] => Ok []
  | n :: r => if dmem (nodes g) n then rbind (nodes_lookup g r) (fun t => Ok (n :: t)) else Err KeyError
  end.
Definition parents_of_node (g : graph) (u : id) : res (list id) :=
  match dget (redges g) u with
  | None => Err KeyError
  | Some r => nodes_lookup g (filter (fun n => negb (directed_edge_is_soft_deleted g n u)) (dkeys r))
  end.

(* graph.py:102-131 *)
Definition edge_exists (g : graph) (u v : id) : bool :=
  if negb (dmem (nodes g) u) then false
  else if negb (dmem (nodes g) v) then false
  else if dmem2 (edges g) u v && negb (directed_edge_is_soft_deleted g u v) then true
  else if dmem2 (edges g) v u && negb (directed_edge_is_soft_deleted g v u) then true
  else false.

(* graph.py:133-158 *)
Definition directed_edge_exists (g : graph) (u v : id) : bool :=
  if negb (dmem (nodes g) u) then false
  else if negb (dmem (nodes g) v) then false
  else if negb (dmem2 (edges g) u v) then false
  else if directed_edge_is_soft_deleted g u v then false
  else true.

(* graph.py:168-183.  None = Python None; KeyError when edges[u][v] is absent although the pair is
   adjacent through v -> u. *)
Definition edge_value (g : graph) (u v : id) : res (option meta) :=
  if negb (edge_exists g u v) then Ok None
  else match dget2 (edges g) u v with Some e => Ok (e_meta e) | None => Err KeyError end.

(* graph.py:185-200 *)
Definition edge_type (g : graph) (u v : id) : res (option etype) :=
  if negb (edge_exists g u v) then Ok None
  else match dget2 (edges g) u v with Some e => Ok (Some (e_type e)) | None => Err KeyError end.

(* graph.py:202-216 *)
Definition undirected_edge_exists (g : graph) (u v : id) : bool :=
  directed_edge_exists g u v && directed_edge_exists g v u.

(* causy/edge_types.py:29-40 *)
Definition only_directed_edge_exists (g : graph) (u v : id) : bool :=
  directed_edge_exists g u v && negb (directed_edge_exists g v u).

(* graph.py:218-231, v given as an id; the resulting set in node order. *)
Definition get_siblings (g : graph) (v : id) : list id :=
  filter (fun n => negb (eqb n v) && undirected_edge_exists g v n) (dkeys (nodes g)).

(* graph.py:233-255 *)
Definition retrieve_edge_history (g : graph) (u v : id) (a : option taction) : res (list tresult) :=
  match a with
  | None => match dget (ehist g) (u, v) with Some l => Ok l | None => Err KeyError end
  | Some a => match dget (ehist g) (u, v) with
              | None => Ok []
              | Some l => Ok (filter (fun i => taction_eqb (t_act i) a) l)
              end
  end.

(* graph.py:277-302 *)
Definition edge_of_type_exists (g : graph) (u v : id) (t : etype) : bool :=
  if negb (directed_edge_exists g u v) then false
  else match dget2 (edges g) u v with
       | Some e => if negb (etype_eqb (e_type e) t) then false else true
       | None => false (* not reachable: directed_edge_exists holds *)
       end.

(* graph.py:569-579.  self.nodes[u] may raise KeyError. *)
Definition all_entries (d : dict2) : list (id * id * edge) :=
  flat_map (fun p => map (fun q => (fst p, fst q, snd q)) (snd p)) d.
Fixpoint retrieve_edges_aux (g : graph) (l : list (id * id * edge)) : res (list edge) :=
  match l with
  | [] => Ok []
  | (u, v, e) :: r =>
      if dmem (nodes g) u && dmem (nodes g) v then
        rbind (retrieve_edges_aux g r) (fun t =>
          Ok (if negb (directed_edge_is_soft_deleted g u v) then e :: t else t))
      else Err KeyError
  end.
Definition retrieve_edges (g : graph) : res (list edge) := retrieve_edges_aux g (all_entries (edges g)).

(* causy/graph_utils.py (retrieve_edges): every key pair, soft-deleted ones included. *)
Definition graph_utils_retrieve_edges (g : graph) : list (id * id) :=
  map (fun p => fst p) (all_entries (edges g)).

(* graph.py:640-651 *)
Definition get_edge (g : graph) (u v : id) : res edge :=
  match dget2 (edges g) u v with Some e => Ok e | None => Err GraphError end.

(* ---------- mutators ---------- *)

(* graph.py:653-673 *)
Definition init_entry (u : id) (g : graph) : graph :=
  if dmem (edges g) u then g
  else mkGraph (nodes g) (dset (edges g) u []) (dset (redges g) u []) (dset (dedges g) u [])
               (ehist g) (ahist g).
Definition init_hist (u v : id) (g : graph) : graph :=
  if dmem (ehist g) (u, v) then g else with_ehist g (dset (ehist g) (u, v) []).
Definition init_edge (u v : id) : ST unit :=
  fun g => (init_hist v u (init_hist u v (init_entry v (init_entry u g))), Ok tt).

(* guard used by all mutators: graph.py:691-694 etc. *)
Definition need_node (u : id) : ST unit :=
  fun g => if dmem (nodes g) u then (g, Ok tt) else (g, Err GraphError).

(* graph.py:675-707 *)
Definition add_edge (u v : id) (md : option meta) (t : etype) : ST unit :=
  need_node u ;;; need_node v ;;;
  (if eqb u v then raise GraphError else ret tt) ;;;
  init_edge u v ;;;
  let a := mkEdge u v t md false in
  on_edges (fun d => dset2 d u v a) ;;;
  on_redges (fun d => dset2 d v u a) ;;;
  let b := mkEdge v u t md false in
  on_edges (fun d => dset2 d v u b) ;;;
  on_redges (fun d => dset2 d u v b).

(* graph.py:709-738 *)
Definition add_directed_edge (u v : id) (md : option meta) (t : etype) : ST unit :=
  need_node u ;;; need_node v ;;;
  (if eqb u v then raise GraphError else ret tt) ;;;
  init_edge u v ;;;
  let a := mkEdge u v t md false in
  on_edges (fun d => dset2 d u v a) ;;;
  on_redges (fun d => dset2 d v u a).

(* graph.py:740-750 *)
Definition add_edge_history (u v : id) (a : tresult) : ST unit :=
  fun g => let h := match dget (ehist g) (u, v) with Some l => l | None => [] end in
           (with_ehist g (dset (ehist g) (u, v) (h ++ [a])), Ok tt).

(* graph.py:752-783 *)
Definition soft_flag (u v : id) (b : bool) : ST unit :=
  on_edges (fun d => dupd2 d u v (set_del b)) ;;; on_redges (fun d => dupd2 d v u (set_del b)).
Definition remove_edge (u v : id) (soft : bool) : ST unit :=
  need_node u ;;; need_node v ;;;
  if soft then
    g <- gget ;; (if dmem2 (edges g) u v then soft_flag u v true else ret tt) ;;;
    g <- gget ;; (if dmem2 (edges g) v u then soft_flag v u true else ret tt)
  else
    g <- gget ;;
    (match dget2 (edges g) u v with
     | Some e => on_dedges (fun d => dset2 d u v e) ;;; on_edges (fun d => ddel2 d u v) ;;;
                 on_redges (fun d => ddel2 d u v)
     | None => ret tt
     end) ;;;
    g <- gget ;;
    (match dget2 (edges g) v u with
     | Some e => on_dedges (fun d => dset2 d v u e) ;;; on_edges (fun d => ddel2 d v u) ;;;
                 on_redges (fun d => ddel2 d v u)
     | None => ret tt
     end).

(* graph.py:785-809.  add_edge is called with its default edge type UndirectedEdge(). *)
Definition restore_half (u v : id) : ST unit :=
  g <- gget ;;
  if dmem2 (edges g) u v then soft_flag u v false
  else match dget2 (dedges g) u v with
       | None => raise KeyError
       | Some e => add_edge u v (e_meta e) TUndirected ;;; on_dedges (fun d => ddel2 d u v)
       end.
Definition restore_edge (u v : id) : ST unit :=
  need_node u ;;; need_node v ;;; restore_half u v ;;; restore_half v u.

(* graph.py:811-836 *)
Definition remove_directed_edge (u v : id) (soft : bool) : ST unit :=
  need_node u ;;; need_node v ;;;
  g <- gget ;;
  match dget2 (edges g) u v with
  | None => ret tt
  | Some e =>
      if soft then soft_flag u v true
      else on_dedges (fun d => dset2 d u v e) ;;; on_edges (fun d => ddel2 d u v) ;;;
           on_redges (fun d => ddel2 d v u)
  end.

(* graph.py:838-855.  add_directed_edge is called with its default edge type DirectedEdge(). *)
Definition restore_directed_edge (u v : id) : ST unit :=
  need_node u ;;; need_node v ;;;
  g <- gget ;;
  if dmem2 (edges g) u v then soft_flag u v false
  else match dget2 (dedges g) u v with
       | None => raise KeyError
       | Some e => add_directed_edge u v (e_meta e) TDirected ;;; on_dedges (fun d => ddel2 d u v)
       end.

(* graph.py:857-920 *)
Definition upd4 (u v : id) (f : edge -> edge) : ST unit :=
  on_edges (fun d => dupd2 d u v f) ;;; on_edges (fun d => dupd2 d v u f) ;;;
  on_redges (fun d => dupd2 d u v f) ;;; on_redges (fun d => dupd2 d v u f).
Definition update_edge (u v : id) (md : option meta) (t : option etype) : ST unit :=
  need_node u ;;; need_node v ;;;
  g <- gget ;;
  if negb (dmem (edges g) u) then raise GraphError
  else if negb (dmem (edges g) v) then raise GraphError
  else if negb (dmem2 (edges g) v u) then raise GraphError
  else if negb (dmem2 (edges g) u v) then raise GraphError
  else
    (match md with Some m => upd4 u v (set_meta (Some m)) | None => ret tt end) ;;;
    (match t with Some t => upd4 u v (set_type t) | None => ret tt end).

(* graph.py:922-960 *)
Definition upd2 (u v : id) (f : edge -> edge) : ST unit :=
  on_edges (fun d => dupd2 d u v f) ;;; on_redges (fun d => dupd2 d v u f).
Definition update_directed_edge (u v : id) (md : option meta) (t : option etype) : ST unit :=
  need_node u ;;; need_node v ;;;
  g <- gget ;;
  if negb (dmem2 (edges g) u v) then raise GraphError
  else
    (match md with Some m => upd2 u v (set_meta (Some m)) | None => ret tt end) ;;;
    (match t with Some t => upd2 u v (set_type t) | None => ret tt end).

(* graph.py:962-973.  The pairs are collected first (self.nodes[u_id] may raise KeyError). *)
Definition soft_deleted_entries (g : graph) : list (id * id) :=
  map (fun p => fst p) (filter (fun p => e_del (snd p)) (all_entries (edges g))).
Fixpoint remove_all_directed (l : list (id * id)) : ST unit :=
  match l with
  | [] => ret tt
  | (u, v) :: r => remove_directed_edge u v false ;;; remove_all_directed r
  end.
Definition purge_soft_deleted_edges : ST unit :=
  g <- gget ;;
  let l := soft_deleted_entries g in
  if forallb (fun p => dmem (nodes g) (fst p) && dmem (nodes g) (snd p)) l
  then remove_all_directed l else raise KeyError.

(* graph.py:975-1012.  [vals = None] models values torch cannot convert (TypeError turned into
   ValueError).  When the caller gives no id, [i] is the uuid4 drawn by the code. *)
Definition add_node (name : string) (vals : option (list Z)) (i : id) : ST unit :=
  fun g =>
    if dmem (nodes g) i then (g, Err ValueError)
    else match vals with
         | None => (g, Err ValueError)
         | Some vs => (with_nodes g (dset (nodes g) i (mkNode name vs)), Ok tt)
         end.

(* ---------- operation sequences ---------- *)

(* The public mutators as a data type, to speak about arbitrary histories. *)
Inductive gop :=
| OAddNode (name : string) (vals : option (list Z)) (i : id)
| OAddEdge (u v : id) (md : option meta) (t : etype)
| OAddDirected (u v : id) (md : option meta) (t : etype)
| ORemove (u v : id) (soft : bool)
| ORestore (u v : id)
| ORemoveDirected (u v : id) (soft : bool)
| ORestoreDirected (u v : id)
| OUpdate (u v : id) (md : option meta) (t : option etype)
| OUpdateDirected (u v : id) (md : option meta) (t : option etype)
| OPurge
| OHistory (u v : id) (a : tresult).

Definition run_op (o : gop) : ST unit :=
  match o with
  | OAddNode n vs i => add_node n vs i
  | OAddEdge u v md t => add_edge u v md t
  | OAddDirected u v md t => add_directed_edge u v md t
  | ORemove u v s => remove_edge u v s
  | ORestore u v => restore_edge u v
  | ORemoveDirected u v s => remove_directed_edge u v s
  | ORestoreDirected u v => restore_directed_edge u v
  | OUpdate u v md t => update_edge u v md t
  | OUpdateDirected u v md t => update_directed_edge u v md t
  | OPurge => purge_soft_deleted_edges
  | OHistory u v a => add_edge_history u v a
  end.

(* A caller that catches every exception and goes on. *)
Definition run_ops (os : list gop) (g : graph) : graph := fold_left (fun g o => fst (run_op o g)) os g.
