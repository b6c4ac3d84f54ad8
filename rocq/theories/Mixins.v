(* causy/graph_model.py:549-570 (graph_model_factory): the queries that edge types and extensions add to the
   class of graphs.  The factory changes the bases of the one class Graph; every graph of the process is an
   instance of it. *)
From Verif Require Import Base.
Open Scope string_scope.
Open Scope list_scope.

(* A class: its method resolution order (itself first), the functions defined in its body, and whether
   inspect.isabstract holds (it has abstract methods).  Simplification: data attributes are left out. *)
Record pyclass := mkClass { c_mro : list string; c_defs : list string; c_abstract : bool }.
Definition classes := string -> pyclass.

(* Python's linearization of the bases of a class (C3): the first head that is in no tail comes next *)
Definition in_tail (x : string) (l : list string) : bool := match l with [] => false | _ :: t => mem x t end.
Definition heads (ls : list (list string)) : list string := flat_map (fun l => match l with [] => [] | x :: _ => [x] end) ls.
Definition next_class (ls : list (list string)) : option string :=
  find (fun x => forallb (fun l => negb (in_tail x l)) ls) (heads ls).
Definition drop_head (x : string) (l : list string) : list string :=
  match l with [] => [] | y :: t => if eqb x y then t else l end.
(* [fuel]: every round takes away at least one head, see merge_fuel in MixinFacts.v *)
Fixpoint merge (fuel : nat) (ls : list (list string)) : res (list string) :=
  match heads ls with
  | [] => Ok []
  | _ => match fuel with
         | 0 => Err OutOfFuel
         | S f => match next_class ls with
                  | None => Err TypeError      (* "Cannot create a consistent method resolution order (MRO)" *)
                  | Some x => rbind (merge f (map (drop_head x) ls)) (fun r => Ok (x :: r))
                  end
         end
  end.
Definition size (ls : list (list string)) : nat := List.length (List.concat ls).
Definition linearize (C : classes) (name : string) (bases : list string) : res (list string) :=
  let ls := map (fun b => c_mro (C b)) bases ++ [bases] in
  rbind (merge (size ls) ls) (fun r => Ok (name :: r)).

(* getattr(x, m): the first class in the order that defines m *)
Definition lookup (C : classes) (mro : list string) (m : string) : res string :=
  match find (fun c => mem m (c_defs (C c))) mro with Some c => Ok c | None => Err AttributeError end.

(* class Graph(BaseModel, GraphBaseAccessMixin), graph.py:582 *)
Definition graph_bases : list string := ["BaseModel"; "GraphBaseAccessMixin"].
(* graph.py:591: the class of model.graph; no code of causy changes its bases *)
Definition manager_bases : list string := ["GraphBaseAccessMixin"; "BaseGraphInterface"].

(* the mixins of the edge types, then those of the extensions, graph_model.py:549-558 *)
Definition contributed (C : classes) (mixins : list string) : list string := filter (fun m => negb (c_abstract (C m))) mixins.
Fixpoint distinct (l : list string) : list string :=
  match l with [] => [] | x :: r => if mem x r then distinct r else x :: distinct r end.
(* graph_model.py:560: Graph.__bases__ = tuple(set(Graph.__bases__ + bases)).  [so] is the iteration order of
   the set.  The assignment fails, and changes nothing, if there is no linearization. *)
Definition extend_graph_class (C : classes) (so : list string -> list string) (mixins : list string) (bases : list string) : list string * res unit :=
  let new := so (distinct (bases ++ contributed C mixins)) in
  match linearize C "Graph" new with Ok _ => (new, Ok tt) | Err e => (bases, Err e) end.
(* calls of the factory, one after the other; a failing call may be caught by the caller *)
Fixpoint factory_calls (C : classes) (l : list ((list string -> list string) * list string)) (bases : list string) : list string :=
  match l with [] => bases | (so, ms) :: r => factory_calls C r (fst (extend_graph_class C so ms bases)) end.

(* a query on model.graph.graph and on model.graph *)
Definition graph_query (C : classes) (bases : list string) (m : string) : res string :=
  rbind (linearize C "Graph" bases) (fun o => lookup C o m).
Definition manager_query (C : classes) (m : string) : res string :=
  rbind (linearize C "GraphManager" manager_bases) (fun o => lookup C o m).

(* The classes of the code.  GraphBaseAccessMixin: graph.py:65-579; DirectedEdge: edge_types.py:28-82;
   EdgeTypeInterface, whose mixin UndirectedEdge and BiDirectedEdge inherit: interfaces.py:81-82;
   ExtensionInterface (GraphUIExtension inherits its mixin): interfaces.py:513-514; InducingPathExtension:
   fci.py:7-33.  Of pydantic's BaseModel only a few functions are listed; none has the name of a query. *)
Definition directed_mixin := "DirectedEdge.GraphAccessMixin".
Definition plain_edge_mixin := "EdgeTypeInterface.GraphAccessMixin".
Definition plain_extension_mixin := "ExtensionInterface.GraphAccessMixin".
Definition inducing_mixin := "InducingPathExtension.GraphAccessMixin".
Definition base_queries : list string :=
  ["directed_edge_is_soft_deleted"; "parents_of_node"; "edge_exists"; "directed_edge_exists"; "node_by_id"; "edge_value"; "edge_type";
   "undirected_edge_exists"; "get_siblings"; "retrieve_edge_history"; "directed_path_exists"; "edge_of_type_exists"; "descendants_of_node";
   "_is_a_collider_blocking"; "_is_a_non_collider_in_conditioning_set"; "are_nodes_d_separated_dag"; "are_nodes_d_separated_cpdag"; "_is_collider";
   "_is_definite_noncollider"; "_is_path_of_definite_status"; "_is_definite_noncollider_in_conditioning_set";
   "all_paths_on_underlying_undirected_graph"; "retrieve_edges"].
Definition manager_mutators : list string :=
  ["get_edge"; "_init_edge"; "add_edge"; "add_directed_edge"; "add_edge_history"; "remove_edge"; "restore_edge"; "remove_directed_edge";
   "restore_directed_edge"; "update_edge"; "update_directed_edge"; "purge_soft_deleted_edges"; "add_node"].
Definition causy_classes : classes := fun c =>
  if eqb c "GraphBaseAccessMixin" then mkClass [c; "object"] base_queries false
  else if eqb c directed_mixin then mkClass [c; "object"] ["only_directed_edge_exists"; "_resolve_node_references"; "directed_paths"] false
  else if eqb c inducing_mixin then mkClass [c; "object"] ["inducing_path_exists"] false
  else if eqb c plain_edge_mixin then mkClass [c; "ABC"; "object"] [] false
  else if eqb c plain_extension_mixin then mkClass [c; "ABC"; "object"] [] false
  else if eqb c "BaseModel" then mkClass [c; "object"] ["model_dump"; "model_copy"; "copy"; "dict"; "json"] false
  else if eqb c "BaseGraphInterface" then mkClass [c; "ABC"; "object"]
    ["retrieve_edge_history"; "add_edge_history"; "add_edge"; "remove_edge"; "remove_directed_edge"; "update_edge"; "update_directed_edge"; "add_node";
     "edge_value"; "undirected_edge_exists"; "directed_edge_exists"; "edge_exists"; "restore_edge"; "restore_directed_edge"] true
  else if eqb c "GraphManager" then mkClass [] manager_mutators false
  else mkClass [] [] false.
