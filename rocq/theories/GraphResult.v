(* Model of the Result that is made of a graph after a run: Result(action_history=..., edges=model.graph.retrieve_edges(),
   nodes=model.graph.nodes, ...) (workspaces/cli.py:305-314, cli.py:92-97), as the objects of ResultText.v.
   Simplified: what the history shows of data that a later step wrote in place is left out (Alias.v has that). *)
From Coq Require Import Ascii.
From Verif Require Import Base PyDict PyStr JsonText ResultText Graph.
Open Scope string_scope.
Open Scope list_scope.

(* a function of position and element on every element *)
Section Numbered.
Context {A B : Type}.
Variable f : nat -> A -> B.
Fixpoint numbered (k : nat) (l : list A) : list B := match l with [] => [] | x :: r => f k x :: numbered (S k) r end.
End Numbered.

Section Saving.
Context {F : Type}.
Notation pval := (pval F).
(* the Python number of a bit pattern: a float, or an int where the correlation was clamped (calculation.py:45-48) *)
Variable num : Z -> Z + F.
(* IS_DIRECTED and STR_REPRESENTATION of an edge type that causy does not ship *)
Variable other_type : string -> bool * ustr.
(* the duration field of the log entry at a position of the log (graph_model.py:224, logic.py:53, 61, 99, 107) *)
Variable duration : list nat -> option F.

Definition dump_num (z : Z) : pval := match num z with inl n => PInt n | inr f => PFloat f end.
(* the name of the node object with this id; ids of edges and actions are ids of nodes, other ids stand for themselves *)
Definition name_of (g : graph) (x : id) : string := match dget (nodes g) x with Some n => n_name n | None => x end.
(* a node in a field of type NodeInterface (models.py:56-57, interfaces.py:171-172): name and id *)
Definition node_ref (g : graph) (x : id) : rnode := mkRNode (lit (name_of g x)) (lit x).
(* a Node in an untyped dictionary: all fields of Node (graph.py:30-33), its metadata is {} (graph.py:1006-1009) *)
Definition node_full (g : graph) (x : id) : pval := PDict [(lit "name", PStr (lit (name_of g x))); (lit "id", PStr (lit x)); (lit "values", PTensor); (lit "metadata", PDict [])].
(* values of metadata and of TestResult.data (Graph.v, mval) *)
Definition dump_mval (g : graph) (m : mval) : pval :=
  match m with
  | MNone => PNull | MBool b => PBool b | MNum z => dump_num z | MStr s => PStr (lit s)
  | MNodes l => PList (map (node_full g) l)
  | MTriple x y zs => PList [node_full g x; node_full g y; PList (map (node_full g) zs)]
  | MBetween x y z => PDict [(lit "x", node_full g x); (lit "y", node_full g y); (lit "z", node_full g z)]
  end.
Definition dump_meta (g : graph) (d : meta) : list (ustr * pval) := map (fun p => (lit (fst p), dump_mval g (snd p))) d.
(* edge_types.py:23-26, 131-134, 152-155 *)
Definition type_of (t : etype) : retype :=
  match t with
  | TDirected => mkRType (lit "DIRECTED") true (lit "-->")
  | TUndirected => mkRType (lit "UNDIRECTED") false (lit "---")
  | TBiDirected => mkRType (lit "BIDIRECTED") false (lit "<->")
  | TOther n => mkRType (lit n) (fst (other_type n)) (snd (other_type n))
  end.
Definition edge_of (g : graph) (e : edge) : redge pval := mkREdge (node_ref g (e_u e)) (node_ref g (e_v e)) (type_of (e_type e)) (option_map (dump_meta g) (e_meta e)).
Definition trial_of (g : graph) (i : tresult) : rtrial pval := mkRTrial (node_ref g (t_u i)) (node_ref g (t_v i)) (t_act i) (option_map (dump_meta g) (t_data i)).
(* an entry of the log (models.py:87-94) *)
Fixpoint step_of (g : graph) (path : list nat) (h : hstep) : rstep F pval :=
  match h with
  | HStep n a p ss => RStep (lit n) (duration path) (map (trial_of g) a) (map (trial_of g) p) (numbered (fun k s => step_of g (path ++ [k]) s) 0 ss)
  end.
(* what does not come from the graph *)
Record extras := mkExtras { x_ref : ustr; x_reftype : rreftype; x_created : ustr; x_variables : option (list (ustr * pval)); x_data_hash : option ustr; x_alg_hash : option ustr; x_vars_hash : option ustr }.
Definition result_of (x : extras) (g : graph) : res (rresult F pval) :=
  rbind (retrieve_edges g) (fun es => Ok (mkRResult (x_ref x) (x_reftype x) (x_created x) (map (fun p => (lit (fst p), node_ref g (fst p))) (nodes g)) (map (edge_of g) es)
    (numbered (fun k h => step_of g [k] h) 0 (ahist g)) (x_variables x) (x_data_hash x) (x_alg_hash x) (x_vars_hash x))).
End Saving.
Arguments extras : clear implicits.
