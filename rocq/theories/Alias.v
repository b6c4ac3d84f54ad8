(* Model of the dictionaries that hold the data of edges, with their sharing.  Graph.v has the data of an edge as a value;
   here it is a reference to a dictionary in memory, as in the code:
   - Edge( ... ) and TestResult( ... ) copy the dictionary they are given (pydantic builds a new one),
   - update_edge and update_directed_edge store the dictionary of the TestResult itself on the edges (graph.py:888-903, 944-951),
   - the TestResult with its dictionary stays in the action history (graph_model.py:218-226) and the edge history,
   - edge_value returns the dictionary of the edge itself (graph.py:183), and the correlation and effect steps write into it
     (calculation.py:50, multivariate_regression.py:60).
   Everything else about edges is left out; that the action is carried out is assumed (the edge exists).
   Processing is in this process (parallel=False or a single process); worker processes write into copies. *)
From Verif Require Import Base PyDict Graph.
Open Scope list_scope.

Definition pair := (id * id)%type.
Definition turn (p : pair) : pair := (snd p, fst p).
(* cells: all dictionaries, referred to by position; slots: the dictionary of the edge object from u to v; past: the
   dictionaries of recorded actions, in order *)
Record mem := mkMem { cells : list meta; slots : dict pair nat; past : list nat }.
(* Edge(u=u, v=v, metadata=metadata) stored in the graph (graph.py:701-706, 735-737): a new dictionary *)
Definition new_edge (p : pair) (x : meta) (m : mem) : mem := mkMem (cells m ++ [x]) (dset (slots m) p (List.length (cells m))) (past m).
Fixpoint update (l : list meta) (i : nat) (f : meta -> meta) : list meta :=
  match l, i with [], _ => [] | c :: r, O => f c :: r | c :: r, S j => c :: update r j f end.
(* process of the correlation step (calculation.py:32-57) and of the effect step (multivariate_regression.py:34-67) for the
   pair p: the number x is written under k into the dictionary of the edge, and the TestResult gets a copy of it *)
Definition process (k : string) (p : pair) (x : mval) (m : mem) : res (mem * nat) :=
  match dget (slots m) p with
  | None => Err TypeError                          (* edge_value returns None *)
  | Some i => let cs := update (cells m) i (fun c => dset c k x) in
              match nth_error cs i with
              | None => Err KeyError               (* not reached: references are to cells *)
              | Some c => Ok (mkMem (cs ++ [c]) (slots m) (past m), List.length cs)
              end
  end.
(* the pairs of a step are processed before any action is carried out (graph_model.py:494-519) *)
Fixpoint process_all (k : string) (ps : list (pair * mval)) (m : mem) : res (mem * list (pair * nat)) :=
  match ps with
  | [] => Ok (m, [])
  | (p, x) :: r => rbind (process k p x m) (fun mc => rbind (process_all k r (fst mc)) (fun ml => Ok (fst ml, (p, snd mc) :: snd ml)))
  end.
(* UPDATE_EDGE for both directions, UPDATE_EDGE_DIRECTED for one (graph_model.py:340-360); the action is recorded *)
Definition take (both : bool) (a : pair * nat) (m : mem) : mem :=
  mkMem (cells m) (let s := dset (slots m) (fst a) (snd a) in if both then dset s (turn (fst a)) (snd a) else s) (past m ++ [snd a]).
(* execute_pipeline_step (graph_model.py:432-530) for such a step; with apply_to_graph=False the actions are returned but not
   carried out *)
Definition step (apply both : bool) (k : string) (ps : list (pair * mval)) (m : mem) : res mem :=
  rbind (process_all k ps m) (fun ml => Ok (if apply then fold_left (fun m a => take both a m) (snd ml) (fst ml) else fst ml)).
Inductive op := NewEdge (p : pair) (x : meta) | Step (apply both : bool) (k : string) (ps : list (pair * mval)).
Definition run_op (o : op) (m : mem) : res mem := match o with NewEdge p x => Ok (new_edge p x m) | Step apply both k ps => step apply both k ps m end.
Fixpoint run_ops (os : list op) (m : mem) : res mem := match os with [] => Ok m | o :: r => rbind (run_op o m) (run_ops r) end.
