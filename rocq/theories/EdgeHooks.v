(* causy/graph_model.py: taking actions on the graph when the edge types have hooks. *)
From Verif Require Import Base PyDict Graph Actions.

(* interfaces.py:84-150 (EdgeTypeInterface): the names of the hooks an edge type may define. *)
Inductive ehook :=
| PreRemove | PostRemove | PreAdd | PostAdd | PreUpdate | PostUpdate | PreTypeChange | PostTypeChange.

(* interfaces.py:84-150: the hooks of every edge type, as methods called with the graph and the action.
   A hook may change the graph, may change a state of its own (type W: attributes, files, ...) and may
   raise; what it did before raising stays.  BaseExceptions that are not Exceptions (KeyboardInterrupt)
   are not modelled. *)
Definition edge_hooks (W : Type) := etype -> ehook -> tresult -> W -> graph -> W * graph * res unit.

Section Hooked.
Context {W : Type}.
Variable EH : edge_hooks W.

(* Computations on the graph and on the state of the hooks. *)
Definition HST (A : Type) := W * graph -> W * graph * res A.
Definition hret {A} (a : A) : HST A := fun s => (s, Ok a).
Definition hbind {A B} (m : HST A) (k : A -> HST B) : HST B :=
  fun s => match m s with (s', Ok a) => k a s' | (s', Err e) => (s', Err e) end.
(* a method of the graph: it does not see the state of the hooks *)
Definition hlift {A} (m : ST A) : HST A := fun s => let (g', r) := m (snd s) in (fst s, g', r).
Notation "x <~ m ;; k" := (hbind m (fun x => k)) (at level 61, m at next level, right associativity).
Notation "m ;~ k" := (hbind m (fun _ : unit => k)) (at level 61, right associativity).

(* graph_model.py:278-291 (_execute_hook): the type is the one of the stored edge u -> v, live or
   soft-deleted; every exception of get_edge and of the hook is logged and dropped. *)
Definition execute_hook (k : ehook) (i : tresult) : HST unit :=
  fun s => let (w, g) := s in
    match get_edge g (t_u i) (t_v i) with
    | Err _ => (w, g, Ok tt)
    | Ok e => let '(w', g', _) := EH (e_type e) k i w g in (w', g', Ok tt)
    end.

(* graph_model.py:327-425: one action; tells whether it is appended to actions_taken.  Reading
   i.edge_type raises AttributeError (models.py:55-59 has no such field). *)
Definition apply_hooked (i : tresult) : HST bool :=
  let u := t_u i in let v := t_v i in
  g <~ hlift gget ;;
  match t_act i with
  | REMOVE_EDGE_UNDIRECTED =>
      if negb (undirected_edge_exists g u v) then hret false
      else execute_hook PreRemove i ;~ hlift (remove_edge u v true) ;~
           hlift (add_edge_history u v i) ;~ hlift (add_edge_history v u i) ;~
           execute_hook PostRemove i ;~ hret true
  | UPDATE_EDGE =>
      if negb (edge_exists g u v) then hret false
      else execute_hook PreUpdate i ;~ hlift (update_edge u v (t_data i) None) ;~
           hlift (add_edge_history u v i) ;~ hlift (add_edge_history v u i) ;~
           execute_hook PostUpdate i ;~ hret true
  | UPDATE_EDGE_DIRECTED =>
      if negb (directed_edge_exists g u v) then hret false
      else execute_hook PreUpdate i ;~ hlift (update_directed_edge u v (t_data i) None) ;~
           hlift (add_edge_history u v i) ;~
           execute_hook PostUpdate i ;~ hret true
  | DO_NOTHING => hret false
  | REMOVE_EDGE_DIRECTED =>
      if negb (directed_edge_exists g u v) && negb (edge_exists g u v) then hret false
      else execute_hook PreRemove i ;~ hlift (remove_directed_edge u v true) ;~
           (g1 <~ hlift gget ;;
            if edge_exists g1 v u then hlift (update_directed_edge v u None (Some TDirected)) else hret tt) ;~
           hlift (add_edge_history u v i) ;~
           execute_hook PostRemove i ;~ hret true
  | UPDATE_EDGE_TYPE =>
      if negb (edge_exists g u v) then hret false
      else execute_hook PreTypeChange i ;~ hlift (raise AttributeError)
  | UPDATE_EDGE_TYPE_DIRECTED =>
      if negb (directed_edge_exists g u v) then hret false
      else execute_hook PreTypeChange i ;~ hlift (raise AttributeError)
  | RESTORE_EDGE =>
      if edge_exists g u v then hret false
      else hlift (restore_edge u v) ;~ hlift (add_edge_history u v i) ;~ hlift (add_edge_history v u i) ;~ hret true
  | RESTORE_EDGE_DIRECTED =>
      if directed_edge_exists g u v then hret false
      else hlift (restore_directed_edge u v) ;~ hlift (add_edge_history u v i) ;~ hret true
  end.

(* graph_model.py:317-425 *)
Fixpoint take_items_hooked (dry : bool) (l : list tresult) : HST (list tresult) :=
  match l with
  | [] => hret []
  | i :: r =>
      b <~ (if dry then hret true else apply_hooked i) ;;
      t <~ take_items_hooked dry r ;;
      hret (if b then i :: t else t)
  end.

(* graph_model.py:293-430.  The update hooks of the algorithm are read-only (see Actions.v). *)
Fixpoint take_action_hooked (H : hooks) (dry : bool) (results : list outcome) : HST (list tresult * list tresult) :=
  match results with
  | [] => hret ([], [])
  | None :: rs => take_action_hooked H dry rs
  | Some items :: rs =>
      g <~ hlift gget ;;
      match run_pre_hooks H g items with
      | Err e => hlift (raise e)
      | Ok items' =>
          t <~ take_items_hooked dry items' ;;
          g' <~ hlift gget ;;
          match run_post_hooks H g' t with
          | Err e => hlift (raise e)
          | Ok _ => p <~ take_action_hooked H dry rs ;; hret (t ++ fst p, items' ++ snd p)
          end
      end
  end.

End Hooked.
