(* causy/graph_model.py: taking actions on the graph. *)
From Verif Require Import Base PyDict Graph.

(* graph_model.py:241-276, models.py:80-81, interfaces.py:517-532.  Update hooks of an algorithm; a hook
   sees the graph and a list of results.  Simplification: hooks are read-only functions (a hook could
   also mutate the graph); None of the shipped algorithms has hooks. *)
Record hooks := mkHooks {
  pre_hooks : list (graph -> list tresult -> res (list tresult));
  post_hooks : list (graph -> list tresult -> res unit) }.
Definition no_hooks : hooks := mkHooks [] [].

(* graph_model.py:254-258 *)
Definition run_pre_hooks (H : hooks) (g : graph) (r : list tresult) : res (list tresult) :=
  rfold (fun r h => h g r) (pre_hooks H) r.
(* graph_model.py:273-276 *)
Definition run_post_hooks (H : hooks) (g : graph) (r : list tresult) : res unit :=
  rfold (fun _ h => h g r) (post_hooks H) tt.

(* graph_model.py:327-425: one action; the result tells whether the action is appended to
   actions_taken.  The edge type hooks (lines 334, 338, ...) are no-ops for the shipped edge types
   (interfaces.py:84-150) and _execute_hook catches every exception, so they are left out here; see
   EdgeHooks.v for the same loop with them.
   TestResult has no field edge_type (models.py:55-59): reading i.edge_type raises AttributeError. *)
Definition apply_action (i : tresult) : ST bool :=
  let u := t_u i in let v := t_v i in
  g <- gget ;;
  match t_act i with
  | REMOVE_EDGE_UNDIRECTED =>
      if negb (undirected_edge_exists g u v) then ret false
      else remove_edge u v true ;;; add_edge_history u v i ;;; add_edge_history v u i ;;; ret true
  | UPDATE_EDGE =>
      if negb (edge_exists g u v) then ret false
      else update_edge u v (t_data i) None ;;; add_edge_history u v i ;;; add_edge_history v u i ;;; ret true
  | UPDATE_EDGE_DIRECTED =>
      if negb (directed_edge_exists g u v) then ret false
      else update_directed_edge u v (t_data i) None ;;; add_edge_history u v i ;;; ret true
  | DO_NOTHING => ret false
  | REMOVE_EDGE_DIRECTED =>
      if negb (directed_edge_exists g u v) && negb (edge_exists g u v) then ret false
      else remove_directed_edge u v true ;;;
           (g1 <- gget ;;
            if edge_exists g1 v u then update_directed_edge v u None (Some TDirected) else ret tt) ;;;
           add_edge_history u v i ;;; ret true
  | UPDATE_EDGE_TYPE =>
      if negb (edge_exists g u v) then ret false else raise AttributeError
  | UPDATE_EDGE_TYPE_DIRECTED =>
      if negb (directed_edge_exists g u v) then ret false else raise AttributeError
  | RESTORE_EDGE =>
      if edge_exists g u v then ret false
      else restore_edge u v ;;; add_edge_history u v i ;;; add_edge_history v u i ;;; ret true
  | RESTORE_EDGE_DIRECTED =>
      if directed_edge_exists g u v then ret false
      else restore_directed_edge u v ;;; add_edge_history u v i ;;; ret true
  end.

(* graph_model.py:317-425, the inner loop over the items of one result *)
Fixpoint take_items (dry : bool) (l : list tresult) : ST (list tresult) :=
  match l with
  | [] => ret []
  | i :: r =>
      b <- (if dry then ret true else apply_action i) ;;
      t <- take_items dry r ;;
      ret (if b then i :: t else t)
  end.

(* What one call of a test returns: None, or a list of results (a single TestResult is wrapped into a
   list, graph_model.py:312-313). *)
Definition outcome := option (list tresult).

(* graph_model.py:293-430: (actions taken, all proposed actions) *)
Fixpoint take_action (H : hooks) (dry : bool) (results : list outcome) : ST (list tresult * list tresult) :=
  match results with
  | [] => ret ([], [])
  | None :: rs => take_action H dry rs
  | Some items :: rs =>
      g <- gget ;;
      match run_pre_hooks H g items with
      | Err e => raise e
      | Ok items' =>
          t <- take_items dry items' ;;
          g' <- gget ;;
          match run_post_hooks H g' t with
          | Err e => raise e
          | Ok _ => p <- take_action H dry rs ;; ret (t ++ fst p, items' ++ snd p)
          end
      end
  end.
