(* Specification vocabulary for the action properties. *)
From Verif Require Import Base PyDict Graph GraphSpec Actions.

(* the stored entry of u -> v, live or soft-deleted, as get_edge reports it *)
Definition entry (g : graph) (u v : id) : option edge :=
  match get_edge g u v with Ok e => Some e | Err _ => None end.
(* the record kept by a purge or a hard removal *)
Definition removed (g : graph) (u v : id) : option edge := dget2 (dedges g) u v.
(* the edge history of an ordered pair *)
Definition history (g : graph) (p : id * id) : list tresult :=
  match dget (ehist g) p with Some l => l | None => [] end.

(* entries of other ordered pairs and the nodes are untouched *)
Definition only_changes (ps : list (id * id)) (g g' : graph) : Prop :=
  nodes g' = nodes g /\ forall a b, ~ In (a, b) ps -> entry g' a b = entry g a b.
(* i is appended to the history of exactly the pairs ps *)
Definition logged (ps : list (id * id)) (i : tresult) (g g' : graph) : Prop :=
  forall p, history g' p = history g p ++ (if mem p ps then [i] else []).

(* when an action is meant to be carried out *)
Definition action_guard (g : graph) (i : tresult) : bool :=
  let u := t_u i in let v := t_v i in
  match t_act i with
  | REMOVE_EDGE_UNDIRECTED => directed_edge_exists g u v && directed_edge_exists g v u
  | UPDATE_EDGE | UPDATE_EDGE_TYPE | REMOVE_EDGE_DIRECTED => edge_exists g u v
  | UPDATE_EDGE_DIRECTED | UPDATE_EDGE_TYPE_DIRECTED => directed_edge_exists g u v
  | RESTORE_EDGE => negb (edge_exists g u v)
  | RESTORE_EDGE_DIRECTED => negb (directed_edge_exists g u v)
  | DO_NOTHING => false
  end.

(* the ordered pairs an action names *)
Definition action_pairs (i : tresult) : list (id * id) :=
  match t_act i with
  | REMOVE_EDGE_UNDIRECTED | UPDATE_EDGE | UPDATE_EDGE_TYPE | RESTORE_EDGE => [(t_u i, t_v i); (t_v i, t_u i)]
  | _ => [(t_u i, t_v i)]
  end.

Definition new_data (i : tresult) (e : edge) : edge :=
  match t_data i with Some m => set_meta (Some m) e | None => e end.

(* the change of the named entries *)
Definition action_effect (g g' : graph) (i : tresult) : Prop :=
  let u := t_u i in let v := t_v i in
  match t_act i with
  | REMOVE_EDGE_UNDIRECTED =>
      only_changes [(u, v); (v, u)] g g' /\
      entry g' u v = option_map (set_del true) (entry g u v) /\
      entry g' v u = option_map (set_del true) (entry g v u)
  | UPDATE_EDGE =>
      only_changes [(u, v); (v, u)] g g' /\
      entry g' u v = option_map (new_data i) (entry g u v) /\
      entry g' v u = option_map (new_data i) (entry g v u)
  | UPDATE_EDGE_DIRECTED =>
      only_changes [(u, v)] g g' /\ entry g' u v = option_map (new_data i) (entry g u v)
  | REMOVE_EDGE_DIRECTED =>
      only_changes [(u, v); (v, u)] g g' /\
      entry g' u v = option_map (set_del true) (entry g u v) /\
      (* what is left becomes a directed edge *)
      entry g' v u = (if directed_edge_exists g v u then option_map (set_type TDirected) (entry g v u) else entry g v u)
  | RESTORE_EDGE =>
      only_changes [(u, v); (v, u)] g g' /\
      match entry g u v, entry g v u with
      | Some e, Some e' => entry g' u v = Some (set_del false e) /\ entry g' v u = Some (set_del false e')
      | None, _ => exists d, removed g u v = Some d /\
          entry g' u v = Some (mkEdge u v TUndirected (e_meta d) false) /\
          entry g' v u = Some (mkEdge v u TUndirected (e_meta d) false)
      | Some _, None => exists d, removed g v u = Some d /\
          entry g' u v = Some (mkEdge u v TUndirected (e_meta d) false) /\
          entry g' v u = Some (mkEdge v u TUndirected (e_meta d) false)
      end
  | RESTORE_EDGE_DIRECTED =>
      only_changes [(u, v)] g g' /\
      match entry g u v with
      | Some e => entry g' u v = Some (set_del false e)
      | None => exists d, removed g u v = Some d /\ entry g' u v = Some (mkEdge u v TDirected (e_meta d) false)
      end
  | UPDATE_EDGE_TYPE | UPDATE_EDGE_TYPE_DIRECTED | DO_NOTHING => False
  end.

(* when a due action can be carried out at all *)
Definition action_ready (g : graph) (i : tresult) : Prop :=
  let u := t_u i in let v := t_v i in
  match t_act i with
  | UPDATE_EDGE => entry g u v <> None /\ entry g v u <> None
  | UPDATE_EDGE_TYPE | UPDATE_EDGE_TYPE_DIRECTED => False
  | RESTORE_EDGE => (entry g u v <> None \/ removed g u v <> None) /\ 
                    (entry g v u <> None \/ entry g u v = None \/ removed g v u <> None)
  | RESTORE_EDGE_DIRECTED => entry g u v <> None \/ removed g u v <> None
  | _ => True
  end.

(* l is obtained from m by leaving out elements *)
Inductive subseq {A} : list A -> list A -> Prop :=
| sub_nil : subseq [] []
| sub_keep : forall x l m, subseq l m -> subseq (x :: l) (x :: m)
| sub_drop : forall x l m, subseq l m -> subseq l (x :: m).

(* m extends l *)
Definition prefix {A} (l m : list A) : Prop := exists r, m = l ++ r.

(* the actions one test result proposes *)
Definition items_of (o : outcome) : list tresult := match o with Some l => l | None => [] end.

(* Graphs reached by mutator calls, actions and changes of the action log, in any order. *)
Inductive reached : graph -> Prop :=
| rd_empty : reached empty_graph
| rd_op : forall g o, reached g -> tame_op g o -> reached (fst (run_op o g))
| rd_act : forall g i, reached g -> reached (fst (apply_action i g))
| rd_log : forall g h, reached g -> reached (with_ahist g h).

