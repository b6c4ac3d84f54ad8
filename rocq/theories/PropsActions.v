(* Properties C18-C22, C10 for actions, C52 and C53 (taking actions on the graph).  Statements only. *)
From Verif Require Import Base PyDict Graph GraphSpec Actions ActionSpec ActionFacts ActionMain GraphCheck.
Open Scope string_scope.

(* x - y - z undirected, x -> w *)
Definition ga : graph := build ["x"; "y"; "z"; "w"] [("x", "w")] [("x", "y"); ("y", "z")].
Lemma ga_reached : reached ga.
Proof. apply reachable_reached, build_reachable. Qed.
Definition rm (u v : id) : tresult := mkT u v REMOVE_EDGE_DIRECTED None.
Definition rmu (u v : id) : tresult := mkT u v REMOVE_EDGE_UNDIRECTED (Some [("separatedBy", MNodes ["z"])]).
(* the edge state: which directions exist and with which type and metadata *)
Definition same_edges (g g' : graph) : Prop := forall a b, entry g' a b = entry g a b.

(* C18 *)
Theorem C18_dry_run : forall rs g,
  take_action no_hooks true rs g = (g, Ok (flat_map items_of rs, flat_map items_of rs)).
Proof. exact take_action_dry. Qed.
Print Assumptions C18_dry_run.
Example C18_nonvacuous : take_action no_hooks true [Some [rmu "x" "y"; rm "q" "q"]; None] ga = (ga, Ok ([rmu "x" "y"; rm "q" "q"], [rmu "x" "y"; rm "q" "q"]))
  /\ fst (take_action no_hooks false [Some [rmu "x" "y"; rm "q" "q"]; None] ga) <> ga.
Proof. split; [reflexivity|]. vm_compute; discriminate. Qed.

(* C19 *)
Theorem C19_action_effect : forall g i g' taken, reached g -> apply_action i g = (g', Ok taken) ->
  (taken = false -> g' = g /\ action_guard g i = false) /\
  (taken = true -> action_guard g i = true /\ action_effect g g' i /\ logged (action_pairs i) i g g').
Proof. exact c19_main. Qed.
Print Assumptions C19_action_effect.
Example C19_nonvacuous : reached ga /\ snd (apply_action (rm "x" "y") ga) = Ok true /\ snd (apply_action (rm "x" "z") ga) = Ok false
  /\ directed_edge_exists (fst (apply_action (rm "x" "y") ga)) "x" "y" = false
  /\ edge_type (fst (apply_action (rm "x" "y") ga)) "y" "x" = Ok (Some TDirected).
Proof. split; [exact ga_reached|vm_compute; auto]. Qed.

(* C20 *)
Theorem C20_taken_subsequence : forall H rs g g' t all, take_action H false rs g = (g', Ok (t, all)) ->
  subseq t all /\ forall i, In i t -> t_act i <> DO_NOTHING.
Proof. exact take_action_sub. Qed.
Print Assumptions C20_taken_subsequence.
Theorem C20_all_proposed : forall rs dry g g' t all, take_action no_hooks dry rs g = (g', Ok (t, all)) ->
  all = flat_map items_of rs.
Proof. exact take_action_all. Qed.
Print Assumptions C20_all_proposed.
Example C20_nonvacuous : exists g', take_action no_hooks false [Some [rmu "x" "y"; mkT "x" "y" DO_NOTHING None]; None; Some [rmu "x" "y"; rm "y" "z"]] ga
  = (g', Ok ([rmu "x" "y"; rm "y" "z"], [rmu "x" "y"; mkT "x" "y" DO_NOTHING None; rmu "x" "y"; rm "y" "z"])).
Proof. eexists; vm_compute; reflexivity. Qed.

(* C21: edges, metadata, histories, log - the whole graph *)
Theorem C21_replay : forall H rs g g' t all, take_action H false rs g = (g', Ok (t, all)) ->
  take_action no_hooks false [Some t] g = (g', Ok (t, t)).
Proof. exact c21_main. Qed.
Print Assumptions C21_replay.

(* C22 is false: removing a direction that is already gone is reported again (second theorem: every
   query and all edge data are unchanged, only the history grows). *)
Theorem C22_reported_changes_refuted : exists g i g', reached g /\ apply_action i g = (g', Ok true) /\ same_edges g g'.
Proof.
  exists (fst (apply_action (rm "x" "y") ga)), (rm "x" "y"), (fst (apply_action (rm "x" "y") (fst (apply_action (rm "x" "y") ga)))).
  split; [apply rd_act, ga_reached|]. split; [vm_compute; reflexivity|].
  intros a b. unfold entry, get_edge.
  assert (E : edges (fst (apply_action (rm "x" "y") (fst (apply_action (rm "x" "y") ga)))) = edges (fst (apply_action (rm "x" "y") ga)))
    by (vm_compute; reflexivity).
  rewrite E; reflexivity.
Qed.
Print Assumptions C22_reported_changes_refuted.
(* What holds: removals of existing edges and restores always change an existence query.  Missing:
   removal of an absent direction of an existing edge, and updates (which may store equal data). *)
Theorem C22_reported_changes_partial : forall g i g', reached g -> apply_action i g = (g', Ok true) ->
  match t_act i with
  | REMOVE_EDGE_UNDIRECTED | RESTORE_EDGE | RESTORE_EDGE_DIRECTED => True
  | REMOVE_EDGE_DIRECTED => directed_edge_exists g (t_u i) (t_v i) = true
  | _ => False
  end -> directed_edge_exists g' (t_u i) (t_v i) <> directed_edge_exists g (t_u i) (t_v i).
Proof. exact c22_main. Qed.
Print Assumptions C22_reported_changes_partial.
Example C22_nonvacuous : reached ga /\ exists g', apply_action (rmu "y" "z") ga = (g', Ok true).
Proof. split; [exact ga_reached|eexists; vm_compute; reflexivity]. Qed.

(* C10 for actions, with or without hooks, in a dry run or not, raising or not *)
Theorem C10_actions_append_only : forall H dry rs g p, reachable_any g ->
  prefix (history g p) (history (fst (take_action H dry rs g)) p).
Proof. exact c10_actions. Qed.
Print Assumptions C10_actions_append_only.
Example C10_actions_nonvacuous : reachable_any ga /\ history ga ("x", "y") = [] /\
  history (fst (take_action no_hooks false [Some [rmu "x" "y"; mkT "x" "y" RESTORE_EDGE None]] ga)) ("x", "y")
    = [rmu "x" "y"; mkT "x" "y" RESTORE_EDGE None].
Proof. split; [eexists; reflexivity|vm_compute; auto]. Qed.

(* C52: exactly when a due action raises *)
Theorem C52_action_raises_iff : forall g i, reached g ->
  (exists g' e, apply_action i g = (g', Err e)) <-> (action_guard g i = true /\ ~ action_ready g i).
Proof. exact c19_raise. Qed.
Print Assumptions C52_action_raises_iff.
(* "Every due action can be carried out" is false: changing the type of an edge raises on every graph,
   updating a one-way edge raises *)
Theorem C52_type_change_refuted : forall g i, reached g ->
  t_act i = UPDATE_EDGE_TYPE \/ t_act i = UPDATE_EDGE_TYPE_DIRECTED -> action_guard g i = true ->
  exists g' e, apply_action i g = (g', Err e).
Proof.
  intros g i R K G. apply C52_action_raises_iff; [exact R|]. split; [exact G|].
  unfold action_ready. destruct K as [-> | ->]; auto.
Qed.
Print Assumptions C52_type_change_refuted.
Theorem C52_update_one_way_refuted : exists g u v g' e, reached g /\ edge_exists g u v = true /\
  apply_action (mkT u v UPDATE_EDGE (Some [])) g = (g', Err e).
Proof. exists ga, "x", "w", ga, GraphError. split; [exact ga_reached|vm_compute; auto]. Qed.
Print Assumptions C52_update_one_way_refuted.
Example C52_nonvacuous : reached ga /\ action_guard ga (mkT "x" "y" UPDATE_EDGE_TYPE None) = true.
Proof. split; [exact ga_reached|vm_compute; reflexivity]. Qed.

(* C53: what is left when a step raises.  Full claim (the failing action has no effect) is false for
   RESTORE_EDGE of a pair that only ever had one direction: the one direction is back, then KeyError. *)
Theorem C53_failed_step_partial : forall rs g g' e, reached g -> take_action no_hooks false rs g = (g', Err e) ->
  exists done_ failing rest taken g1,
    flat_map items_of rs = (done_ ++ failing :: rest)%list /\
    take_action no_hooks false [Some done_] g = (g1, Ok (taken, done_)) /\
    apply_action failing g1 = (g', Err e) /\
    (t_act failing <> RESTORE_EDGE -> g' = g1).
Proof. exact c53_step. Qed.
Print Assumptions C53_failed_step_partial.
Definition gr : graph := fst (apply_action (rm "x" "w") ga).
Theorem C53_failed_restore_refuted : exists g u v g' e, reached g /\
  apply_action (mkT u v RESTORE_EDGE None) g = (g', Err e) /\
  directed_edge_exists g u v = false /\ directed_edge_exists g' u v = true /\ history g' (u, v) = history g (u, v).
Proof. exists gr, "x", "w"; eexists; eexists; split; [apply rd_act, ga_reached|vm_compute; auto]. Qed.
Print Assumptions C53_failed_restore_refuted.
Example C53_nonvacuous : reached ga /\ exists g', g' <> ga /\
  take_action no_hooks false [Some [rmu "x" "y"; mkT "x" "w" UPDATE_EDGE (Some [])]] ga = (g', Err GraphError).
Proof. split; [exact ga_reached|]. eexists; split; [|vm_compute; reflexivity]. vm_compute; discriminate. Qed.
