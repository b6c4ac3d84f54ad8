(* Property C103: the hooks of edge types.  Statements only. *)
From Verif Require Import Base PyDict Graph GraphSpec GraphFacts GraphInv GraphInv2 GraphInv3 GraphQ GraphMain Actions ActionSpec ActionFacts ActionMain GraphCheck EdgeHooks EdgeHookSpec EdgeHookFacts PropsActions.
Open Scope string_scope.
Open Scope list_scope.

(* Hooks that do not change the graph never change the course of a step, raise or not: same graph, same
   actions reported, same exception. *)
Theorem C103_harmless : forall (W : Type) (EH : edge_hooks W) H dry rs w g, looks_only EH ->
  exists w', take_action_hooked EH H dry rs (w, g) = (w', fst (take_action H dry rs g), snd (take_action H dry rs g)).
Proof. intros W EH H dry rs w g L. exact (sh_take EH L H dry rs w g). Qed.
Print Assumptions C103_harmless.

(* Hooks that do change the graph, by any calls, leave a graph a caller could have built. *)
Theorem C103_keeps_graph : forall (W : Type) (EH : edge_hooks W) H dry rs w g, by_calls EH -> reached g ->
  reached (snd (fst (take_action_hooked EH H dry rs (w, g)))).
Proof. intros W EH H dry rs w g C R. exact (hs_take EH C H dry rs w g R). Qed.
Print Assumptions C103_keeps_graph.

(* Which hooks one action calls. *)
Theorem C103_calls : forall bad i g w g' r, apply_action i g = (g', r) ->
  apply_hooked (noting bad) i (w, g) = (w ++ calls_of i g g' r, g', r).
Proof. intros bad i g w g' r E. exact (noted_apply bad i g w g' r E). Qed.
Print Assumptions C103_calls.
(* Which hooks a test result calls, in which order. *)
Theorem C103_calls_in_order : forall bad l g w, exists cs, calls_along g l cs /\
  take_items_hooked (noting bad) false l (w, g) = (w ++ cs, fst (take_items false l g), snd (take_items false l g)).
Proof. intros bad l g w. exact (noted_items bad l g w). Qed.
Print Assumptions C103_calls_in_order.
(* An edge that exists and is removed or updated is announced to its type, before and after.  Missing:
   edges that come back, the other direction, and type changes (refuted below). *)
Theorem C103_announced_partial : forall bad i g w g', reached g -> directed_edge_exists g (t_u i) (t_v i) = true ->
  apply_action i g = (g', Ok true) ->
  exists k1 k2 e, hooks_of (t_act i) = Some (k1, k2) /\ entry g (t_u i) (t_v i) = Some e /\
    apply_hooked (noting bad) i (w, g) = (w ++ [(e_type e, k1, i); (e_type e, k2, i)], g', Ok true).
Proof.
  intros bad i g w g' R D E. assert (WFg := reached_WF _ R).
  destruct (apply_action_spec g i g' _ WFg E) as (WFg' & _ & _ & G & _ & Ef & _).
  assert (C := noted_apply bad i g w g' _ E). unfold calls_of in C.
  assert (X : exists e, entry g (t_u i) (t_v i) = Some e).
  { rewrite entry_eget. rewrite (dee_val g _ _ WFg) in D. destruct (eget g (t_u i) (t_v i)) as [e|]; [eauto|discriminate]. }
  destruct X as [e X].
  assert (Y : hooks_of (t_act i) <> None /\ exists e', entry g' (t_u i) (t_v i) = Some e' /\ e_type e' = e_type e).
  { assert (ND : e_type (new_data i e) = e_type e) by (unfold new_data; destruct (t_data i); reflexivity).
    unfold action_guard, action_effect in *. destruct (t_act i); cbn [hooks_of]; (split; [|]);
      try discriminate; try (rewrite edge_exists_or, D in G; discriminate); try (rewrite D in G; discriminate); try (destruct Ef; fail).
    - destruct Ef as (_ & Ef & _). rewrite Ef, X. eexists; split; [reflexivity|exact ND].
    - destruct Ef as (_ & Ef). rewrite Ef, X. eexists; split; [reflexivity|exact ND].
    - destruct Ef as (_ & Ef & _). rewrite Ef, X. eexists; split; reflexivity.
    - destruct Ef as (_ & Ef & _). rewrite Ef, X. eexists; split; reflexivity. }
  destruct Y as [Y (e' & X' & Te)]. destruct (hooks_of (t_act i)) as [[k1 k2]|]; [|congruence].
  exists k1, k2, e. unfold one_call in C. rewrite X, X', Te in C. auto.
Qed.
Print Assumptions C103_announced_partial.

(* Adding hooks are documented, and no action ever calls them. *)
Theorem C103_add_never_called : forall l g cs t k i, calls_along g l cs -> In (t, k, i) cs -> k <> PreAdd /\ k <> PostAdd.
Proof.
  intros l g cs t k i C; induction C as [g|g j g' b l cs E C IH|g j g' e l E]; intros I.
  - destruct I.
  - apply in_app_or in I. destruct I as [I|I]; [|exact (IH I)].
    unfold calls_of, one_call in I. destruct (t_act j), b, (entry g (t_u j) (t_v j)), (entry g' (t_u j) (t_v j)); cbn in I;
      repeat (destruct I as [I|I]; [injection I as <- <- <-; split; discriminate|]); destruct I.
  - unfold calls_of, one_call in I. destruct (t_act j), (entry g (t_u j) (t_v j)); cbn in I;
      repeat (destruct I as [I|I]; [injection I as <- <- <-; split; discriminate|]); destruct I.
Qed.
Print Assumptions C103_add_never_called.

(* an edge type whose hooks note that they are called and then raise *)
Definition loud : edge_hooks (list call) := noting (fun _ => Some ValueError).

(* An edge comes back and no hook is told. *)
Theorem C103_restore_refuted : exists g u v g', reached g /\ edge_exists g u v = false /\ edge_exists g' u v = true /\
  apply_hooked loud (mkT u v RESTORE_EDGE None) ([], g) = ([], g', Ok true).
Proof.
  exists (fst (apply_action (rmu "x" "y") ga)), "x", "y", (fst (apply_action (mkT "x" "y" RESTORE_EDGE None) (fst (apply_action (rmu "x" "y") ga)))).
  split; [apply rd_act, ga_reached|]. do 2 (split; [vm_compute; reflexivity|]). vm_compute; reflexivity.
Qed.
Print Assumptions C103_restore_refuted.

(* The type of an edge changes and no hook is told of a type change, nor of that edge at all. *)
Theorem C103_type_unannounced_refuted : exists g i g' cs, reached g /\ apply_hooked loud i ([], g) = (cs, g', Ok true) /\
  edge_type g (t_v i) (t_u i) = Ok (Some TUndirected) /\ edge_type g' (t_v i) (t_u i) = Ok (Some TDirected) /\
  (forall t k j, In (t, k, j) cs -> j = i /\ (k = PreRemove \/ k = PostRemove)).
Proof.
  exists ga, (rm "x" "y"), (fst (apply_action (rm "x" "y") ga)), [(TUndirected, PreRemove, rm "x" "y"); (TUndirected, PostRemove, rm "x" "y")].
  split; [exact ga_reached|]. do 3 (split; [vm_compute; reflexivity|]).
  intros t k j [I|[I|[]]]; injection I as <- <- <-; auto.
Qed.
Print Assumptions C103_type_unannounced_refuted.

(* A removal is announced of an edge that does not exist any more. *)
Theorem C103_removed_again_refuted : exists g i g', reached g /\ directed_edge_exists g (t_u i) (t_v i) = false /\
  apply_hooked loud i ([], g) = ([(TUndirected, PreRemove, i); (TUndirected, PostRemove, i)], g', Ok true).
Proof.
  exists (fst (apply_action (rm "x" "y") ga)), (rm "x" "y"), (fst (apply_action (rm "x" "y") (fst (apply_action (rm "x" "y") ga)))).
  split; [apply rd_act, ga_reached|]. split; [vm_compute; reflexivity|vm_compute; reflexivity].
Qed.
Print Assumptions C103_removed_again_refuted.

(* A change of type is announced, never happens and is never called off: for every graph. *)
Theorem C103_type_change_only_announced : forall bad i g w e, reached g -> directed_edge_exists g (t_u i) (t_v i) = true ->
  entry g (t_u i) (t_v i) = Some e -> t_act i = UPDATE_EDGE_TYPE \/ t_act i = UPDATE_EDGE_TYPE_DIRECTED ->
  apply_hooked (noting bad) i (w, g) = (w ++ [(e_type e, PreTypeChange, i)], g, Err AttributeError).
Proof.
  intros bad i g w e R D X K.
  assert (E : apply_action i g = (g, Err AttributeError)).
  { unfold apply_action. rewrite bind_read. destruct K as [-> | ->].
    - rewrite edge_exists_or, D. reflexivity.
    - rewrite D. reflexivity. }
  rewrite (noted_apply bad i g w _ _ E). unfold calls_of, one_call. rewrite X. destruct K as [-> | ->]; reflexivity.
Qed.
Print Assumptions C103_type_change_only_announced.

Definition silent_delete : edge_hooks nat := fun t k i w g => (S w, fst (run_op (ORemoveDirected (t_v i) (t_u i) false) g), Err KeyError).
Example C103_nonvacuous : looks_only loud /\ by_calls silent_delete /\ reached ga /\
  take_action_hooked loud no_hooks false [Some [rmu "x" "y"; mkT "y" "z" UPDATE_EDGE None]] ([], ga)
  = ([(TUndirected, PreRemove, rmu "x" "y"); (TUndirected, PostRemove, rmu "x" "y");
      (TUndirected, PreUpdate, mkT "y" "z" UPDATE_EDGE None); (TUndirected, PostUpdate, mkT "y" "z" UPDATE_EDGE None)],
     fst (take_action no_hooks false [Some [rmu "x" "y"; mkT "y" "z" UPDATE_EDGE None]] ga),
     Ok ([rmu "x" "y"; mkT "y" "z" UPDATE_EDGE None], [rmu "x" "y"; mkT "y" "z" UPDATE_EDGE None])) /\
  entry (snd (fst (apply_hooked silent_delete (rm "x" "y") (0, ga)))) "y" "x" = None /\
  entry (fst (apply_action (rm "x" "y") ga)) "y" "x" <> None.
Proof.
  split; [intros t k i w g; reflexivity|]. split; [intros t k i w g R; apply rd_op; [exact R|exact Logic.I]|].
  split; [exact ga_reached|]. do 2 (split; [vm_compute; reflexivity|]). vm_compute; discriminate.
Qed.
