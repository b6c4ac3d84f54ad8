(* Specification vocabulary for pipeline runs. *)
From Verif Require Import Base PyDict Graph Actions ActionSpec Generators Rules IndepTests Pipeline.

Definition h_name (h : hstep) : string := match h with HStep n _ _ _ => n end.
Definition h_actions (h : hstep) : list tresult := match h with HStep _ a _ _ => a end.
Definition h_proposed (h : hstep) : list tresult := match h with HStep _ _ p _ => p end.
Definition h_steps (h : hstep) : list hstep := match h with HStep _ _ _ l => l end.

(* the log entry of an applied step: its name, no sub-entries, the applied actions are some of the
   proposed ones, in their order *)
Definition entry_applied (s : step) (h : hstep) : Prop :=
  h_name h = s_name s /\ h_steps h = [] /\ subseq (h_actions h) (h_proposed h) /\
  forall i, In i (h_actions h) -> t_act i <> DO_NOTHING.
(* the log entry of a step that is only collected *)
Definition entry_collected (s : step) (h : hstep) : Prop :=
  h_name h = s_name s /\ h_steps h = [] /\ h_actions h = h_proposed h.

(* what the exit condition is told before iteration k, given the log entries of the iterations *)
Definition taken_before (its : list (list hstep)) (k : nat) : option (list tresult) :=
  match k with 0 => None | S j => Some (flat_map h_actions (nth j its [])) end.

Definition log_entry (p : pstep) (h : hstep) : Prop :=
  match p with
  | PStep s => entry_applied s h
  | PLoop name exit l =>
      h_name h = name /\ h_actions h = [] /\ h_proposed h = [] /\
      exists its, h_steps h = List.concat its /\ Forall (Forall2 entry_applied l) its /\
        (forall k, k < List.length its -> exit k (taken_before its k) = Ok false) /\
        exit (List.length its) (taken_before its (List.length its)) = Ok true
  | PTogether name l =>
      h_name h = name /\ h_actions h = [] /\ h_proposed h = [] /\ Forall2 entry_collected l (h_steps h)
  end.

(* proposals that can bring an edge back *)
Definition restores (i : tresult) : Prop := t_act i = RESTORE_EDGE \/ t_act i = RESTORE_EDGE_DIRECTED.
(* a step that never proposes one *)
Definition never_restores (s : step) : Prop :=
  forall g ns us o i, s_proc s g ns us = Ok o -> In i (items_of o) -> ~ restores i.
Definition steps_of (p : pstep) : list step :=
  match p with PStep s => [s] | PLoop _ _ l | PTogether _ l => l end.

(* the test functions of the shipped discovery steps; the flag tells whether RESTORE actions may be proposed *)
Inductive shipped_proc : bool -> proc -> Prop :=
| sh_pearson : forall N, shipped_proc false (pearson_process N)
| sh_corr : forall N, shipped_proc false (correlation_test N)
| sh_partial : forall N, shipped_proc false (partial_test N)
| sh_matrix : forall so N, shipped_proc false (matrix_test so N)
| sh_regression : forall so N, shipped_proc false (regression_test so N)
| sh_collider : forall st so, shipped_proc (match st with KEEP_LAST => true | _ => false end) (collider_test st so)
| sh_non_collider : forall so, shipped_proc false (non_collider_test so)
| sh_triple : shipped_proc false triple_test
| sh_quadruple : forall so, shipped_proc false (quadruple_test so)
| sh_further_quadruple : forall so, shipped_proc false (further_quadruple_test so)
| sh_collider_fci : forall so, shipped_proc false (collider_rule_fci so)
| sh_effect : forall N, shipped_proc false (effect_process N).
(* a pipeline of shipped steps, with whatever generators, flags, loops and groups *)
Definition shipped_pipeline (restoring : bool) (l : list pstep) : Prop :=
  forall p s, In p l -> In s (steps_of p) ->
    shipped_proc false (s_proc s) \/ (restoring = true /\ shipped_proc true (s_proc s)).
