(* Specification vocabulary for results that are made of graphs. *)
From Coq Require Import Ascii.
From Verif Require Import Base PyDict JsonText JsonTextSpec ResultText ResultTextSpec Graph Rules IndepTests Pipeline PipeSpec GraphResult.
Open Scope string_scope.
Open Scope list_scope.

Section Spec.
Context {F : Type}.
(* a loaded result has an edge from u to v whose type has the name t *)
Definition shown (r : rresult F (jval F)) (u v : id) (t : string) : Prop :=
  exists e, In e (rr_edges r) /\ rn_id (re_u e) = lit u /\ rn_id (re_v e) = lit v /\ ry_name (re_type e) = lit t.
(* and the number n under k on it *)
Definition shown_number (r : rresult F (jval F)) (u v : id) (k : string) (n : Z + F) : Prop :=
  exists e l, In e (rr_edges r) /\ rn_id (re_u e) = lit u /\ rn_id (re_v e) = lit v /\ re_meta e = Some l /\
    In (lit k, match n with inl z => JInt z | inr f => JFloat f end) l.
(* the ids and names of the nodes, in order *)
Definition shown_nodes (r : rresult F (jval F)) : list (ustr * ustr) := map (fun p => (rn_id (snd p), rn_name (snd p))) (rr_nodes r).
Definition ends (e : redge (jval F)) : ustr * ustr := (rn_id (re_u e), rn_id (re_v e)).
(* an action of the log is in the file, with its nodes *)
Definition action_shown (i : tresult) (t : rtrial (jval F)) : Prop := rn_id (rt_u t) = lit (t_u i) /\ rn_id (rt_v t) = lit (t_v i) /\ rt_action t = t_act i.
(* an entry of the log is in the file: its name, what was done, what was proposed, and the entries within *)
Inductive step_shown : hstep -> rstep F (jval F) -> Prop :=
| step_shown_intro : forall n du a p ss a' p' ss', Forall2 action_shown a a' -> Forall2 action_shown p p' -> Forall2 step_shown ss ss' ->
    step_shown (HStep n a p ss) (RStep (lit n) du a' p' ss').
Variables (float_text : F -> ustr) (read_float : ustr -> F) (is_date : ustr -> bool).
(* what is added to the graph can be written and read *)
Definition extras_sound (x : extras F) : Prop :=
  sound_string (x_ref x) /\ sound_string (x_created x) /\ is_date (x_created x) = true /\ sound_opt (x_data_hash x) /\ sound_opt (x_alg_hash x) /\ sound_opt (x_vars_hash x) /\
  exists vs, data_written (x_variables x) vs /\ sound_data float_text read_float vs.
End Spec.
(* the shipped steps, without the rule for FCI and without the strategy KEEP_LAST *)
Inductive discovery_proc : proc -> Prop :=
| dp_pearson : forall N, discovery_proc (pearson_process N)
| dp_corr : forall N, discovery_proc (correlation_test N)
| dp_partial : forall N, discovery_proc (partial_test N)
| dp_matrix : forall so N, discovery_proc (matrix_test so N)
| dp_regression : forall so N, discovery_proc (regression_test so N)
| dp_collider : forall st so, st <> KEEP_LAST -> discovery_proc (collider_test st so)
| dp_non_collider : forall so, discovery_proc (non_collider_test so)
| dp_triple : discovery_proc triple_test
| dp_quadruple : forall so, discovery_proc (quadruple_test so)
| dp_further_quadruple : forall so, discovery_proc (further_quadruple_test so)
| dp_effect : forall N, discovery_proc (effect_process N).
(* with whatever generators, flags, loops and groups *)
Definition discovery_pipeline (l : list pstep) : Prop := forall p s, In p l -> In s (steps_of p) -> discovery_proc (s_proc s).
