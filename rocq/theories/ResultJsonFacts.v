(* Proofs about the texts that the execute command saves and reads. *)
From Coq Require Import Ascii.
From Verif Require Import Base PyDict PyStr Variables Workspace JsonText JsonTextSpec JsonTextFacts JsonTextMain PropsJsonText ResultText ResultTextSpec ResultTextFacts PropsResult ResultJson ExecuteSpec.
Open Scope string_scope.
Open Scope list_scope.

Lemma timed_eq {V} x n t a p (ss : list (rstep fl V)) : timed x (RStep n t a p ss) = RStep n (x []) a p (timed_list x O ss).
Proof. cbn [timed]. f_equal. generalize O as i. induction ss as [|s ss IH]; intros i; [reflexivity|]. cbn [timed_list]. f_equal. apply IH. Qed.
Lemma timed_written : forall s s', step_written s s' -> forall x, step_written (timed x s) (timed x s').
Proof.
  apply (step_ind' (fun s => forall s', step_written s s' -> forall x, step_written (timed x s) (timed x s'))). intros n d a p ss IH s' W x. inversion W as [? ? ? a' ? p' ? ss' A P S]; subst. rewrite !timed_eq. constructor; [exact A|exact P|].
  generalize O as i. clear A P W. revert ss' S. induction IH as [|s ss H IH IHs]; intros ss' S i; inversion S; subst; constructor; [apply H; assumption|apply IHs; assumption].
Qed.
Lemma timed_list_written x l m : Forall2 step_written l m -> forall i, Forall2 step_written (timed_list x i l) (timed_list x i m).
Proof. intros H. induction H; intros i; constructor; [apply timed_written; assumption|auto]. Qed.
Lemma untimed_timed {V} : forall (s : rstep fl V) x, untimed (timed x s) = untimed s.
Proof.
  apply (step_ind' (fun s : rstep fl V => forall x, untimed (timed x s) = untimed s)). intros n d a p ss IH x. rewrite timed_eq. cbn [untimed]. f_equal. generalize O as i. induction IH as [|s ss H IH IHs]; intros i; [reflexivity|]. cbn [timed_list map]. rewrite H, IHs. reflexivity.
Qed.
Lemma untimed_list {V} x (l : list (rstep fl V)) : forall i, map untimed (timed_list x i l) = map untimed l.
Proof. induction l as [|s l IH]; intros i; [reflexivity|]. cbn [timed_list map]. rewrite untimed_timed, IH. reflexivity. Qed.
Lemma option_lit o : option_map unlit (option_map lit o) = o.
Proof. destruct o as [s|]; [|reflexivity]. cbn [option_map]. rewrite unlit_lit. reflexivity. Qed.
Lemma scalars_back (d : dict string scalar) : scalars_in (map (fun p => (lit (fst p), scalar_json (snd p))) d) = Ok d.
Proof. induction d as [|[k s] d IH]; [reflexivity|]. cbn [map scalars_in fst snd]. assert (E : scalar_in (scalar_json s) = Ok s) by (destruct s; cbn [scalar_json scalar_in]; rewrite ?unlit_lit; reflexivity). rewrite E. cbn [rbind]. rewrite IH. cbn [rbind]. rewrite unlit_lit. reflexivity. Qed.
(* the graph as it is read back *)
Definition forgetful {V} (g : graph_result V) : graph_result V := mkGR (gr_nodes g) (gr_edges g) (map untimed (gr_history g)).
Lemma short_full x r (l : @result (graph_result (jval fl))) : short_result (full_result scalar_json x r l) = Ok (kept forgetful l).
Proof. unfold short_result, full_result. cbn [rr_variables rr_nodes rr_edges rr_history rr_data_hash rr_alg_hash rr_vars_hash]. rewrite scalars_back. cbn [rbind]. rewrite untimed_list, !option_lit. reflexivity. Qed.
