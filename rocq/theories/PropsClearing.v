(* C124: clearing an experiment while an execute command runs in the same workspace. *)
From Coq Require Import Sorting.Sorted.
From Verif Require Import Base PyDict PyDictFacts PyStr PyStrFacts Variables VariableSpec Workspace WorkspaceSpec WorkspaceFacts PropsWorkspace JsonText JsonTextSpec PropsJsonText ResultText ResultTextSpec PropsResult ResultJson Execute ExecuteSpec ExecuteFacts ExecuteMain PropsExecute Concurrent ConcurrentFacts ConcurrentMain PropsConcurrent Clearing ClearingFacts.
Open Scope string_scope.
Open Scope list_scope.
Open Scope nat_scope.

Section Run.
Context {D G G' X : Type}.
Variables (ha : algorithm -> string) (hv : dict string scalar -> string) (hd : D -> string) (data : string -> res D) (run : algorithm -> D -> res G).
Variables (listing : dir ustr -> list string) (second : X -> Z) (text_of : X -> aref -> @result G -> res ustr) (parse : ustr -> res (@result G')).
Hypothesis HL : lists listing.
Notation clearing := (meanwhile ha hv hd data run listing second text_of parse).
Notation put_there := (put_there ha hv hd data run second text_of).
Implicit Types d : dir ustr.

Lemma goodo_put c ws b d P o : goodo ha hv hd data run second text_of c ws b d P o -> exists f0, forall f, own second ws c f -> dget d f = dget b f \/ put_there c ws d P f0 f.
Proof.
  intros Gd. assert (Q : exists f0, fine ha hv hd data run second text_of ws c b d (fun f => P <> PEnded (Ok tt) /\ f = f0)).
  { unfold goodo in Gd. destruct o; [destruct Gd as (f & off & t & w & es & -> & _ & F); exists ""; eapply fine_weak; [|exact F]; intros g []|].
    destruct P as [w es|w n e es|w n e v es|w n e es|f off t w es|[[]|x]]; cbn [good] in Gd.
    - exists "". eapply fine_weak; [|apply Gd]. intros f [].
    - exists "". eapply fine_weak; [|apply Gd]. intros f [].
    - exists "". eapply fine_weak; [|apply Gd]. intros f [].
    - exists "". eapply fine_weak; [|apply Gd]. intros f [].
    - exists f. eapply fine_weak; [|apply Gd]. intros g <-. split; [discriminate|reflexivity].
    - exists "". eapply fine_weak; [|apply Gd]. intros f [].
    - destruct Gd as (f0 & F). exists f0. eapply fine_weak; [|exact F]. intros g <-. split; [discriminate|reflexivity]. }
  destruct Q as (f0 & F). exists f0. intros f O. destruct (F f O) as [Q|(n & e & t & Q1 & Q2 & Q3 & [Q4|[[Q4 Q5] Q6]])]; [left; exact Q| |]; right; exists n, e, t; repeat (split; [assumption|]); [left; exact Q4|right; auto].
Qed.

(* C124: at every moment every file has the content it had, or it is a version of the cleared experiment that is gone, or it
   has the text of a result that the execute command has made: complete, but for at most one file, and without exception
   once that command has ended well. *)
Theorem C124_files_partial : forall clock force w ws d name n e d' P o C, tidy ws d -> dget (experiments ws) n = Some e ->
  clearing clock force ws (d, start w ws name, false, CList n) (d', P, o, C) ->
  exists f0, forall f, dget d' f = dget d f \/ (exists t, f = version_file n t /\ dget d' f = None) \/ put_there clock ws d' P f0 f.
Proof.
  intros clock force w ws d name n e d' P o C T E H. assert (I := xinv_all ha hv hd data run listing second text_of parse HL clock force ws n e d E T _ _ H (xinv_start ha hv hd data run second text_of clock ws n d T w name)).
  cbn [xinv] in I. destruct I as (b & _ & _ & Gd & _ & Bb & R). destruct (goodo_put _ _ _ _ _ _ Gd) as (f0 & F). exists f0. intros f.
  assert (Q : dget d' f = dget b f \/ put_there clock ws d' P f0 f). { destruct (own_dec second clock ws f) as [O|O]; [apply F, O|left; apply R, O]. }
  destruct Q as [Q|Q]; [|auto]. rewrite Q. destruct (Bb f) as [K|[(u & ->) K]]; [auto|]. right. left. exists u. auto.
Qed.
(* C124: the clear command never fails.  When it has ended, no version that was there before is left: the only one that
   there may be is that of the execute command, with what that command has put there.  The number that it tells is that of
   the versions that were there, with or without that one. *)
Theorem C124_cleared_partial : forall clock force w ws d name n e d' P o r, tidy ws d -> dget (experiments ws) n = Some e ->
  clearing clock force ws (d, start w ws name, false, CList n) (d', P, o, CEnded r) ->
  exists f0 vs, r = Ok (List.length vs) /\ NoDup vs /\ (forall t, In (version_file n t) (dkeys d) -> In t vs) /\ (forall t, In t vs -> In (version_file n t) (dkeys d) \/ t = second (clock n)) /\
    forall t, In (version_file n t) (dkeys d') -> t = second (clock n) /\ put_there clock ws d' P f0 (version_file n t).
Proof.
  intros clock force w ws d name n e d' P o r T E H. assert (I := xinv_all ha hv hd data run listing second text_of parse HL clock force ws n e d E T _ _ H (xinv_start ha hv hd data run second text_of clock ws n d T w name)).
  cbn [xinv] in I. destruct I as (b & _ & _ & Gd & Cl & _ & R). destruct r as [k|x]; [|contradiction]. destruct Cl as ((vs & <- & L1 & L2 & L3) & Z). destruct (goodo_put _ _ _ _ _ _ Gd) as (f0 & F). exists f0, vs. repeat (split; [assumption || reflexivity|]).
  intros t I. apply key_dget in I. destruct (own_dec second clock ws (version_file n t)) as [O|O]; [|rewrite (R _ O), Z in I; contradiction]. destruct (F _ O) as [Q|Q]; [rewrite Q, Z in I; contradiction|]. split; [|exact Q].
  destruct O as (m & e' & _ & O). apply version_inj in O. destruct O as [-> O]. exact O.
Qed.

(* ---- running a schedule, for the examples: true is a step of the execute command ---- *)
Definition xadvance (clock : string -> X) (force : bool) (ws : workspace) (who : bool) (s : state) : state :=
  let '(d, P, o, C) := s in
  if who then
    if o then match P with PWriting f off [] w es => (d, PLoop w es, false, C) | PWriting f off t w es => (d, PWriting f (off + List.length t) [] w es, true, C) | _ => s end
    else let (d', P') := advance ha hv hd data run listing second text_of parse clock force ws d P in (d', P', false, C)
  else match C with
  | CList n => (d, P, o, match load_versions (listing d) n with Ok vs => CRemove n vs 0 | Err x => CEnded (Err x) end)
  | CRemove n (v :: vs) k => match dget d (version_file n v) with Some _ => (ddel d (version_file n v), P, o || writes_to P (version_file n v), CRemove n vs (S k)) | None => (d, P, o, CRemove n vs k) end
  | CRemove n [] k => (d, P, o, CEnded (Ok k))
  | CEnded _ => s
  end.
Lemma xadvance_step clock force ws who s : xadvance clock force ws who s = s \/ xstep ha hv hd data run listing second text_of parse clock force ws s (xadvance clock force ws who s).
Proof.
  destruct s as [[[d P] o] C]. unfold xadvance. destruct who.
  - destruct o.
    + destruct P as [w es|w n e es|w n e v es|w n e es|f off [|x t] w es|r]; try (left; reflexivity); right; [apply x_lost_close|].
      assert (W := x_lost ha hv hd data run listing second text_of parse clock force ws d f off (x :: t) [] w es C ltac:(discriminate)). rewrite app_nil_r in W. exact W.
    + destruct (advance_step ha hv hd data run listing second text_of parse clock force ws d P) as [(r & ->)|S]; [left; reflexivity|]. destruct (advance ha hv hd data run listing second text_of parse clock force ws d P) as [d' P']. right. apply x_exec, S.
  - destruct C as [n|n [|v vs] k|r]; [right; apply x_list|right; apply x_done| |left; reflexivity]. destruct (dget d (version_file n v)) eqn:Q; right; [apply x_remove; congruence|apply x_gone, Q].
Qed.
Fixpoint xscheduled clock force ws (l : list bool) (s : state) : state := match l with [] => s | who :: l => xscheduled clock force ws l (xadvance clock force ws who s) end.
Lemma xscheduled_clearing clock force ws l : forall s, clearing clock force ws s (xscheduled clock force ws l s).
Proof. induction l as [|who l IH]; intros s; cbn [xscheduled]; [apply m_here|]. destruct (xadvance_step clock force ws who s) as [->|S]; [apply IH|eapply m_step; [exact S|apply IH]]. Qed.
End Run.
Print Assumptions C124_files_partial.
Print Assumptions C124_cleared_partial.

(* ---- concrete cases: the experiments of C76 ---- *)
Definition two_clearing := meanwhile show show_vars (fun _ : nat => "h") show_data (show_graph false) dkeys mo_second (json_text show_float) (json_parse read_none date_now) (at_second 9) false (two 5 4).
Definition two_cleared (l : list bool) (name : option string) (n : string) := xscheduled show show_vars (fun _ : nat => "h") show_data (show_graph false) dkeys mo_second (json_text show_float) (json_parse read_none date_now) (at_second 9) false (two 5 4) l (two_before, start_two name, false, CList n).

(* the execute command ends well, but its result is gone and so is the one that was there: the file was removed while it was
   being written *)
Definition lost_schedule : list bool := [true; false; false; false; false; true; true; true].
Definition lost_state := Eval vm_compute in two_cleared lost_schedule (Some "e1") "e1".
Theorem C124_lost_refuted : exists d d', two_clearing (d, start_two (Some "e1"), false, CList "e1") (d', PEnded (Ok tt), false, CEnded (Ok 2)) /\ (exists t, dget d "e1_7.json" = Some t) /\ two_latest d' "e1" = Err ValueError.
Proof.
  exists two_before, (fst (fst (fst lost_state))). split; [|split; [eexists; vm_compute; reflexivity|vm_compute; reflexivity]].
  assert (H := xscheduled_clearing show show_vars (fun _ : nat => "h") show_data (show_graph false) dkeys mo_second (json_text show_float) (json_parse read_none date_now) (at_second 9) false (two 5 4) lost_schedule (two_before, start_two (Some "e1"), false, CList "e1")).
  assert (Q : two_cleared lost_schedule (Some "e1") "e1" = (fst (fst (fst lost_state)), PEnded (Ok tt), false, CEnded (Ok 2))) by (vm_compute; reflexivity). unfold two_cleared in Q. rewrite Q in H. exact H.
Qed.
Print Assumptions C124_lost_refuted.
(* An execute command for all experiments ends with FileNotFoundError, which it does not catch, if the newest version of one
   of them is removed between the listing and the reading; none of the experiments is executed, although the command alone
   would have executed one. *)
Definition fails_schedule : list bool := [true; true; false; false; false; true].
Definition fails_state := Eval vm_compute in two_cleared fails_schedule None "e1".
Theorem C124_fails_refuted : exists d d', two_clearing (d, start_two None, false, CList "e1") (d', PEnded (Err FileNotFound), false, CEnded (Ok 1)) /\ dkeys d' = ["workspace.yml"; "e2_7.json"] /\
  exists d'', two_clearing (d, start_two None, false, CList "e1") (d'', PEnded (Ok tt), false, CList "e1") /\ In "e1_9.json" (dkeys d'').
Proof.
  exists two_before, (fst (fst (fst fails_state))). split; [|split; [vm_compute; reflexivity|]].
  - assert (H := xscheduled_clearing show show_vars (fun _ : nat => "h") show_data (show_graph false) dkeys mo_second (json_text show_float) (json_parse read_none date_now) (at_second 9) false (two 5 4) fails_schedule (two_before, start_two None, false, CList "e1")).
    assert (Q : two_cleared fails_schedule None "e1" = (fst (fst (fst fails_state)), PEnded (Err FileNotFound), false, CEnded (Ok 1))) by (vm_compute; reflexivity). unfold two_cleared in Q. rewrite Q in H. exact H.
  - exists (fst (fst (fst (two_cleared (repeat true 12) None "e1")))). split; [|vm_compute; tauto].
    assert (H := xscheduled_clearing show show_vars (fun _ : nat => "h") show_data (show_graph false) dkeys mo_second (json_text show_float) (json_parse read_none date_now) (at_second 9) false (two 5 4) (repeat true 12) (two_before, start_two None, false, CList "e1")).
    assert (Q : two_cleared (repeat true 12) None "e1" = (fst (fst (fst (two_cleared (repeat true 12) None "e1"))), PEnded (Ok tt), false, CList "e1")) by (vm_compute; reflexivity). unfold two_cleared in Q |- *. rewrite Q in H. exact H.
Qed.
Print Assumptions C124_fails_refuted.

(* the clear command removes the old version after the new one has been opened, which it had not seen: the new one stays *)
Example C124_nonvacuous : lists dkeys /\ tidy (two 5 4) two_before /\ (exists e, dget (experiments (two 5 4)) "e1" = Some e) /\
  (exists d' f, two_cleared [false; true] (Some "e1") "e1" = (d', f, false, CRemove "e1" [7%Z] 0) /\ dget d' "e1_9.json" = Some []) /\
  exists d' t, two_cleared [false; true; false; true; false; true; true] (Some "e1") "e1" = (d', PEnded (Ok tt), false, CEnded (Ok 1)) /\ dkeys d' = ["workspace.yml"; "e2_7.json"; "e1_9.json"] /\ dget d' "e1_9.json" = Some t /\ two_latest d' "e1" = two_latest (apply_ops two_before two_ops) "e1".
Proof.
  destruct C76_nonvacuous as (A & B & C & _). split; [exact A|]. split; [exact C|]. split; [eexists; vm_compute; reflexivity|]. split; [do 2 eexists; split; vm_compute; reflexivity|].
  do 2 eexists. split; [vm_compute; reflexivity|]. split; [vm_compute; reflexivity|]. split; vm_compute; reflexivity.
Qed.
