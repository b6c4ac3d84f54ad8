(* C123: execute commands that run at the same time in one workspace. *)
From Coq Require Import Sorting.Sorted.
From Verif Require Import Base PyDict PyDictFacts PyStr PyStrFacts Variables VariableSpec Workspace WorkspaceSpec WorkspaceFacts PropsWorkspace JsonText JsonTextSpec PropsJsonText ResultText ResultTextSpec PropsResult ResultJson Execute ExecuteSpec ExecuteFacts ExecuteMain PropsExecute Concurrent ConcurrentFacts ConcurrentMain.
Open Scope string_scope.
Open Scope list_scope.
Open Scope nat_scope.

Section Run.
Context {D G G' X : Type}.
Variables (ha : algorithm -> string) (hv : dict string scalar -> string) (hd : D -> string) (data : string -> res D) (run : algorithm -> D -> res G).
Variables (listing : dir ustr -> list string) (second : X -> Z) (text_of : X -> aref -> @result G -> res ustr) (parse : ustr -> res (@result G')).
Notation exec := (execute_experiment ha hv hd data run).
Notation command := (Execute.execute ha hv hd data run listing second text_of parse).
Notation needs := (needs_text ha hv hd data listing parse).
Notation last_of := (latest listing parse).
Notation at_once := (together ha hv hd data run listing second text_of parse).
Notation by_itself := (alone ha hv hd data run listing second text_of parse).
Notation result_text := (PropsExecute.result_text ha hv hd data run text_of).
Implicit Types d : dir ustr.

(* What a process at P has put in the file f of the directory d: the complete text of a result of the experiment whose file
   it is; in the file f0, as long as the process has not ended well, it may be a part of it. *)
Definition put_there (clock : string -> X) ws d (P : proc) (f0 f : string) : Prop :=
  exists n e t, In (n, e) (experiments ws) /\ f = version_file n (second (clock n)) /\ dget d f = Some t /\
  (result_text clock ws n e t \/ P <> PEnded (Ok tt) /\ f = f0 /\ (t = [] \/ exists q, result_text clock ws n e (t ++ q))).

(* a process that is not disturbed does what the execute command of Execute.v does (C76, C77) *)
Theorem C123_alone : forall clock force w ws d name w' os o, NoDup (dkeys (experiments ws)) -> command clock force w ws d name = (w', (os, o)) -> by_itself clock force ws (d, start w ws name) (apply_ops d os, PEnded o).
Proof.
  intros clock force w ws d name w' os o N H. unfold Execute.execute in H. unfold start. destruct name as [n|].
  - destruct (dget (experiments ws) n) as [e|]; [|injection H as <- <- <-; apply a_here]. assert (R := run_alone ha hv hd data run listing second text_of parse clock force ws d w n e [] w' os o H). destruct o as [[]|x]; [|exact R]. eapply only_trans; [exact R|]. eapply a_step; [apply p_done|apply a_here].
  - eapply loop_alone; [apply known_all, N|exact H].
Qed.

(* C123: at every moment of two executions, if no experiment is saved by both in the same second: every file has the content
   it had, or it is the file of an experiment with a complete text that one of them has made; there is at most one
   incomplete file for each, and none once it has ended well. *)
Theorem C123_files_partial : forall c1 c2 force1 force2 w1 w2 ws d name1 name2 d' P1 P2, (forall n, In n (dkeys (experiments ws)) -> second (c1 n) <> second (c2 n)) ->
  at_once c1 c2 force1 force2 ws (d, start w1 ws name1, start w2 ws name2) (d', P1, P2) ->
  exists f1 f2, forall f, dget d' f = dget d f \/ put_there c1 ws d' P1 f1 f \/ put_there c2 ws d' P2 f2 f.
Proof.
  intros c1 c2 force1 force2 w1 w2 ws d name1 name2 d' P1 P2 A H. assert (I := together_good ha hv hd data run listing second text_of parse ws c1 c2 force1 force2 d _ _ A H). cbv zeta beta iota in I. destruct I as (G1 & G2 & R).
  { split; [apply good_start|]. split; [apply good_start|]. reflexivity. }
  assert (L : forall c P, good ha hv hd data run second text_of ws c d d' P -> exists f0, forall f, own second ws c f -> dget d' f = dget d f \/ put_there c ws d' P f0 f).
  { clear. intros c P Gd. assert (Q : exists f0, fine ha hv hd data run second text_of ws c d d' (fun f => P <> PEnded (Ok tt) /\ f = f0)).
    { destruct P as [w es|w n e es|w n e v es|w n e es|f off t w es|[[]|x]]; cbn [good] in Gd.
      - exists "". eapply fine_weak; [|apply Gd]. intros f [].
      - exists "". eapply fine_weak; [|apply Gd]. intros f [].
      - exists "". eapply fine_weak; [|apply Gd]. intros f [].
      - exists "". eapply fine_weak; [|apply Gd]. intros f [].
      - exists f. eapply fine_weak; [|apply Gd]. intros g <-. split; [discriminate|reflexivity].
      - exists "". eapply fine_weak; [|apply Gd]. intros f [].
      - destruct Gd as (f0 & F). exists f0. eapply fine_weak; [|exact F]. intros g <-. split; [discriminate|reflexivity]. }
    destruct Q as (f0 & F). exists f0. intros f O. destruct (F f O) as [Q|(n & e & t & Q1 & Q2 & Q3 & [Q4|[[Q4 Q5] Q6]])]; [left; exact Q| |]; right; exists n, e, t; repeat (split; [assumption|]); [left; exact Q4|right; auto]. }
  destruct (L c1 P1 G1) as (f1 & F1). destruct (L c2 P2 G2) as (f2 & F2). exists f1, f2. intros f.
  assert (DE : forall c, own second ws c f \/ ~ own second ws c f).
  { clear. intros c. unfold own. generalize (experiments ws) as l. intros l. destruct (existsb (fun x => eqb f (version_file (fst x) (second (c (fst x))))) l) eqn:B.
    - left. apply existsb_exists in B. destruct B as ([n e] & I & B). cbn [fst] in B. exists n, e. split; [exact I|]. destruct (eqb_spec f (version_file n (second (c n)))) as [Q|Q]; [exact Q|discriminate B].
    - right. intros (n & e & I & ->). assert (Q : existsb (fun x => eqb (version_file n (second (c n))) (version_file (fst x) (second (c (fst x))))) l = true); [|congruence]. apply existsb_exists. exists (n, e). split; [exact I|]. apply eqb_refl. }
  destruct (DE c1) as [O|O]; [destruct (F1 f O); auto|]. destruct (DE c2) as [O'|O']; [destruct (F2 f O'); auto|]. left. apply R; assumption.
Qed.

Section Newest.
Hypothesis HL : lists listing.
Variable keep : G -> G'.
(* C123: when two executions of all experiments have both ended well, the newest version of every experiment is a complete
   result of an execution, unless both found that it was up to date; then it is the one that was there.  So two executions
   at the same time leave what one of them would have left (C77). *)
Theorem C123_newest_partial : forall c1 c2 force1 force2 w ws d d', unshared w ws -> NoDup (dkeys (experiments ws)) -> tidy ws d -> storable ha hv hd data run text_of parse keep c1 w ws -> storable ha hv hd data run text_of parse keep c2 w ws ->
  (forall n, In n (dkeys (experiments ws)) -> not_newer d n (second (c1 n)) /\ not_newer d n (second (c2 n)) /\ second (c1 n) <> second (c2 n)) ->
  at_once c1 c2 force1 force2 ws (d, start w ws None, start w ws None) (d', PEnded (Ok tt), PEnded (Ok tt)) -> forall n e, dget (experiments ws) n = Some e ->
  (exists l, exec w ws e = (w, Ok l) /\ last_of d' n = Ok (kept keep l)) \/
  (force1 = false /\ force2 = false /\ (forall t, dget d' (version_file n t) = dget d (version_file n t)) /\ exists l, last_of d' n = Ok l /\ up_to_date ha hv hd data w ws e l).
Proof.
  intros c1 c2 force1 force2 w ws d d' U N T S1 S2 NN H n e E. assert (A : forall m, In m (dkeys (experiments ws)) -> second (c1 m) <> second (c2 m)) by (intros m I; apply (NN m I)).
  assert (B := both_step ha hv hd data run listing second text_of parse HL w ws U d T c1 c2 force1 force2 A _ _ H (both_start ha hv hd data run listing second text_of parse w ws d T c1 c2 force1 force2 N)).
  destruct B as (O1 & O2 & V1 & V2 & T' & I & R). assert (In_n : In n (dkeys (experiments ws))) by (apply dmem_In, dmem_get; eauto). destruct (NN n In_n) as (NN1 & NN2 & NE).
  assert (L : forall c, storable ha hv hd data run text_of parse keep c w ws -> (exists t, dget d' (version_file n (second (c n))) = Some t /\ made ha hv hd data run text_of w ws c n e t) -> (forall u, In (version_file n u) (dkeys d') -> Z.le u (second (c n))) -> exists l, exec w ws e = (w, Ok l) /\ last_of d' n = Ok (kept keep l)).
  { intros c S (t & C & M) MX. destruct (made_reads ha hv hd data run text_of parse keep c w ws n e t S E M) as (l & X1 & RD & _). exists l. split; [exact X1|]. rewrite (after_latest listing parse HL ws d' d' n e (second (c n)) t T' T' E MX); [exact RD|]. intros u. destruct (Z.eqb_spec u (second (c n))) as [->|_]; [exact C|reflexivity]. }
  assert (F1 : In n O1 -> exists t, dget d' (version_file n (second (c1 n))) = Some t /\ made ha hv hd data run text_of w ws c1 n e t). { intros J. destruct (pi_file _ _ _ _ _ _ _ _ _ _ _ _ _ _ _ _ _ _ V1 n e E J) as [Q|[(o & q & w1 & es & Q)|(x & Q)]]; [exact Q|discriminate Q|discriminate Q]. }
  assert (F2 : In n O2 -> exists t, dget d' (version_file n (second (c2 n))) = Some t /\ made ha hv hd data run text_of w ws c2 n e t). { intros J. destruct (pi_file _ _ _ _ _ _ _ _ _ _ _ _ _ _ _ _ _ _ V2 n e E J) as [Q|[(o & q & w1 & es & Q)|(x & Q)]]; [exact Q|discriminate Q|discriminate Q]. }
  assert (K : forall u, In (version_file n u) (dkeys d') -> In (version_file n u) (dkeys d) \/ (u = second (c1 n) /\ In n O1) \/ (u = second (c2 n) /\ In n O2)).
  { intros u Hu. apply key_dget in Hu. destruct (Z.eq_dec u (second (c1 n))) as [->|M1].
    - destruct (in_dec string_dec n O1) as [J|J]; [auto|]. left. rewrite (pi_same _ _ _ _ _ _ _ _ _ _ _ _ _ _ _ _ _ _ V1 n e E J) in Hu. apply key_dget, Hu.
    - destruct (Z.eq_dec u (second (c2 n))) as [->|M2].
      + destruct (in_dec string_dec n O2) as [J|J]; [auto|]. left. rewrite (pi_same _ _ _ _ _ _ _ _ _ _ _ _ _ _ _ _ _ _ V2 n e E J) in Hu. apply key_dget, Hu.
      + left. rewrite R in Hu; [apply key_dget, Hu|]. intros m e' E'. split; intros Q; apply version_inj in Q; destruct Q as [<- Q]; contradiction. }
  destruct (in_dec string_dec n O1) as [J1|J1]; destruct (in_dec string_dec n O2) as [J2|J2].
  - left. destruct (Z.le_ge_cases (second (c1 n)) (second (c2 n))) as [LE|LE].
    + apply (L c2 S2 (F2 J2)). intros u Hu. destruct (K u Hu) as [Q|[[-> _]|[-> _]]]; [apply NN2, Q|exact LE|lia].
    + apply (L c1 S1 (F1 J1)). intros u Hu. destruct (K u Hu) as [Q|[[-> _]|[-> _]]]; [apply NN1, Q|lia|lia].
  - left. apply (L c1 S1 (F1 J1)). intros u Hu. destruct (K u Hu) as [Q|[[-> _]|[_ Q]]]; [apply NN1, Q|lia|contradiction].
  - left. apply (L c2 S2 (F2 J2)). intros u Hu. destruct (K u Hu) as [Q|[[_ Q]|[-> _]]]; [apply NN2, Q|contradiction|lia].
  - right. assert (AG := both_agree ha hv hd data run listing second text_of parse w ws d c1 c2 force1 force2 O1 O2 d' _ _ n e V1 V2 R E J1 J2).
    destruct (pi_past _ _ _ _ _ _ _ _ _ _ _ _ _ _ _ _ _ _ V1 n e E Logic.I) as [Q|(Fc1 & [Q|(l & LL & UP)])]; [contradiction|contradiction|]. destruct (pi_past _ _ _ _ _ _ _ _ _ _ _ _ _ _ _ _ _ _ V2 n e E Logic.I) as [Q|(Fc2 & _)]; [contradiction|].
    split; [exact Fc1|]. split; [exact Fc2|]. split; [exact AG|]. exists l. split; [|exact UP]. rewrite (agree_latest listing parse HL ws d d' n e T T' E AG). exact LL.
Qed.
(* C123: neither makes the other fail: if every experiment can be executed and saved, and the check does not fail on what
   was there, then at every moment neither has ended with an error, although one may read what the other is writing. *)
Theorem C123_errors_partial : forall c1 c2 force1 force2 w ws d d' P1 P2 x, unshared w ws -> valued w ws -> NoDup (dkeys (experiments ws)) -> tidy ws d -> storable ha hv hd data run text_of parse keep c1 w ws -> storable ha hv hd data run text_of parse keep c2 w ws ->
  (forall n, In n (dkeys (experiments ws)) -> second (c1 n) <> second (c2 n)) ->
  (forall n e, dget (experiments ws) n = Some e -> (exists l r, exec w ws e = (w, Ok l) /\ dget (pipelines ws) (e_pipeline e) = Some r) /\ exists b, caught (snd (needs w ws d n)) = Ok b) ->
  at_once c1 c2 force1 force2 ws (d, start w ws None, start w ws None) (d', P1, P2) -> P1 <> PEnded (Err x) /\ P2 <> PEnded (Err x).
Proof.
  intros c1 c2 force1 force2 w ws d d' P1 P2 x U VA N T S1 S2 A CAN H.
  assert (B := both_ok ha hv hd data run listing second text_of parse HL w ws U d T c1 c2 force1 force2 A keep VA (d, start w ws None, start w ws None) (d', P1, P2) S1 S2). assert (Q : ~ failed P1 /\ ~ failed P2).
  { refine (B _ _ H (both_start ha hv hd data run listing second text_of parse w ws d T c1 c2 force1 force2 N) _ _); [|intros n e E; apply (CAN n e E)|intros []|intros []].
    intros n e E. destruct (CAN n e E) as [(l & r & X1 & X2) _]. destruct (S1 n e l r E X1 X2) as (t & Q & _). destruct (S2 n e l r E X1 X2) as (t' & Q' & _). split; [exists t|exists t']; exists l, r; auto. }
  destruct Q as [Q1 Q2]. split; intros ->; [apply Q1|apply Q2]; exact Logic.I.
Qed.
End Newest.

(* ---- running a schedule, for the examples ---- *)
Definition advance (clock : string -> X) (force : bool) (ws : workspace) d (P : proc) : dir ustr * proc :=
  match P with
  | PLoop w [] => (d, PEnded (Ok tt))
  | PLoop w ((n, e) :: es) => (d, match load_versions (listing d) n with Err x => checked force w n e es (Err x) | Ok [] => checked force w n e es (Ok true) | Ok _ => PListed w n e es end)
  | PListed w n e es => (d, match load_versions (listing d) n with Err x => checked force w n e es (Err x) | Ok [] => checked force w n e es (Err ValueError) | Ok (v :: _) => PPicked w n e v es end)
  | PPicked w n e v es => (d, match rbind (read_file d (version_file n v)) parse with Err x => checked force w n e es (Err x) | Ok l => let (w1, b) := check_latest ha hv hd data w ws e l in checked force w1 n e es b end)
  | PRun w n e es => let (w1, o) := exec w ws e in
     match o with
     | Err x => (d, PEnded (Err x))
     | Ok l => match dget (pipelines ws) (e_pipeline e) with
               | None => (d, PEnded (Err KeyError))
               | Some r => let f := version_file n (second (clock n)) in (apply_op d (Trunc f), match text_of (clock n) r l with Ok t => PWriting f 0 t w1 es | Err x => PEnded (Err x) end)
               end
     end
  | PWriting f off [] w es => (d, PLoop w es)
  | PWriting f off t w es => (dset d f (overwrite (content d f) off t), PWriting f (off + List.length t) [] w es)
  | PEnded o => (d, PEnded o)
  end.
Lemma advance_step clock force ws d P : (exists o, P = PEnded o) \/ pstep ha hv hd data run listing second text_of parse clock force ws (d, P) (advance clock force ws d P).
Proof.
  destruct P as [w [|[n e] es]|w n e es|w n e v es|w n e es|f off [|x t] w es|o]; [right; apply p_done|right; apply p_list|right; apply p_pick|right; apply p_read|right; apply p_run|right; apply p_close| |left; eauto].
  right. assert (W := p_write ha hv hd data run listing second text_of parse clock force ws d f off (x :: t) [] w es ltac:(discriminate)). rewrite app_nil_r in W. exact W.
Qed.
Fixpoint scheduled c1 c2 force1 force2 ws (l : list bool) (s : dir ustr * proc * proc) : dir ustr * proc * proc :=
  match l, s with
  | [], _ => s
  | true :: l, (d, P, Q) => let (d', P') := advance c1 force1 ws d P in scheduled c1 c2 force1 force2 ws l (d', P', Q)
  | false :: l, (d, P, Q) => let (d', Q') := advance c2 force2 ws d Q in scheduled c1 c2 force1 force2 ws l (d', P, Q')
  end.
Lemma scheduled_at_once c1 c2 force1 force2 ws l : forall s, at_once c1 c2 force1 force2 ws s (scheduled c1 c2 force1 force2 ws l s).
Proof.
  induction l as [|[|] l IH]; intros [[d P] Q]; cbn [scheduled]; [apply t_here| |].
  - destruct (advance_step c1 force1 ws d P) as [(o & ->)|S]; [cbn [advance]; apply IH|]. destruct (advance c1 force1 ws d P) as [d' P']. eapply t_first; [exact S|apply IH].
  - destruct (advance_step c2 force2 ws d Q) as [(o & ->)|S]; [cbn [advance]; apply IH|]. destruct (advance c2 force2 ws d Q) as [d' Q']. eapply t_second; [exact S|apply IH].
Qed.
End Run.
Print Assumptions C123_alone.
Print Assumptions C123_files_partial.
Print Assumptions C123_newest_partial.
Print Assumptions C123_errors_partial.

(* ---- concrete cases: the experiments of C76 ---- *)
Definition any_date (s : ustr) : bool := eqb s (lit "now") || eqb s (lit "now.5").
Definition at_moment (s : Z) (created : string) (_ : string) : moment := mkMoment s (lit created) (fun _ => Some FNaN).
Definition two_at_once (c1 c2 : string -> moment) := together show show_vars (fun _ : nat => "h") show_data (show_graph false) dkeys mo_second (json_text show_float) (json_parse read_none any_date) c1 c2 false false (two 5 4).
Definition two_scheduled (c1 c2 : string -> moment) := scheduled show show_vars (fun _ : nat => "h") show_data (show_graph false) dkeys mo_second (json_text show_float) (json_parse read_none any_date) c1 c2 false false (two 5 4).
Definition start_two (name : option string) : proc := start ws_world (two 5 4) name.

(* The file name has the second: two executions of an experiment in the same second write to the same file.  Both end well,
   and the newest version, in which the end of the longer text stands after the shorter one, cannot be read. *)
Definition mixed_state := Eval vm_compute in two_scheduled (at_moment 9 "now.5") (at_moment 9 "now") [true; false; true; false; true; true; false; false] (two_before, start_two (Some "e1"), start_two (Some "e1")).
Theorem C123_same_second_refuted : exists d l d', two_at_once (at_moment 9 "now.5") (at_moment 9 "now") (d, start_two (Some "e1"), start_two (Some "e1")) (d', PEnded (Ok tt), PEnded (Ok tt)) /\
  latest dkeys (json_parse read_none any_date) d "e1" = Ok l /\ latest dkeys (json_parse read_none any_date) d' "e1" = Err ValueError.
Proof.
  exists two_before. eexists. exists (fst (fst mixed_state)). split; [|split; [vm_compute; reflexivity|vm_compute; reflexivity]].
  assert (H := scheduled_at_once show show_vars (fun _ : nat => "h") show_data (show_graph false) dkeys mo_second (json_text show_float) (json_parse read_none any_date) (at_moment 9 "now.5") (at_moment 9 "now") false false (two 5 4) [true; false; true; false; true; true; false; false] (two_before, start_two (Some "e1"), start_two (Some "e1"))).
  assert (Q : scheduled show show_vars (fun _ : nat => "h") show_data (show_graph false) dkeys mo_second (json_text show_float) (json_parse read_none any_date) (at_moment 9 "now.5") (at_moment 9 "now") false false (two 5 4) [true; false; true; false; true; true; false; false] (two_before, start_two (Some "e1"), start_two (Some "e1")) = (fst (fst mixed_state), PEnded (Ok tt), PEnded (Ok tt))) by (vm_compute; reflexivity).
  rewrite Q in H. exact H.
Qed.
Print Assumptions C123_same_second_refuted.

(* Two executions of everything at the seconds 9 and 12.  The second one reads the file that the first one has just opened, finds
   no result there, and executes the experiment too; the other experiment is skipped by both. *)
Definition apart_schedule : list bool := [true; true; true; true; false; false; false; false; true; false; true; false; true; true; true; true; false; false; false; false].
Definition apart_state (l : list bool) := scheduled show show_vars (fun _ : nat => "h") show_data (show_graph false) dkeys mo_second (json_text show_float) (json_parse read_none date_now) (at_second 9) (at_second 12) false false (two 5 4) l (two_before, start_two None, start_two None).
Example C123_nonvacuous : lists dkeys /\ unshared ws_world (two 5 4) /\ valued ws_world (two 5 4) /\ NoDup (dkeys (experiments (two 5 4))) /\ tidy (two 5 4) two_before /\
  storable show show_vars (fun _ : nat => "h") show_data (show_graph false) (json_text show_float) (json_parse read_none date_now) show_keep (at_second 9) ws_world (two 5 4) /\
  storable show show_vars (fun _ : nat => "h") show_data (show_graph false) (json_text show_float) (json_parse read_none date_now) show_keep (at_second 12) ws_world (two 5 4) /\
  (forall n, In n (dkeys (experiments (two 5 4))) -> not_newer two_before n 9 /\ not_newer two_before n 12 /\ 9%Z <> 12%Z) /\
  (forall n e, dget (experiments (two 5 4)) n = Some e -> (exists l r, execute_experiment show show_vars (fun _ : nat => "h") show_data (show_graph false) ws_world (two 5 4) e = (ws_world, Ok l) /\ dget (pipelines (two 5 4)) (e_pipeline e) = Some r) /\
     exists b, caught (snd (needs_text show show_vars (fun _ : nat => "h") show_data dkeys (json_parse read_none date_now) ws_world (two 5 4) two_before n)) = Ok b) /\
  (* in the middle one file is empty and the other process, which has read it, is about to execute the experiment *)
  dget (fst (fst (apart_state (firstn 7 apart_schedule)))) "e1_9.json" = Some [] /\ (exists w e es, snd (apart_state (firstn 7 apart_schedule)) = PRun w "e1" e es) /\
  exists d', apart_state apart_schedule = (d', PEnded (Ok tt), PEnded (Ok tt)) /\ dkeys d' = ["workspace.yml"; "e1_7.json"; "e2_7.json"; "e1_9.json"; "e1_12.json"] /\ two_latest d' "e1" = two_latest (apply_ops two_before two_ops) "e1".
Proof.
  destruct C76_nonvacuous as (A & B & C & E & K & _). split; [exact A|]. split; [apply two_unshared|]. split; [apply two_valued|]. split; [exact B|]. split; [exact C|]. split; [apply two_storable; cbn; tauto|]. split; [apply two_storable; cbn; tauto|].
  split; [intros n I; split; [apply E, I|]; split; [intros t J; specialize (E n I t J); lia|lia]|].
  split. { intros n e H. unfold two in H. cbn [experiments dget] in H. destruct (eqb_spec n "e1") as [->|N1]; [injection H as <-|destruct (eqb_spec n "e2") as [->|N2]; [injection H as <-|discriminate]].
    - split; [eexists; eexists; split; vm_compute; reflexivity|eexists; vm_compute; reflexivity].
    - split; [eexists; eexists; split; vm_compute; reflexivity|eexists; vm_compute; reflexivity]. }
  split; [vm_compute; reflexivity|]. split; [do 3 eexists; vm_compute; reflexivity|]. eexists. split; [vm_compute; reflexivity|]. split; vm_compute; reflexivity.
Qed.
