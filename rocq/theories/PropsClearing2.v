(* C124: what an execute command for all experiments does to the experiments that are not being cleared. *)
From Coq Require Import Sorting.Sorted.
From Verif Require Import Base PyDict PyDictFacts PyStr PyStrFacts Variables VariableSpec Workspace WorkspaceSpec WorkspaceFacts PropsWorkspace JsonText JsonTextSpec PropsJsonText ResultText ResultTextSpec PropsResult ResultJson Execute ExecuteSpec ExecuteFacts ExecuteMain PropsExecute Concurrent ConcurrentFacts ConcurrentMain PropsConcurrent Clearing ClearingFacts ClearingMain PropsClearing.
Open Scope string_scope.
Open Scope list_scope.
Open Scope nat_scope.

Section Run.
Context {D G G' X : Type}.
Variables (ha : algorithm -> string) (hv : dict string scalar -> string) (hd : D -> string) (data : string -> res D) (run : algorithm -> D -> res G).
Variables (listing : dir ustr -> list string) (second : X -> Z) (text_of : X -> aref -> @result G -> res ustr) (parse : ustr -> res (@result G')).
Hypothesis HL : lists listing.
Variable keep : G -> G'.
Notation clearing := (meanwhile ha hv hd data run listing second text_of parse).
Notation exec := (execute_experiment ha hv hd data run).
Notation last_of := (latest listing parse).
Implicit Types d : dir ustr.

(* C124: when an execution of all experiments, during which one experiment is being cleared, has ended well, the newest
   version of every other experiment is a complete result of an execution, or it was up to date and its files are as they
   were: for these experiments it is as if nothing had been cleared. *)
Theorem C124_others_partial : forall clock force w ws d N d' o C, unshared w ws -> NoDup (dkeys (experiments ws)) -> tidy ws d -> storable ha hv hd data run text_of parse keep clock w ws ->
  (forall n, In n (dkeys (experiments ws)) -> not_newer d n (second (clock n))) ->
  clearing clock force ws (d, start w ws None, false, CList N) (d', PEnded (Ok tt), o, C) -> forall n e, dget (experiments ws) n = Some e -> n <> N ->
  (exists l, exec w ws e = (w, Ok l) /\ last_of d' n = Ok (kept keep l)) \/
  (force = false /\ (forall t, dget d' (version_file n t) = dget d (version_file n t)) /\ exists l, last_of d' n = Ok l /\ up_to_date ha hv hd data w ws e l).
Proof.
  intros clock force w ws d N d' o C U ND T S NN H n e E M. assert (Q := q_all ha hv hd data run listing second text_of parse HL w ws U d T clock force N _ _ H (q_start ha hv hd data run listing second text_of parse w ws d T clock force N ND)).
  destruct Q as (_ & O & V). assert (T' := q_tidy _ _ _ _ _ _ _ _ _ _ _ _ _ _ _ _ _ _ _ V). assert (NN' : not_newer d n (second (clock n))) by (apply NN, dmem_In, dmem_get; eauto).
  destruct (in_dec string_dec n O) as [J|J].
  - left. destruct (q_file _ _ _ _ _ _ _ _ _ _ _ _ _ _ _ _ _ _ _ V n e E M J) as [(t & K & MA)|[(f & q & w1 & es & Q)|(x & Q)]]; [|discriminate Q|discriminate Q].
    destruct (made_reads ha hv hd data run text_of parse keep clock w ws n e t S E MA) as (l & X1 & RD & _). exists l. split; [exact X1|]. rewrite (after_latest listing parse HL ws d' d' n e (second (clock n)) t T' T' E); [exact RD| |].
    + intros u Hu. destruct (Z.eq_dec u (second (clock n))) as [->|D1]; [lia|]. apply NN'. apply key_dget. apply key_dget in Hu. rewrite <- (q_same _ _ _ _ _ _ _ _ _ _ _ _ _ _ _ _ _ _ _ V n e u E M (or_introl D1)). exact Hu.
    + intros u. destruct (Z.eqb_spec u (second (clock n))) as [->|_]; [exact K|reflexivity].
  - right. assert (AG := q_agree ha hv hd data run listing second text_of parse w ws d clock force N O d' _ o n e V E M J).
    destruct (q_past _ _ _ _ _ _ _ _ _ _ _ _ _ _ _ _ _ _ _ V n e E M Logic.I) as [K|(F & l & L & CU)]; [contradiction|]. split; [exact F|]. split; [exact AG|]. exists l. split; [|exact CU]. rewrite (agree_latest listing parse HL ws d d' n e T T' E AG). exact L.
Qed.
End Run.
Print Assumptions C124_others_partial.

(* The experiments of C76: the second one is cleared while the result of the first one is being written, and the first one,
   with the version that has just been made, while the second one is found to be up to date. *)
Definition while_writing : list bool := [true; true; true; true; false; false; false; true; true; true; true; true; true; true].
Definition while_looking : list bool := [true; true; true; true; true; true; true; true; false; false; false; false; true; true].
Example C124_others_nonvacuous : lists dkeys /\ unshared ws_world (two 5 4) /\ NoDup (dkeys (experiments (two 5 4))) /\ tidy (two 5 4) two_before /\
  storable show show_vars (fun _ : nat => "h") show_data (show_graph false) (json_text show_float) (json_parse read_none date_now) show_keep (at_second 9) ws_world (two 5 4) /\
  (forall n, In n (dkeys (experiments (two 5 4))) -> not_newer two_before n 9) /\
  (exists d', two_cleared while_writing None "e2" = (d', PEnded (Ok tt), false, CEnded (Ok 1)) /\ dkeys d' = ["workspace.yml"; "e1_7.json"; "e1_9.json"; "e2_9.json"] /\ two_latest d' "e1" = two_latest (apply_ops two_before two_ops) "e1") /\
  exists d', two_cleared while_looking None "e1" = (d', PEnded (Ok tt), false, CEnded (Ok 2)) /\ dkeys d' = ["workspace.yml"; "e2_7.json"] /\ dget d' "e2_7.json" = dget two_before "e2_7.json".
Proof.
  destruct C76_nonvacuous as (A & B & C & E & _). split; [exact A|]. split; [apply two_unshared|]. split; [exact B|]. split; [exact C|]. split; [apply two_storable; cbn; tauto|]. split; [exact E|].
  split; eexists; (split; [vm_compute; reflexivity|]); split; vm_compute; reflexivity.
Qed.
