(* C125, continued: commands that cannot be carried out do not write. *)
From Verif Require Import Base PyDict PyDictFacts PyStr Variables Workspace WorkspaceSpec WorkspaceFacts PropsWorkspace JsonText Execute Concurrent ConcurrentFacts Editing PropsEditing.
Open Scope string_scope.
Open Scope list_scope.
Open Scope nat_scope.

(* commands about something that is not there, or that an experiment needs *)
Inductive cannot (w : world) (ws : workspace) : command -> Prop :=
| no_pipeline : forall n, ~ In n (dkeys (pipelines ws)) -> cannot w ws (RemovePipeline n)
| needed_pipeline : forall n m e, dget (experiments ws) m = Some e -> e_pipeline e = n -> cannot w ws (RemovePipeline n)
| no_loader : forall n, ~ In n (dkeys (dataloaders ws)) -> cannot w ws (RemoveDataLoader n)
| needed_loader : forall n m e, dget (experiments ws) m = Some e -> e_dataloader e = n -> cannot w ws (RemoveDataLoader n)
| no_experiment : forall n, ~ In n (dkeys (experiments ws)) -> cannot w ws (RemoveExperiment n)
| no_experiment_clear : forall n, ~ In n (dkeys (experiments ws)) -> cannot w ws (ClearExperiment n)
| no_experiment_update : forall n x v, ~ In n (dkeys (experiments ws)) -> cannot w ws (UpdateVariable n x v)
| no_variable : forall n x v e r a vs, dget (experiments ws) n = Some e -> dget (pipelines ws) (e_pipeline e) = Some r -> load_algorithm w r = Ok a -> variables_of a = Ok vs ->
    (forall y, In y vs -> v_name y <> x) -> cannot w ws (UpdateVariable n x v).

Lemma dmem_no {V} (d : dict string V) n : ~ In n (dkeys d) -> dmem d n = false.
Proof. intros H. destruct (dmem d n) eqn:Q; [|reflexivity]. apply dmem_In in Q. contradiction. Qed.
Lemma cannot_refused w ws c : cannot w ws c -> refused w ws c = true.
Proof.
  intros H. destruct H as [n H|n m e H Q|n H|n m e H Q|n H|n H|n x v H|n x v e r a vs H1 H2 H3 H4 H5]; cbn [refused].
  - rewrite (dmem_no _ _ H). reflexivity.
  - apply orb_true_iff. right. apply existsb_exists. exists (m, e). split; [apply dget_In; exact H|]. cbn. rewrite Q. apply eqb_refl.
  - rewrite (dmem_no _ _ H). reflexivity.
  - apply orb_true_iff. right. apply existsb_exists. exists (m, e). split; [apply dget_In; exact H|]. cbn. rewrite Q. apply eqb_refl.
  - rewrite (dmem_no _ _ H). reflexivity.
  - rewrite (dmem_no _ _ H). reflexivity.
  - apply dmem_no in H. unfold dmem in H. destruct (dget (experiments ws) n); [discriminate|reflexivity].
  - rewrite H1, H2, H3. cbn [rbind]. rewrite H4. destruct (find_variable vs x) as [y|] eqn:F; [|reflexivity]. exfalso. unfold find_variable in F. apply find_some in F. destruct F as [F1 F2]. destruct (eqb_spec x (v_name y)) as [->|]; [|discriminate]. exact (H5 y F1 eq_refl).
Qed.

Section Run.
Variables (slug : string -> string) (w : world) (dump : workspace -> res ustr) (parse : ustr -> res workspace).
Notation editing := (edits slug w dump parse).
Implicit Types d : dir ustr.

Definition idle (ws : workspace) (p : eproc) : Prop := match p with EStart c => cannot w ws c | EHave c ws' => ws' = ws /\ cannot w ws c | EWriting _ _ => False | EEnded o => o = Ok tt end.
(* C125: when none of the commands can be carried out, no file is touched, not even written again *)
Theorem C125_refusing : forall calm cs ws d t d' ps, dget d wfile = Some t -> parse t = Ok ws -> Forall (cannot w ws) cs -> editing calm (d, map EStart cs) (d', ps) ->
  d' = d /\ forall i o, nth_error ps i = Some (EEnded o) -> o = Ok tt.
Proof.
  intros calm cs ws d t d' ps A B C H. assert (X : d' = d /\ Forall (idle ws) ps).
  { assert (I0 : Forall (idle ws) (map EStart cs)) by (apply Forall_forall; intros p Hp; apply in_map_iff in Hp; destruct Hp as (c & <- & Hc); rewrite Forall_forall in C; exact (C c Hc)).
    clear C. remember (d, map EStart cs) as s eqn:Es. remember (d', ps) as s' eqn:Es'. revert Es. generalize (map EStart cs) I0. clear I0.
    induction H as [s|d1 l1 p l2 d2 p' s St _ _ IH]; intros l I0 Es; [rewrite Es in Es'; injection Es' as -> ->; auto|]. injection Es as -> <-.
    apply Forall_app in I0. destruct I0 as [I1 I2]. inversion I2 as [|? ? Ip I3]; subst. assert (Y : d2 = d /\ idle ws p').
    { inversion St; subst; cbn [idle] in Ip.
      - rewrite A, B. split; [reflexivity|]. cbn. auto.
      - destruct Ip as [-> Ip]. match goal with Q : (if refused _ _ _ then _ else _) = _ |- _ => rewrite (cannot_refused w ws _ Ip) in Q; injection Q as <- <- end. split; reflexivity.
      - destruct Ip.
      - destruct Ip. }
    destruct Y as [-> Y]. apply (IH eq_refl (l1 ++ p' :: l2)); [apply Forall_app; auto|reflexivity]. }
  destruct X as [-> X]. split; [reflexivity|]. intros i o Q. rewrite Forall_forall in X. exact (X _ (nth_error_In _ _ Q)).
Qed.

(* C125: without a workspace nothing is written, and every command says so *)
Theorem C125_missing : forall calm cs d d' ps, dget d wfile = None -> editing calm (d, map EStart cs) (d', ps) ->
  d' = d /\ forall i o, nth_error ps i = Some (EEnded o) -> o = Err (OtherError 1).
Proof.
  intros calm cs d d' ps A H. set (J := fun p => match p with EStart _ => True | EEnded o => o = Err (OtherError 1) | _ => False end). assert (X : d' = d /\ Forall J ps).
  { assert (I0 : Forall J (map EStart cs)) by (apply Forall_forall; intros p Hp; apply in_map_iff in Hp; destruct Hp as (c & <- & Hc); exact Logic.I).
    remember (d, map EStart cs) as s eqn:Es. remember (d', ps) as s' eqn:Es'. revert Es. generalize (map EStart cs) I0. clear I0.
    induction H as [s|d1 l1 p l2 d2 p' s St _ _ IH]; intros l I0 Es; [rewrite Es in Es'; injection Es' as -> ->; auto|]. injection Es as -> <-.
    apply Forall_app in I0. destruct I0 as [I1 I2]. inversion I2 as [|? ? Ip I3]; subst. assert (Y : d2 = d /\ J p').
    { inversion St; subst; try (destruct Ip; fail). rewrite A. split; reflexivity. }
    destruct Y as [-> Y]. apply (IH eq_refl (l1 ++ p' :: l2)); [apply Forall_app; auto|reflexivity]. }
  destruct X as [-> X]. split; [reflexivity|]. intros i o Q. rewrite Forall_forall in X. exact (X _ (nth_error_In _ _ Q)).
Qed.
End Run.
Print Assumptions C125_refusing.
Print Assumptions C125_missing.

(* a pipeline that an experiment uses, a loader that is not there, a variable that the algorithm does not have *)
Definition used_ws : workspace := mkWs [("p", mkRef RName "PC")] [("d", "data.json")] [("e", mkExp "p" "d" [("alpha", SInt 1)])].
Definition used_parse (t : ustr) : res workspace := match t with [65%Z] => Ok used_ws | _ => Err ValueError end.
Example C125_refusing_nonvacuous : Forall (cannot ws_world used_ws) [RemovePipeline "p"; RemoveDataLoader "x"; UpdateVariable "e" "gamma" (SInt 1)] /\
  (exists d ps, edits (fun s => s) ws_world (fun _ => Ok [66%Z]) used_parse true ([(wfile, [65%Z])], map EStart [RemovePipeline "p"; RemoveDataLoader "x"]) (d, ps) /\ nth_error ps 0 = Some (EEnded (Ok tt))) /\
  exists d, edits (fun s => s) ws_world (fun _ => Ok [66%Z]) used_parse true ([], map EStart [RemovePipeline "p"]) (d, [EEnded (Err (OtherError 1))]).
Proof.
  split; [|split].
  - apply Forall_cons; [|apply Forall_cons; [|apply Forall_cons; [|apply Forall_nil]]].
    + apply (needed_pipeline _ _ "p" "e" (mkExp "p" "d" [("alpha", SInt 1)])); reflexivity.
    + apply no_loader. cbn. intuition discriminate.
    + eapply (no_variable _ _ "e" "gamma"); [reflexivity|reflexivity|reflexivity|reflexivity|]. intros y [<-|[]]. discriminate.
  - exists [(wfile, [65%Z])], [EEnded (Ok tt); EStart (RemoveDataLoader "x")]. split; [|reflexivity].
    apply (s_step _ _ _ _ true _ [] (EStart (RemovePipeline "p")) [EStart (RemoveDataLoader "x")] [(wfile, [65%Z])] (EHave (RemovePipeline "p") used_ws)); [apply (e_read (fun s => s) ws_world (fun _ => Ok [66%Z]) used_parse [(wfile, [65%Z])])|intros _; constructor; [intros []|constructor]|].
    apply (s_step _ _ _ _ true _ [] (EHave (RemovePipeline "p") used_ws) [EStart (RemoveDataLoader "x")] [(wfile, [65%Z])] (EEnded (Ok tt))); [apply (e_open (fun s => s) ws_world (fun _ => Ok [66%Z]) used_parse [(wfile, [65%Z])])|intros _; constructor; [intros []|constructor]|]. apply s_here.
  - exists []. apply (s_step _ _ _ _ true _ [] (EStart (RemovePipeline "p")) [] [] (EEnded (Err (OtherError 1)))); [apply (e_read (fun s => s) ws_world (fun _ => Ok [66%Z]) used_parse [])|intros _; constructor|]. apply s_here.
Qed.
