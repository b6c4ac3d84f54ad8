(* Proofs about a clear command that runs at the same time as an execute command: the other experiments. *)
From Coq Require Import Sorting.Sorted.
From Verif Require Import Base PyDict PyDictFacts PyStr PyStrFacts Variables VariableSpec Workspace WorkspaceSpec WorkspaceFacts PropsWorkspace JsonText Execute ExecuteSpec ExecuteFacts ExecuteMain PropsExecute Concurrent ConcurrentFacts ConcurrentMain Clearing.
Open Scope string_scope.
Open Scope list_scope.
Open Scope nat_scope.

Section Main.
Context {D G G' X : Type}.
Variables (ha : algorithm -> string) (hv : dict string scalar -> string) (hd : D -> string) (data : string -> res D) (run : algorithm -> D -> res G).
Variables (listing : dir ustr -> list string) (second : X -> Z) (text_of : X -> aref -> @result G -> res ustr) (parse : ustr -> res (@result G')).
Hypothesis HL : lists listing.
Variables (w : world) (ws : workspace).
Hypothesis HU : unshared w ws.
Variable d0 : dir ustr.
Hypothesis T0 : tidy ws d0.
Variables (c : string -> X) (force : bool) (N : string).
Notation exps := (experiments ws).
Notation exec := (execute_experiment ha hv hd data run).
Notation step := (pstep ha hv hd data run listing second text_of parse c force ws).
Notation made := (made ha hv hd data run text_of w ws).
Notation last_of := (latest listing parse).
Notation current := (up_to_date ha hv hd data w ws).
Notation vf n := (version_file n (second (c n))).
Notation at_world := (at_world w ws).
Implicit Types (d : dir ustr) (O : list string).

Definition left_alone n e : Prop := force = false /\ exists l, last_of d0 n = Ok l /\ current e l.
(* O are the experiments for which the process has opened a file *)
Record qinv O d (P : proc) (o : bool) : Prop := mkQinv {
  q_tidy : tidy ws d;
  q_same : forall n e u, dget exps n = Some e -> n <> N -> (u <> second (c n) \/ ~ In n O) -> dget d (version_file n u) = dget d0 (version_file n u);
  q_file : forall n e, dget exps n = Some e -> n <> N -> In n O -> (exists t, dget d (vf n) = Some t /\ made c n e t) \/ (exists off q w1 es, P = PWriting (vf n) off q w1 es) \/ exists x, P = PEnded (Err x);
  q_past : forall n e, dget exps n = Some e -> n <> N -> past P n -> In n O \/ left_alone n e;
  q_at : at_world P;
  q_pick : match P with PPicked _ n _ v _ => n <> N -> ~ In n O -> rbind (read_file d (version_file n v)) parse = last_of d0 n | _ => True end;
  q_write : match P with PWriting f off t _ _ => exists n e, dget exps n = Some e /\ f = vf n /\ (n <> N -> o = false /\ In n O /\ exists p, dget d f = Some p /\ off = List.length p /\ made c n e (p ++ t)) | _ => True end }.
Lemma other_version n u v : n <> N -> version_file n u <> version_file N v.
Proof. intros H Q. apply version_inj in Q. destruct Q; contradiction. Qed.
Lemma q_agree O d P o n e : qinv O d P o -> dget exps n = Some e -> n <> N -> ~ In n O -> agree d0 d n.
Proof. intros V E H I t. apply (q_same _ _ _ _ V n e t E H). right; exact I. Qed.
(* a step that only looks *)
Lemma q_look O d P P' : qinv O d P false -> ~ busy P -> at_world P' ->
  match P' with PPicked _ n _ v _ => n <> N -> ~ In n O -> rbind (read_file d (version_file n v)) parse = last_of d0 n | PWriting _ _ _ _ _ => False | _ => True end ->
  (forall n e, dget exps n = Some e -> n <> N -> past P' n -> past P n \/ In n O \/ left_alone n e) -> qinv O d P' false.
Proof.
  intros [T A B C E F H] NB AW PK PA. split.
  - exact T.
  - exact A.
  - intros n e K K' I. destruct (B n e K K' I) as [Q|[(off & q & w1 & es & ->)|(x & ->)]]; [left; exact Q|exfalso; apply NB; exact Logic.I|exfalso; apply NB; exact Logic.I].
  - intros n e K K' Q. destruct (PA n e K K' Q) as [Q'|Q']; [eapply C; eassumption|exact Q'].
  - exact AW.
  - destruct P'; try exact Logic.I. exact PK.
  - destruct P'; try exact Logic.I. destruct PK.
Qed.
Lemma q_checked O d P n e es b : qinv O d P false -> ~ busy P -> dget exps n = Some e -> known ws es -> (forall m, ~ In m (n :: map fst es) -> past P m) ->
  (b = Ok false -> force = false -> n <> N -> In n O \/ left_alone n e) -> qinv O d (checked force w n e es b) false.
Proof.
  intros V NB E K PA SK. eapply q_look; [exact V|exact NB| | |]; unfold checked; destruct (caught b) as [b'|x] eqn:C; try exact Logic.I.
  - destruct (negb b' && negb force); cbn [ConcurrentMain.at_world]; auto.
  - destruct (negb b' && negb force); exact Logic.I.
  - intros m e' E' M Q. destruct (negb b' && negb force) eqn:B; cbn [past] in Q.
    + destruct (string_dec n m) as [<-|NM]; [|left; apply PA; intros [R|R]; contradiction]. right. rewrite E in E'. injection E' as <-. apply andb_true_iff in B. destruct B as [B1 B2]. apply negb_true_iff in B1, B2. apply SK; [|exact B2|exact M]. subst b'. unfold caught in C. destruct b as [b|[]]; congruence.
    + left. apply PA, Q.
  - intros m e' E' M [].
Qed.
Lemma vfile_neq n m : n <> m -> vf n <> vf m.
Proof. intros H Q. apply version_inj in Q. destruct Q; contradiction. Qed.
Lemma vfile_other n m u : m <> n \/ u <> second (c m) -> version_file m u <> vf n.
Proof. intros H Q. apply version_inj in Q. destruct Q as [-> ->]. destruct H as [H|H]; apply H; reflexivity. Qed.
Lemma tidy_own d n t : tidy ws d -> tidy ws (dset d (vf n) t).
Proof. intros T. eapply tidy_set; [exact T|exists n, (second (c n)); reflexivity| |]; [intros g; apply In_dkeys_dset|apply NoDup_dset]. Qed.
Lemma q_step O d P d1 P1 : step (d, P) (d1, P1) -> qinv O d P false -> exists O1, qinv O1 d1 P1 false.
Proof.
  intros H V. assert (W := q_at _ _ _ _ V). assert (T := q_tidy _ _ _ _ V). inversion H; subst; cbn [ConcurrentMain.at_world] in W.
  - exists O. eapply q_look; [exact V|intros []|exact Logic.I|exact Logic.I|]. intros n e E M _. left. intros [].
  - exists O. destruct W as (-> & K). assert (K' : known ws es) by (intros m e' J; apply K; right; exact J). assert (En : dget exps n = Some e) by (apply K; left; reflexivity).
    destruct (load_versions (listing d1) n) as [[|v vs]|x]; [|eapply q_look; [exact V|intros []|cbn [ConcurrentMain.at_world]; auto|exact Logic.I|intros m e' _ _ Q; left; exact Q]|]; (eapply q_checked; [exact V|intros []|exact En|exact K'|intros m Q; exact Q|discriminate]).
  - exists O. destruct W as (-> & En & K'). destruct (load_versions (listing d1) n) as [[|v vs]|x] eqn:V1; [eapply q_checked; [exact V|intros []|exact En|exact K'|intros m Q; exact Q|discriminate]| |eapply q_checked; [exact V|intros []|exact En|exact K'|intros m Q; exact Q|discriminate]].
    eapply q_look; [exact V|intros []|cbn [ConcurrentMain.at_world]; auto| |intros m e' _ _ Q; left; exact Q]. intros M I. rewrite <- (agree_latest listing parse HL ws d0 d1 n e T0 T En (q_agree _ _ _ _ n e V En M I)). unfold latest, load_latest. rewrite V1. reflexivity.
  - exists O. destruct W as (-> & En & K'). assert (PK := q_pick _ _ _ _ V). cbn in PK.
    destruct (rbind (read_file d1 (version_file n v)) parse) as [l|x] eqn:R; [|eapply q_checked; [exact V|intros []|exact En|exact K'|intros m Q; exact Q|discriminate]].
    assert (W := check_world ha hv hd data w ws HU e l). destruct (check_latest ha hv hd data w ws e l) as [w1 b] eqn:CL. cbn [fst] in W. subst w1. eapply q_checked; [exact V|intros []|exact En|exact K'|intros m Q; exact Q|]. intros -> F M.
    destruct (in_dec string_dec n O) as [J|J]; [left; exact J|]. right. split; [exact F|]. exists l. split; [rewrite <- (PK M J); reflexivity|]. apply (check_up_to_date ha hv hd data w ws); rewrite CL; reflexivity.
  - destruct W as (-> & En & K'). assert (W := exec_world ha hv hd data run w ws HU e). match goal with E : _ = (d1, P1) |- _ => revert E end. destruct (exec w ws e) as [w1 [l|x]] eqn:E; cbn [fst] in W; subst w1.
    2:{ intros Q. injection Q as <- <-. exists O. eapply q_look; [exact V|intros []|exact Logic.I|exact Logic.I|intros m e' _ _ []]. }
    destruct (dget (pipelines ws) (e_pipeline e)) as [r|] eqn:R.
    2:{ intros Q. injection Q as <- <-. exists O. eapply q_look; [exact V|intros []|exact Logic.I|exact Logic.I|intros m e' _ _ []]. }
    intros Q. injection Q as <- <-. cbn [apply_op]. exists (n :: O). destruct V as [_ A B C _ _ _]. split.
    + apply tidy_own, T.
    + intros m e' u E' M Hu. rewrite dget_dset_other; [apply (A m e' u E' M); destruct Hu as [Hu|Hu]; [left; exact Hu|right; intros J; apply Hu; right; exact J]|]. apply vfile_other. destruct Hu as [Hu|Hu]; [right; exact Hu|left; intros ->; apply Hu; left; reflexivity].
    + intros m e' E' M J. destruct (string_dec m n) as [->|NM].
      * right. destruct (text_of (c n) r l) as [t|x]; [left; exists 0, t, w, es; reflexivity|right; exists x; reflexivity].
      * destruct J as [J|J]; [exfalso; apply NM; symmetry; exact J|]. rewrite dget_dset_other by (apply vfile_neq; exact NM). destruct (B m e' E' M J) as [Q|[(o & q & w1 & es' & Q)|(x & Q)]]; [left; exact Q|discriminate Q|discriminate Q].
    + intros m e' E' M Q. destruct (string_dec m n) as [->|NM]; [left; left; reflexivity|]. assert (PQ : past (PRun w n e es) m). { destruct (text_of (c n) r l); cbn [past] in Q |- *; [|destruct Q]. intros [J|J]; [apply NM; symmetry; exact J|contradiction]. }
      destruct (C m e' E' M PQ) as [J|J]; [left; right; exact J|right; exact J].
    + destruct (text_of (c n) r l); cbn [ConcurrentMain.at_world]; auto.
    + destruct (text_of (c n) r l); exact Logic.I.
    + destruct (text_of (c n) r l) as [t|x] eqn:TX; [|exact Logic.I]. exists n, e. split; [exact En|]. split; [reflexivity|]. intros _. split; [reflexivity|]. split; [left; reflexivity|]. exists []. rewrite dget_dset_same. split; [reflexivity|]. split; [reflexivity|]. exists l, r. auto.
  - destruct W as (-> & K'). assert (PW := q_write _ _ _ _ V). cbn in PW. destruct PW as (n & e & En & -> & PW). exists O. destruct V as [_ A B C _ _ _]. split.
    + apply tidy_own, T.
    + intros m e' u E' M Hu. rewrite dget_dset_other; [apply (A m e' u E' M Hu)|]. apply vfile_other. destruct Hu as [Hu|Hu]; [right; exact Hu|]. left. intros ->. apply Hu, (PW M).
    + intros m e' E' M Jm. destruct (string_dec m n) as [->|NM]; [right; left; eauto|]. rewrite dget_dset_other by (apply vfile_neq; exact NM). destruct (B m e' E' M Jm) as [Q|[(o & q' & w1 & es' & Q)|(x & Q)]]; [left; exact Q| |discriminate Q]. injection Q as Q _ _ _ _. apply version_inj in Q. destruct Q as [Q _]. exfalso. apply NM. symmetry; exact Q.
    + exact C.
    + cbn [ConcurrentMain.at_world]. auto.
    + exact Logic.I.
    + exists n, e. split; [exact En|]. split; [reflexivity|]. intros M. destruct (PW M) as (P1 & P2 & p0 & C0 & -> & MA). split; [reflexivity|]. split; [exact P2|]. exists (p0 ++ p). unfold content. rewrite C0, overwrite_end, dget_dset_same, app_length, <- app_assoc. auto.
  - destruct W as (-> & K'). assert (PW := q_write _ _ _ _ V). cbn in PW. destruct PW as (n & e & En & -> & PW). exists O. destruct V as [_ A B C _ _ _]. split; [exact T|exact A| |exact C|cbn [ConcurrentMain.at_world]; auto|exact Logic.I|exact Logic.I].
    intros m e' E' M Jm. destruct (B m e' E' M Jm) as [Q|[(o & q' & w1 & es' & Q)|(x & Q)]]; [left; exact Q| |discriminate Q]. injection Q as Q _ _ _ _. apply version_inj in Q. destruct Q as [<- _]. rewrite En in E'. injection E' as <-. destruct (PW M) as (_ & _ & p0 & C0 & _ & MA). rewrite app_nil_r in MA. left. exists p0. auto.
Qed.
(* files of N may be removed *)
Lemma q_removed O d P o v : qinv O d P o -> qinv O (ddel d (version_file N v)) P (o || writes_to P (version_file N v)).
Proof.
  intros V. assert (T := q_tidy _ _ _ _ V). assert (S : forall n u, n <> N -> dget (ddel d (version_file N v)) (version_file n u) = dget d (version_file n u)) by (intros n u M; apply dget_ddel_other, other_version, M). destruct V as [_ A B C E F H]. split.
  - destruct T as [T1 T2]. split; [apply NoDup_ddel, T1|]. intros n e f K I. apply (T2 n e f K). apply key_dget. apply key_dget in I. rewrite dget_ddel in I by exact T1. destruct (eqb f (version_file N v)); [contradiction|exact I].
  - intros n e u K M Hu. rewrite (S n u M). exact (A n e u K M Hu).
  - intros n e K M I. rewrite (S n _ M). exact (B n e K M I).
  - exact C.
  - exact E.
  - destruct P; try exact Logic.I. intros M I. rewrite <- (F M I). unfold read_file. rewrite (S n _ M). reflexivity.
  - destruct P as [w1 es|w1 n e es|w1 n e u es|w1 n e es|f off t w1 es|r]; try exact Logic.I. destruct H as (n & e & K & -> & H). exists n, e. split; [exact K|]. split; [reflexivity|]. intros M. destruct (H M) as (-> & I & p & Q). split; [cbn [orb writes_to]; apply eqb_neq, other_version, M|]. split; [exact I|]. exists p. rewrite (S n _ M). exact Q.
Qed.
Definition clears (C : cproc) : Prop := match C with CList n | CRemove n _ _ => n = N | CEnded _ => True end.
Definition qstate (s : state) : Prop := let '(d, P, o, C) := s in clears C /\ exists O, qinv O d P o.
Lemma q_xstep s s' : xstep ha hv hd data run listing second text_of parse c force ws s s' -> qstate s -> qstate s'.
Proof.
  intros H. destruct H as [d P d' P' C H|d f off p q w1 es C Hp|d f off w1 es C|d P o n|d P o n v vs k Hv|d P o n v vs k Hv|d P o n k]; cbn [qstate]; intros (CL & O & V).
  - split; [exact CL|]. eapply q_step; eassumption.
  - split; [exact CL|]. exists O. destruct V as [T A B C' E F H]. split; auto.
    + intros n e K M I. destruct (B n e K M I) as [Q|[(o' & q' & w2 & es' & Q)|(x & Q)]]; [left; exact Q| |discriminate Q]. injection Q as -> _ _ _ _. right. left. eauto.
    + destruct H as (n & e & K & -> & H). exists n, e. split; [exact K|]. split; [reflexivity|]. intros M. destruct (H M) as (Q & _). discriminate Q.
  - split; [exact CL|]. exists O. destruct V as [T A B C' E F H]. destruct H as (n & e & K & -> & H). split; auto.
    intros m e' K' M I. destruct (B m e' K' M I) as [Q|[(o' & q' & w2 & es' & Q)|(x & Q)]]; [left; exact Q| |discriminate Q]. injection Q as Q _ _ _ _. apply version_inj in Q. destruct Q as [<- _]. destruct (H M) as (Q & _). discriminate Q.
  - cbn [clears] in CL. subst n. split; [destruct (load_versions (listing d) N); [reflexivity|exact Logic.I]|exists O; exact V].
  - cbn [clears] in CL. subst n. split; [reflexivity|]. exists O. apply q_removed, V.
  - split; [exact CL|]. exists O; exact V.
  - split; [exact Logic.I|]. exists O; exact V.
Qed.
Lemma q_all s s' : meanwhile ha hv hd data run listing second text_of parse c force ws s s' -> qstate s -> qstate s'.
Proof. intros H. induction H as [s|s s1 s2 S H IH]; [auto|]. intros I. apply IH. eapply q_xstep; eassumption. Qed.
Lemma q_start : NoDup (dkeys exps) -> qstate (d0, start w ws None, false, CList N).
Proof.
  intros ND. split; [reflexivity|]. exists []. cbn [start]. split; auto.
  - intros n e _ _ [].
  - intros n e E _ Q. exfalso. apply Q. apply dget_In in E. exact (in_map fst _ _ E).
  - split; [reflexivity|]. intros n e J. apply NoDup_dget; assumption.
Qed.
End Main.
