(* Proofs about a clear command that runs at the same time as an execute command. *)
From Coq Require Import Sorting.Sorted.
From Verif Require Import Base PyDict PyDictFacts PyStr PyStrFacts Variables VariableSpec Workspace WorkspaceSpec WorkspaceFacts PropsWorkspace JsonText Execute ExecuteSpec ExecuteFacts ExecuteMain PropsExecute Concurrent ConcurrentFacts Clearing.
Open Scope string_scope.
Open Scope list_scope.
Open Scope nat_scope.

Section Facts.
Context {D G G' X : Type}.
Variables (ha : algorithm -> string) (hv : dict string scalar -> string) (hd : D -> string) (data : string -> res D) (run : algorithm -> D -> res G).
Variables (listing : dir ustr -> list string) (second : X -> Z) (text_of : X -> aref -> @result G -> res ustr) (parse : ustr -> res (@result G')).
Hypothesis HL : lists listing.
Variables (c : string -> X) (force : bool) (ws : workspace) (N : string) (eN : experiment) (d0 : dir ustr).
Hypothesis EN : dget (experiments ws) N = Some eN.
Notation exps := (experiments ws).
Notation fine := (fine ha hv hd data run second text_of ws c).
Notation good := (good ha hv hd data run second text_of ws c).
Notation own := (own second ws c).
Notation step := (pstep ha hv hd data run listing second text_of parse c force ws).
Notation xs := (xstep ha hv hd data run listing second text_of parse c force ws).
Notation vN u := (version_file N u).
Implicit Types (d b : dir ustr).

(* b: what is left of the files that were there at first *)
Definition goodo b d (P : proc) (o : bool) : Prop :=
  if o then exists f off t w es, P = PWriting f off t w es /\ incl es exps /\ fine b d (fun _ => False) else good b d P.
Lemma goodo_fine b d P o : goodo b d P o -> exists T, fine b d T.
Proof.
  unfold goodo. destruct o; [intros (f & off & t & w & es & _ & _ & F); eauto|]. destruct P as [w es|w n e es|w n e v es|w n e es|f off t w es|[u|x]]; cbn [ConcurrentFacts.good].
  - intros (_ & F); eauto.
  - intros (_ & _ & F); eauto.
  - intros (_ & _ & F); eauto.
  - intros (_ & _ & F); eauto.
  - intros (_ & _ & F); eauto.
  - eauto.
  - intros (f0 & F); eauto.
Qed.
Lemma fine_del b d T f : NoDup (dkeys b) -> NoDup (dkeys d) -> fine b d T -> fine (ddel b f) (ddel d f) (fun g => T g /\ g <> f).
Proof.
  intros B A F g O. rewrite !dget_ddel by assumption. destruct (eqb_spec g f) as [Q|Q]; [left; reflexivity|]. destruct (F g O) as [K|(n & e & t & K1 & K2 & K3 & [K4|[K4 K5]])]; [left; exact K| |]; right; exists n, e, t; auto 9.
Qed.
Lemma fine_del' b d (T : string -> Prop) f : NoDup (dkeys b) -> NoDup (dkeys d) -> fine b d T -> fine (ddel b f) (ddel d f) T.
Proof. intros B A F. eapply fine_weak; [|apply fine_del; eassumption]. intros g [H _]. exact H. Qed.
Lemma goodo_del b d P o f : NoDup (dkeys b) -> NoDup (dkeys d) -> goodo b d P o -> goodo (ddel b f) (ddel d f) P (o || writes_to P f).
Proof.
  intros B A. unfold goodo. destruct o.
  - cbn [orb]. intros (g & off & t & w & es & Q & I & F). exists g, off, t, w, es. split; [exact Q|]. split; [exact I|]. apply fine_del'; assumption.
  - cbn [orb]. destruct P as [w es|w n e es|w n e v es|w n e es|g off t w es|[u|x]]; cbn [ConcurrentFacts.good writes_to].
    + intros (I & F). split; [exact I|apply fine_del'; assumption].
    + intros (I & J & F). split; [exact I|split; [exact J|apply fine_del'; assumption]].
    + intros (I & J & F). split; [exact I|split; [exact J|apply fine_del'; assumption]].
    + intros (I & J & F). split; [exact I|split; [exact J|apply fine_del'; assumption]].
    + intros (I & (n & e & p & J & K & L & M & R) & F). destruct (eqb_spec g f) as [Q|Q].
      * exists g, off, t, w, es. split; [reflexivity|]. split; [exact I|]. eapply fine_weak; [|apply fine_del; eassumption]. intros h [H1 H2]. congruence.
      * split; [exact I|]. split; [|apply fine_del'; assumption]. exists n, e, p. rewrite dget_ddel_other by exact Q. auto 9.
    + apply fine_del'; assumption.
    + intros (f0 & F). exists f0. apply fine_del'; assumption.
Qed.
(* the execute command removes no file, makes no other than its own, and keeps the directory tidy *)
Lemma step_keys d P d' P' : step (d, P) (d', P') -> d' = d \/ exists f t, d' = dset d f t.
Proof.
  intros H. inversion H; subst; [left; reflexivity|left; reflexivity|left; reflexivity|left; reflexivity| |right; eauto|left; reflexivity].
  match goal with E : _ = (d', P') |- _ => revert E end. destruct (execute_experiment ha hv hd data run w ws e) as [w1 [l|x]]; [|intros Q; injection Q as <- <-; left; reflexivity]. destruct (dget (pipelines ws) (e_pipeline e)) as [r|]; [|intros Q; injection Q as <- <-; left; reflexivity].
  cbv zeta. intros Q. injection Q as <- _. right. eexists; eexists; reflexivity.
Qed.
Lemma step_keeps d P d' P' f : step (d, P) (d', P') -> dget d f <> None -> dget d' f <> None.
Proof. intros H K. destruct (step_keys _ _ _ _ H) as [->|(g & t & ->)]; [exact K|]. rewrite dget_dset. destruct (eqb_spec f g); [discriminate|exact K]. Qed.
Lemma step_NoDup d P d' P' : step (d, P) (d', P') -> NoDup (dkeys d) -> NoDup (dkeys d').
Proof. intros H K. destruct (step_keys _ _ _ _ H) as [->|(g & t & ->)]; [exact K|]. apply NoDup_dset, K. Qed.

(* the state of the clear command: what it has listed, and what it has removed of that *)
Definition listed (vs : list Z) : Prop := NoDup vs /\ (forall u, In (vN u) (dkeys d0) -> In u vs) /\ forall u, In u vs -> In (vN u) (dkeys d0) \/ u = second (c N).
Definition cleared b d (C : cproc) : Prop :=
  match C with
  | CList n => n = N /\ b = d0
  | CRemove n vs k => n = N /\ (exists l, List.length l = k /\ listed (l ++ vs)) /\ (forall u, In u vs -> dget d (vN u) <> None) /\ forall u, dget b (vN u) <> None -> In u vs
  | CEnded (Ok k) => (exists l, List.length l = k /\ listed l) /\ forall u, dget b (vN u) = None
  | CEnded (Err _) => False
  end.
Definition xinv (s : state) : Prop := let '(d, P, o, C) := s in exists b,
  NoDup (dkeys b) /\ NoDup (dkeys d) /\ goodo b d P o /\ cleared b d C /\ (forall f, dget b f = dget d0 f \/ (exists u, f = vN u) /\ dget b f = None) /\ forall f, ~ own f -> dget d f = dget b f.
Lemma own_dec f : own f \/ ~ own f.
Proof.
  unfold ConcurrentFacts.own. generalize (experiments ws) as l. intros l. destruct (existsb (fun x => eqb f (version_file (fst x) (second (c (fst x))))) l) eqn:B.
  - left. apply existsb_exists in B. destruct B as ([n e] & I & B). cbn [fst] in B. exists n, e. split; [exact I|]. destruct (eqb_spec f (version_file n (second (c n)))) as [Q|Q]; [exact Q|discriminate B].
  - right. intros (n & e & I & ->). assert (Q : existsb (fun x => eqb (version_file n (second (c n))) (version_file (fst x) (second (c (fst x))))) l = true); [|congruence]. apply existsb_exists. exists (n, e). split; [exact I|]. apply eqb_refl.
Qed.
(* what is left is there *)
Lemma base_there b d P o f : goodo b d P o -> (forall f, ~ own f -> dget d f = dget b f) -> dget b f <> None -> dget d f <> None.
Proof.
  intros H R K. destruct (own_dec f) as [O|O]; [|rewrite (R f O); exact K]. destruct (goodo_fine _ _ _ _ H) as (T & F). destruct (F f O) as [->|(n & e & t & _ & _ & -> & _)]; [exact K|discriminate].
Qed.
Lemma cleared_frame b d d' C : (forall f, dget d f <> None -> dget d' f <> None) -> cleared b d C -> cleared b d' C.
Proof. intros S. destruct C as [n|n vs k|[k|x]]; cbn [cleared]; auto. intros (A & B & E & F). split; [exact A|]. split; [exact B|]. split; [|exact F]. intros u I. apply S, E, I. Qed.
Hypothesis T0 : tidy ws d0.
Lemma xinv_step s s' : xs s s' -> xinv s -> xinv s'.
Proof.
  intros H. destruct H as [d P d' P' C H|d f off p q w es C Hp|d f off w es C|d P o n|d P o n v vs k Hv|d P o n v vs k Hv|d P o n k]; cbn [xinv]; intros (b & Nb & Nd & Gd & Cl & Bb & R).
  - exists b. cbn [goodo] in *. destruct (good_step ha hv hd data run listing second text_of parse ws c b force d P d' P' H Gd) as [J K]. split; [exact Nb|]. split; [eapply step_NoDup; eassumption|]. split; [exact J|]. split; [eapply cleared_frame; [|exact Cl]; intros f; eapply step_keeps, H|]. split; [exact Bb|]. intros f O. rewrite (K f O). apply R, O.
  - exists b. split; [exact Nb|]. split; [exact Nd|]. split; [|auto]. destruct Gd as (f1 & o1 & t1 & w1 & es1 & Q & I & F). injection Q as <- <- <- <- <-. cbn [goodo]. repeat eexists; [exact I|exact F].
  - exists b. split; [exact Nb|]. split; [exact Nd|]. split; [|auto]. destruct Gd as (f1 & o1 & t1 & w1 & es1 & Q & I & F). injection Q as <- <- <- <- <-. cbn [goodo ConcurrentFacts.good]. auto.
  - exists b. destruct Cl as [-> ->]. split; [exact Nb|]. split; [exact Nd|]. split; [exact Gd|]. split; [|auto].
    assert (OK : forall f, In f (dkeys d) -> In f (dkeys d0) \/ own f). { intros f I. destruct (own_dec f) as [O|O]; [right; exact O|left]. apply key_dget. rewrite <- (R f O). apply key_dget, I. }
    assert (Td : tidy ws d). { split; [exact Nd|]. intros n e f E I ST. destruct (OK f I) as [J|(m & e' & _ & ->)]; [destruct T0 as [_ S]; exact (S n e f E J ST)|]. revert ST. apply version_never_stray. }
    destruct (versions_of listing HL ws d N eN Td EN) as (vs & -> & NF & V). cbn [cleared]. split; [reflexivity|]. split; [|split].
    + exists []. split; [reflexivity|]. split; [|split].
      * clear - NF. induction NF as [|x l S IH F]; [constructor|]. constructor; [|exact IH]. intros I. rewrite Forall_forall in F. specialize (F x I). lia.
      * intros u I. apply V, key_dget. eapply base_there; [exact Gd|exact R|]. apply key_dget, I.
      * intros u I. apply V in I. destruct (OK _ I) as [J|(m & e' & _ & Q)]; [left; exact J|]. apply version_inj in Q. destruct Q as [<- ->]. right. reflexivity.
    + intros u I. apply key_dget, V, I.
    + intros u I. apply V, key_dget. eapply base_there; eassumption.
  - destruct Cl as (-> & (l & L & Li) & E & F). exists (ddel b (vN v)). split; [apply NoDup_ddel, Nb|]. split; [apply NoDup_ddel, Nd|]. split; [apply goodo_del; assumption|].
    assert (NI : ~ In v vs). { destruct Li as (ND & _). apply NoDup_remove_2 in ND. intros I. apply ND, in_or_app. right. exact I. }
    split; [|split].
    + cbn [cleared]. split; [reflexivity|]. split; [exists (l ++ [v]); split; [rewrite app_length, L; cbn; lia|rewrite <- app_assoc; exact Li]|]. split.
      * intros u I. rewrite dget_ddel_other; [apply E; right; exact I|]. intros Q. apply version_inj in Q. destruct Q as [_ ->]. contradiction.
      * intros u. rewrite dget_ddel by exact Nb. destruct (eqb_spec (vN u) (vN v)) as [Q|Q]; [intros K; contradiction|]. intros K. destruct (F u K) as [->|I]; [contradiction Q; reflexivity|exact I].
    + intros f. rewrite dget_ddel by exact Nb. destruct (eqb_spec f (vN v)) as [->|Q]; [right; split; [exists v; reflexivity|reflexivity]|apply Bb].
    + intros f O. rewrite !dget_ddel by assumption. destruct (eqb f (vN v)); [reflexivity|apply R, O].
  - destruct Cl as (-> & _ & E & _). exfalso. exact (E v (or_introl eq_refl) Hv).
  - destruct Cl as (-> & (l & L & Li) & E & F). exists b. split; [exact Nb|]. split; [exact Nd|]. split; [exact Gd|]. split; [|auto]. cbn [cleared]. rewrite app_nil_r in Li. split; [exists l; auto|]. intros u. destruct (dget b (vN u)) as [t|] eqn:K; [|reflexivity]. exfalso. refine (F u _). rewrite K. discriminate.
Qed.
Lemma xinv_all s s' : meanwhile ha hv hd data run listing second text_of parse c force ws s s' -> xinv s -> xinv s'.
Proof. intros H. induction H as [s|s s1 s2 S H IH]; [auto|]. intros I. apply IH. eapply xinv_step; eassumption. Qed.
Lemma xinv_start w name : xinv (d0, start w ws name, false, CList N).
Proof. exists d0. destruct T0 as [A _]. split; [exact A|]. split; [exact A|]. split; [apply good_start|]. cbn [cleared]. auto. Qed.
End Facts.
