(* Proofs about execute commands that run at the same time: the newest results. *)
From Coq Require Import Sorting.Sorted.
From Verif Require Import Base PyDict PyDictFacts PyStr PyStrFacts Variables VariableSpec Workspace WorkspaceSpec WorkspaceFacts PropsWorkspace JsonText Execute ExecuteSpec ExecuteFacts ExecuteMain PropsExecute Concurrent ConcurrentFacts.
Open Scope string_scope.
Open Scope list_scope.
Open Scope nat_scope.

Section Main.
Context {D G G' X : Type}.
Variables (ha : algorithm -> string) (hv : dict string scalar -> string) (hd : D -> string) (data : string -> res D) (run : algorithm -> D -> res G).
Variables (listing : dir ustr -> list string) (second : X -> Z) (text_of : X -> aref -> @result G -> res ustr) (parse : ustr -> res (@result G')).
Hypothesis HL : lists listing.
Variables (w : world) (ws : workspace).
Hypothesis HU : unshared w ws.
Variable d0 : dir ustr.
Hypothesis T0 : tidy ws d0.
Notation exps := (experiments ws).
Notation exec := (execute_experiment ha hv hd data run).
Notation step := (pstep ha hv hd data run listing second text_of parse).
Notation made := (made ha hv hd data run text_of w ws).
Notation last_of := (latest listing parse).
Notation current := (up_to_date ha hv hd data w ws).
Notation vf c n := (version_file n (second (c n))).
Implicit Types (d : dir ustr) (c : string -> X) (O : list string).

(* the process is through with the experiment n *)
Definition past (P : proc) (n : string) : Prop :=
  match P with
  | PLoop _ es | PWriting _ _ _ _ es => ~ In n (map fst es)
  | PListed _ m _ es | PPicked _ m _ _ es | PRun _ m _ es => ~ In n (m :: map fst es)
  | PEnded (Ok _) => True
  | PEnded (Err _) => False
  end.
Definition busy (P : proc) : Prop := match P with PWriting _ _ _ _ _ | PEnded (Err _) => True | _ => False end.
Definition at_world (P : proc) : Prop :=
  match P with
  | PLoop w1 es | PWriting _ _ _ w1 es => w1 = w /\ known ws es
  | PListed w1 n e es | PPicked w1 n e _ es | PRun w1 n e es => w1 = w /\ dget exps n = Some e /\ known ws es
  | PEnded _ => True
  end.
Definition skipped (force : bool) O' n e : Prop := force = false /\ (In n O' \/ exists l, last_of d0 n = Ok l /\ current e l).
(* O are the experiments for which the process has opened a file, O' those of the other process *)
Record pinv c force O O' d (P : proc) : Prop := mkPinv {
  pi_same : forall n e, dget exps n = Some e -> ~ In n O -> dget d (vf c n) = dget d0 (vf c n);
  pi_file : forall n e, dget exps n = Some e -> In n O -> (exists t, dget d (vf c n) = Some t /\ made c n e t) \/ (exists off q w1 es, P = PWriting (vf c n) off q w1 es) \/ exists x, P = PEnded (Err x);
  pi_past : forall n e, dget exps n = Some e -> past P n -> In n O \/ skipped force O' n e;
  pi_at : at_world P;
  pi_pick : match P with PPicked _ n _ v _ => In (version_file n v) (dkeys d) /\ forall u, In (version_file n u) (dkeys d0) -> Z.le u v | _ => True end;
  pi_write : match P with PWriting f off t _ _ => exists n e p, dget exps n = Some e /\ f = vf c n /\ In n O /\ dget d f = Some p /\ off = List.length p /\ made c n e (p ++ t) | _ => True end }.

Lemma skipped_more force O' O'' n e : incl O' O'' -> skipped force O' n e -> skipped force O'' n e.
Proof. intros I (F & [H|H]); (split; [exact F|]); [left; apply I, H|right; exact H]. Qed.
Lemma pinv_frame c force O O' O'' d d' P : incl O' O'' -> incl (dkeys d) (dkeys d') -> (forall n e, dget exps n = Some e -> dget d' (vf c n) = dget d (vf c n)) -> pinv c force O O' d P -> pinv c force O O'' d' P.
Proof.
  intros I J S [A B C E F H]. split.
  - intros n e K N. rewrite (S n e K). eapply A; eassumption.
  - intros n e K N. rewrite (S n e K). eapply B; eassumption.
  - intros n e K N. destruct (C n e K N) as [Q|Q]; [left; exact Q|right; eapply skipped_more; eassumption].
  - exact E.
  - destruct P; try exact Logic.I. destruct F as [F1 F2]. split; [apply J, F1|exact F2].
  - destruct P; try exact Logic.I. destruct H as (n & e & p & K & -> & Q). exists n, e, p. rewrite (S n e K). auto.
Qed.
(* a step that only looks *)
Lemma pinv_look c force O O' d P P' : pinv c force O O' d P -> ~ busy P -> at_world P' ->
  match P' with PPicked _ n _ v _ => In (version_file n v) (dkeys d) /\ forall u, In (version_file n u) (dkeys d0) -> Z.le u v | PWriting _ _ _ _ _ => False | _ => True end ->
  (forall n e, dget exps n = Some e -> past P' n -> past P n \/ In n O \/ skipped force O' n e) -> pinv c force O O' d P'.
Proof.
  intros [A B C E F H] N AW PK PA. split.
  - exact A.
  - intros n e K I. destruct (B n e K I) as [Q|[(off & q & w1 & es & ->)|(x & ->)]]; [left; exact Q|exfalso; apply N; exact Logic.I|exfalso; apply N; exact Logic.I].
  - intros n e K Q. destruct (PA n e K Q) as [Q'|Q']; [eapply C; eassumption|exact Q'].
  - exact AW.
  - destruct P'; try exact Logic.I. exact PK.
  - destruct P'; try exact Logic.I. destruct PK.
Qed.
Lemma pinv_checked c force O O' d P n e es b : pinv c force O O' d P -> ~ busy P -> dget exps n = Some e -> known ws es -> (forall m, ~ In m (n :: map fst es) -> past P m) ->
  (b = Ok false -> force = false -> In n O \/ skipped force O' n e) -> pinv c force O O' d (checked force w n e es b).
Proof.
  intros V N E K PA SK. eapply pinv_look; [exact V|exact N| | |]; unfold checked; destruct (caught b) as [b'|x] eqn:C; try exact Logic.I.
  - destruct (negb b' && negb force); cbn [at_world]; auto.
  - destruct (negb b' && negb force); exact Logic.I.
  - intros m e' E' Q. destruct (negb b' && negb force) eqn:B; cbn [past] in Q.
    + destruct (string_dec n m) as [<-|NM]; [|left; apply PA; intros [R|R]; contradiction]. right. rewrite E in E'. injection E' as <-. apply andb_true_iff in B. destruct B as [B1 B2]. apply negb_true_iff in B1, B2. apply SK; [|exact B2]. subst b'. unfold caught in C. destruct b as [b|[]]; congruence.
    + left. apply PA, Q.
  - intros m e' E' [].
Qed.
Lemma vf_neq c n m : n <> m -> vf c n <> vf c m.
Proof. intros N Q. apply version_inj in Q. destruct Q; contradiction. Qed.
Lemma pinv_step c force O O' d P d1 P1 : step c force ws (d, P) (d1, P1) -> pinv c force O O' d P -> tidy ws d -> incl (dkeys d0) (dkeys d) ->
  (forall n e, dget exps n = Some e -> ~ In n O -> ~ In n O' -> agree d0 d n) ->
  exists O1, incl O O1 /\ pinv c force O1 O' d1 P1 /\ (forall f, (forall n e, dget exps n = Some e -> f <> vf c n) -> dget d1 f = dget d f) /\ tidy ws d1 /\ incl (dkeys d) (dkeys d1).
Proof.
  intros H V T I0 AG. assert (W := pi_at _ _ _ _ _ _ V). inversion H; subst; cbn [at_world] in W.
  - exists O. split; [apply incl_refl|]. split; [|repeat split; auto; [apply T|apply T|apply incl_refl]]. eapply pinv_look; [exact V|intros []|exact Logic.I|exact Logic.I|]. intros n e E _. left. intros [].
  - exists O. split; [apply incl_refl|]. split; [|repeat split; auto; [apply T|apply T|apply incl_refl]]. destruct W as (-> & K). assert (K' : known ws es) by (intros m e' J; apply K; right; exact J). assert (En : dget exps n = Some e) by (apply K; left; reflexivity).
    destruct (load_versions (listing d1) n) as [[|v vs]|x]; [|eapply pinv_look; [exact V|intros []|cbn [at_world]; auto|exact Logic.I|intros m e' _ Q; left; exact Q]|]; (eapply pinv_checked; [exact V|intros []|exact En|exact K'|intros m Q; exact Q|discriminate]).
  - exists O. split; [apply incl_refl|]. split; [|repeat split; auto; [apply T|apply T|apply incl_refl]]. destruct W as (-> & En & K').
    destruct (versions_of listing HL ws d1 n e T En) as (vs & V1 & V2 & V3). rewrite V1. destruct vs as [|v vs]; [eapply pinv_checked; [exact V|intros []|exact En|exact K'|intros m Q; exact Q|discriminate]|].
    eapply pinv_look; [exact V|intros []|cbn [at_world]; auto| |intros m e' _ Q; left; exact Q]. split; [apply V3; left; reflexivity|]. intros u Hu. apply I0, V3 in Hu. inversion V2 as [|? ? _ F]; subst. rewrite Forall_forall in F. destruct Hu as [->|Hu]; [lia|]. specialize (F u Hu). lia.
  - exists O. split; [apply incl_refl|]. split; [|repeat split; auto; [apply T|apply T|apply incl_refl]]. destruct W as (-> & En & K'). assert (PK := pi_pick _ _ _ _ _ _ V). cbn in PK. destruct PK as [PK1 PK2].
    destruct (rbind (read_file d1 (version_file n v)) parse) as [l|x] eqn:R; [|eapply pinv_checked; [exact V|intros []|exact En|exact K'|intros m Q; exact Q|discriminate]].
    assert (W := check_world ha hv hd data w ws HU e l). destruct (check_latest ha hv hd data w ws e l) as [w1 b] eqn:CL. cbn [fst] in W. subst w1. eapply pinv_checked; [exact V|intros []|exact En|exact K'|intros m Q; exact Q|]. intros -> F.
    destruct (in_dec string_dec n O) as [J|J]; [left; exact J|]. right. split; [exact F|]. destruct (in_dec string_dec n O') as [J'|J']; [left; exact J'|]. right. exists l. specialize (AG n e En J J').
    split; [|apply (check_up_to_date ha hv hd data w ws); rewrite CL; reflexivity]. destruct (versions_of listing HL ws d0 n e T0 En) as (vs & V1 & V2 & V3). unfold latest, load_latest. rewrite V1. cbn [rbind negb].
    assert (Iv : In v vs). { apply V3, key_dget. rewrite <- (AG v). apply key_dget, PK1. } destruct vs as [|u vs]; [destruct Iv|]. assert (Q : u = v). { assert (L := PK2 u (proj1 (V3 u) (or_introl eq_refl))). inversion V2 as [|? ? _ FF]; subst. rewrite Forall_forall in FF. destruct Iv as [->|Iv]; [reflexivity|]. specialize (FF v Iv). lia. }
    subst u. unfold read_file in R |- *. rewrite <- (AG v). exact R.
  - destruct W as (-> & En & K'). assert (W := exec_world ha hv hd data run w ws HU e). match goal with E : _ = (d1, P1) |- _ => revert E end. destruct (exec w ws e) as [w1 [l|x]] eqn:E; cbn [fst] in W; subst w1.
    2:{ intros Q. injection Q as <- <-. exists O. split; [apply incl_refl|]. split; [|repeat split; auto; [apply T|apply T|apply incl_refl]]. eapply pinv_look; [exact V|intros []|exact Logic.I|exact Logic.I|intros m e' _ []]. }
    destruct (dget (pipelines ws) (e_pipeline e)) as [r|] eqn:R.
    2:{ intros Q. injection Q as <- <-. exists O. split; [apply incl_refl|]. split; [|repeat split; auto; [apply T|apply T|apply incl_refl]]. eapply pinv_look; [exact V|intros []|exact Logic.I|exact Logic.I|intros m e' _ []]. }
    intros Q. injection Q as <- <-. cbn [apply_op]. exists (n :: O). split; [intros m J; right; exact J|]. split; [|split; [|split]].
    + destruct V as [A B C _ _ _]. split.
      * intros m e' E' N. rewrite dget_dset, eqb_neq; [eapply A; [exact E'|intros J; apply N; right; exact J]|]. apply vf_neq. intros ->. apply N. left; reflexivity.
      * intros m e' E' J. destruct (string_dec m n) as [->|NM].
        -- right. destruct (text_of (c n) r l) as [t|x]; [left; exists 0, t, w, es; reflexivity|right; exists x; reflexivity].
        -- destruct J as [J|J]; [exfalso; apply NM; symmetry; exact J|]. rewrite dget_dset, eqb_neq by (apply vf_neq; exact NM). destruct (B m e' E' J) as [Q|[(o & q & w1 & es' & Q)|(x & Q)]]; [left; exact Q|discriminate Q|discriminate Q].
      * intros m e' E' Q. destruct (string_dec m n) as [->|NM]; [left; left; reflexivity|]. assert (PQ : past (PRun w n e es) m). { destruct (text_of (c n) r l); cbn [past] in Q |- *; [|destruct Q]. intros [J|J]; [apply NM; symmetry; exact J|contradiction]. }
        destruct (C m e' E' PQ) as [J|J]; [left; right; exact J|right; exact J].
      * destruct (text_of (c n) r l); cbn [at_world]; auto.
      * destruct (text_of (c n) r l); exact Logic.I.
      * destruct (text_of (c n) r l) as [t|x] eqn:TX; [|exact Logic.I]. exists n, e, []. rewrite dget_dset_same. repeat (split; [first [reflexivity|exact En|left; reflexivity]|]). exists l, r. auto.
    + intros f N. rewrite dget_dset, eqb_neq; [reflexivity|]. exact (N n e En).
    + eapply tidy_set; [exact T|exists n, (second (c n)); reflexivity| |]; [intros g; apply In_dkeys_dset|apply NoDup_dset].
    + intros g J. apply In_dkeys_dset. right; exact J.
  - destruct W as (-> & K'). assert (PW := pi_write _ _ _ _ _ _ V). cbn in PW. destruct PW as (n & e & p0 & En & -> & J & C0 & -> & M). assert (Cn : content d (vf c n) = p0) by (unfold content; rewrite C0; reflexivity). rewrite Cn, overwrite_end.
    exists O. split; [apply incl_refl|]. split; [|split; [|split]].
    + destruct V as [A B C _ _ _]. split.
      * intros m e' E' N. rewrite dget_dset, eqb_neq; [eapply A; eassumption|]. apply vf_neq. intros ->. contradiction.
      * intros m e' E' Jm. destruct (string_dec m n) as [->|NM]; [right; left; eauto|]. rewrite dget_dset, eqb_neq by (apply vf_neq; exact NM). destruct (B m e' E' Jm) as [Q|[(o & q' & w1 & es' & Q)|(x & Q)]]; [left; exact Q| |discriminate Q]. injection Q as Q _ _ _ _. apply version_inj in Q. destruct Q as [Q _]. exfalso. apply NM. symmetry; exact Q.
      * exact C.
      * cbn [at_world]. auto.
      * exact Logic.I.
      * exists n, e, (p0 ++ p). rewrite dget_dset_same, app_length, <- app_assoc. auto 9.
    + intros f N. rewrite dget_dset, eqb_neq; [reflexivity|]. exact (N n e En).
    + eapply tidy_set; [exact T|exists n, (second (c n)); reflexivity| |]; [intros g; apply In_dkeys_dset|apply NoDup_dset].
    + intros g Jg. apply In_dkeys_dset. right; exact Jg.
  - exists O. split; [apply incl_refl|]. split; [|repeat split; auto; [apply T|apply T|apply incl_refl]]. destruct W as (-> & K'). assert (PW := pi_write _ _ _ _ _ _ V). cbn in PW. destruct PW as (n & e & p0 & En & -> & J & C0 & -> & M). rewrite app_nil_r in M.
    destruct V as [A B C _ _ _]. split; [exact A| |exact C|cbn [at_world]; auto|exact Logic.I|exact Logic.I].
    intros m e' E' Jm. destruct (B m e' E' Jm) as [Q|[(o & q' & w1 & es' & Q)|(x & Q)]]; [left; exact Q| |discriminate Q]. injection Q as Q _ _ _ _. apply version_inj in Q. destruct Q as [<- _]. rewrite En in E'. injection E' as <-. left. exists p0. auto.
Qed.

(* ---- both ---- *)
Variables c1 c2 : string -> X.
Variables force1 force2 : bool.
Hypothesis apart : forall n, In n (dkeys exps) -> second (c1 n) <> second (c2 n).
Definition both (s : dir ustr * proc * proc) : Prop := let '(d, P, Q) := s in exists O1 O2, pinv c1 force1 O1 O2 d P /\ pinv c2 force2 O2 O1 d Q /\ tidy ws d /\ incl (dkeys d0) (dkeys d) /\
  forall f, (forall n e, dget exps n = Some e -> f <> vf c1 n /\ f <> vf c2 n) -> dget d f = dget d0 f.
Lemma vf_apart n e m e' : dget exps n = Some e -> dget exps m = Some e' -> vf c1 n <> vf c2 m.
Proof. intros E E' Q. apply version_inj in Q. destruct Q as [-> Q]. apply (apart m); [|exact Q]. apply dmem_In, dmem_get. eauto. Qed.
Lemma both_agree O1 O2 d P Q n e : pinv c1 force1 O1 O2 d P -> pinv c2 force2 O2 O1 d Q -> (forall f, (forall n e, dget exps n = Some e -> f <> vf c1 n /\ f <> vf c2 n) -> dget d f = dget d0 f) ->
  dget exps n = Some e -> ~ In n O1 -> ~ In n O2 -> agree d0 d n.
Proof.
  intros V1 V2 R E N1 N2 t. destruct (Z.eq_dec t (second (c1 n))) as [->|M1]; [eapply pi_same; eassumption|]. destruct (Z.eq_dec t (second (c2 n))) as [->|M2]; [eapply pi_same; eassumption|]. apply R. intros m e' E'. split; intros J; apply version_inj in J; destruct J as [<- J]; contradiction.
Qed.
Lemma both_step s s' : together ha hv hd data run listing second text_of parse c1 c2 force1 force2 ws s s' -> both s -> both s'.
Proof.
  intros H. induction H as [s|d P Q d' P' s S H IH|d P Q d' Q' s S H IH]; [auto| |]; intros (O1 & O2 & V1 & V2 & T & I & R); apply IH.
  - destruct (pinv_step c1 force1 O1 O2 d P d' P' S V1 T I) as (O & J & V & F & T' & I'). { intros n e E N1 N2. eapply both_agree; eassumption. }
    exists O, O2. split; [exact V|]. split; [eapply pinv_frame; [exact J|exact I'| |exact V2]; intros n e E; apply F; intros m e' E' Z; exact (vf_apart m e' n e E' E (eq_sym Z))|]. split; [exact T'|]. split; [intros f K; apply I', I, K|].
    intros f K. rewrite F by (intros n e E; apply (K n e E)). apply R, K.
  - destruct (pinv_step c2 force2 O2 O1 d Q d' Q' S V2 T I) as (O & J & V & F & T' & I'). { intros n e E N2 N1. eapply both_agree; eassumption. }
    exists O1, O. split; [eapply pinv_frame; [exact J|exact I'| |exact V1]; intros n e E; apply F; intros m e' E' Z; exact (vf_apart n e m e' E E' Z)|]. split; [exact V|]. split; [exact T'|]. split; [intros f K; apply I', I, K|].
    intros f K. rewrite F by (intros n e E; apply (K n e E)). apply R, K.
Qed.
Hypothesis ND : NoDup (dkeys exps).
Lemma pinv_start c force name : name = None -> pinv c force [] [] d0 (start w ws name).
Proof.
  intros ->. cbn [start]. split; auto.
  - intros n e _ [].
  - intros n e E Q. exfalso. apply Q. apply dget_In in E. exact (in_map fst _ _ E).
  - split; [reflexivity|]. intros n e J. apply NoDup_dget; assumption.
Qed.
Lemma both_start : both (d0, start w ws None, start w ws None).
Proof. exists [], []. split; [apply pinv_start; reflexivity|]. split; [apply pinv_start; reflexivity|]. split; [exact T0|]. split; [apply incl_refl|reflexivity]. Qed.

(* ---- no errors of the other process ---- *)
Variable keep : G -> G'.
Hypothesis VA : valued w ws.
Definition failed (P : proc) : Prop := match P with PEnded (Err _) => True | _ => False end.
Lemma checked_ok force n e es b x : caught b = Ok x -> ~ failed (checked force w n e es b).
Proof. intros C. unfold checked. rewrite C. destruct (negb x && negb force); intros []. Qed.
Lemma opened_read c force O O' d P n e t : pinv c force O O' d P -> ~ failed P -> storable ha hv hd data run text_of parse keep c w ws -> dget exps n = Some e -> In n O -> dget d (vf c n) = Some t ->
  parse t = Err ValueError \/ exists l, exec w ws e = (w, Ok l) /\ parse t = Ok (kept keep l).
Proof.
  intros V NF S E I C. destruct (pi_file _ _ _ _ _ _ V n e E I) as [(t' & C' & M)|[(off & q & w1 & es & ->)|(x & ->)]]; [| |exfalso; apply NF; exact Logic.I].
  - rewrite C in C'. injection C' as <-. destruct (made_reads ha hv hd data run text_of parse keep c w ws n e t S E M) as (l & X1 & R & _). right. exists l. auto.
  - assert (PW := pi_write _ _ _ _ _ _ V). cbn in PW. destruct PW as (m & e' & p & E' & Q & _ & C' & _ & M). apply version_inj in Q. destruct Q as [<- _]. rewrite E in E'. injection E' as <-. rewrite C in C'. injection C' as <-.
    destruct (made_reads ha hv hd data run text_of parse keep c w ws n e _ S E M) as (l & X1 & R & TR). destruct q as [|x q]; [right; exists l; rewrite app_nil_r in R; auto|left]. eapply TR; [reflexivity|discriminate].
Qed.
Lemma no_fail c c' force force' O O' d P Q d1 P1 : step c force ws (d, P) (d1, P1) -> pinv c force O O' d P -> pinv c' force' O' O d Q -> ~ failed P -> ~ failed Q -> tidy ws d ->
  (forall f, (forall n e, dget exps n = Some e -> f <> vf c n /\ f <> vf c' n) -> dget d f = dget d0 f) ->
  storable ha hv hd data run text_of parse keep c w ws -> storable ha hv hd data run text_of parse keep c' w ws -> (forall n e, dget exps n = Some e -> exists t, made c n e t) ->
  (forall n e, dget exps n = Some e -> exists b, caught (snd (needs_text ha hv hd data listing parse w ws d0 n)) = Ok b) -> ~ failed P1.
Proof.
  intros H V V' NP NQ T R S S' CAN CH. assert (W := pi_at _ _ _ _ _ _ V). inversion H; subst; cbn [at_world] in W.
  - intros [].
  - destruct W as (-> & K). assert (En : dget exps n = Some e) by (apply K; left; reflexivity). destruct (versions_of listing HL ws d1 n e T En) as (vs & V1 & _). rewrite V1. destruct vs as [|v vs]; [eapply checked_ok; reflexivity|intros []].
  - destruct W as (-> & En & K). destruct (versions_of listing HL ws d1 n e T En) as (vs & V1 & _). rewrite V1. destruct vs as [|v vs]; [eapply checked_ok; reflexivity|intros []].
  - destruct W as (-> & En & K). assert (PK := pi_pick _ _ _ _ _ _ V). cbn in PK. destruct PK as [PK1 PK2]. apply key_dget in PK1. destruct (dget d1 (version_file n v)) as [t|] eqn:C; [|contradiction]. unfold read_file. rewrite C. cbn [rbind].
    assert (FR : forall l, exec w ws e = (w, Ok l) -> check_latest ha hv hd data w ws e (kept keep l) = (w, Ok false)). { intros l X1. apply (check_fresh ha hv hd data run w ws HU keep e l X1). intros r a. eapply VA; exact En. }
    assert (OP : (parse t = Err ValueError \/ exists l, exec w ws e = (w, Ok l) /\ parse t = Ok (kept keep l)) -> ~ failed (match parse t with Ok l => let (w1, b) := check_latest ha hv hd data w ws e l in checked force w1 n e es b | Err x => checked force w n e es (Err x) end)).
    { intros [->|(l & X1 & ->)]; [eapply checked_ok; reflexivity|]. rewrite (FR l X1). eapply checked_ok; reflexivity. }
    assert (SM : dget d1 (version_file n v) = dget d0 (version_file n v) -> ~ failed (match parse t with Ok l => let (w1, b) := check_latest ha hv hd data w ws e l in checked force w1 n e es b | Err x => checked force w n e es (Err x) end)).
    { intros Q0. rewrite C in Q0. destruct (CH n e En) as (b & B). unfold needs_text in B. rewrite En in B. destruct (versions_of listing HL ws d0 n e T0 En) as (vs & V1 & V2 & V3). unfold latest, load_latest in B. rewrite V1 in B. cbn [rbind negb] in B.
      assert (Iv : In v vs) by (apply V3, key_dget; rewrite <- Q0; discriminate). destruct vs as [|u vs]; [destruct Iv|]. assert (Qu : u = v). { assert (L := PK2 u (proj1 (V3 u) (or_introl eq_refl))). inversion V2 as [|? ? _ FF]; subst. rewrite Forall_forall in FF. destruct Iv as [->|Iv]; [reflexivity|]. specialize (FF v Iv). lia. }
      subst u. unfold read_file in B. rewrite <- Q0 in B. cbn [rbind] in B. destruct (parse t) as [l|x]; [|eapply checked_ok; exact B]. assert (W := check_world ha hv hd data w ws HU e l). destruct (check_latest ha hv hd data w ws e l) as [w1 b1]. cbn [fst snd] in *. subst w1. eapply checked_ok; exact B. }
    destruct (Z.eq_dec v (second (c n))) as [->|M1].
    { destruct (in_dec string_dec n O) as [J|J]; [apply OP; eapply opened_read; [exact V|exact NP|exact S|exact En|exact J|exact C]|apply SM; eapply pi_same; [exact V|exact En|exact J]]. }
    destruct (Z.eq_dec v (second (c' n))) as [->|M2].
    { destruct (in_dec string_dec n O') as [J|J]; [apply OP; eapply opened_read; [exact V'|exact NQ|exact S'|exact En|exact J|exact C]|apply SM; eapply pi_same; [exact V'|exact En|exact J]]. }
    apply SM, R. intros m e' E'. split; intros J; apply version_inj in J; destruct J as [<- J]; contradiction.
  - destruct W as (-> & En & K). destruct (CAN n e En) as (t & l & r & X1 & X2 & X3). match goal with E : _ = (d1, P1) |- _ => revert E end. rewrite X1, X2, X3. intros Q1. injection Q1 as <- <-. intros [].
  - intros [].
  - intros [].
Qed.
Lemma both_ok s s' : storable ha hv hd data run text_of parse keep c1 w ws -> storable ha hv hd data run text_of parse keep c2 w ws -> (forall n e, dget exps n = Some e -> (exists t, made c1 n e t) /\ exists t, made c2 n e t) ->
  (forall n e, dget exps n = Some e -> exists b, caught (snd (needs_text ha hv hd data listing parse w ws d0 n)) = Ok b) ->
  together ha hv hd data run listing second text_of parse c1 c2 force1 force2 ws s s' -> let '(d, P, Q) := s in let '(d', P', Q') := s' in both s -> ~ failed P -> ~ failed Q -> ~ failed P' /\ ~ failed Q'.
Proof.
  intros S1 S2 CAN CH H. induction H as [[[d P] Q]|d P Q d' P' s S H IH|d P Q d' Q' s S H IH]; [auto| |]; destruct s as [[d2 P2] Q2]; intros B N1 N2; (apply IH; [eapply both_step; [|exact B]; first [eapply t_first; [exact S|apply t_here]|eapply t_second; [exact S|apply t_here]]| |]); try assumption; destruct B as (O1 & O2 & V1 & V2 & T & _ & R).
  - eapply (no_fail c1 c2); try eassumption. intros n e E. apply (CAN n e E).
  - eapply (no_fail c2 c1); try eassumption; [|intros n e E; apply (CAN n e E)]. intros f K. apply R. intros n e E. destruct (K n e E). auto.
Qed.
End Main.
