(* Proofs about the execute command: the loop over the experiments. *)
From Coq Require Import Sorting.Sorted.
From Verif Require Import Base PyDict PyDictFacts PyStr PyStrFacts Variables VariableSpec VariableFacts Workspace WorkspaceSpec WorkspaceFacts PropsWorkspace JsonText Execute ExecuteSpec ExecuteFacts.
Open Scope string_scope.
Open Scope list_scope.

Section Loop.
Context {D G G' X : Type}.
Variables (ha : algorithm -> string) (hv : dict string scalar -> string) (hd : D -> string) (data : string -> res D) (run : algorithm -> D -> res G).
Variables (listing : dir ustr -> list string) (second : X -> Z) (text_of : X -> aref -> @result G -> res ustr) (parse : ustr -> res (@result G')).
Hypothesis HL : lists listing.
Variables (w : world) (ws : workspace).
Hypothesis HU : unshared w ws.
Variable force : bool.
Notation exec := (execute_experiment ha hv hd data run).
Notation needs := (needs_text ha hv hd data listing parse).
Notation loop := (execute_loop ha hv hd data run listing second text_of parse).
Notation last_of := (latest listing parse).
Implicit Types d : dir ustr.

(* t is the text of the result of the experiment *)
Definition made (clock : string -> X) (n : string) (e : experiment) (t : ustr) : Prop := exists l r, exec w ws e = (w, Ok l) /\ dget (pipelines ws) (e_pipeline e) = Some r /\ text_of (clock n) r l = Ok t.
(* the experiment is skipped, or executed with this text *)
Definition entry (clock : string -> X) d (n : string) (e : experiment) (o : option ustr) : Prop := exists b, caught (snd (needs w ws d n)) = Ok b /\
  match o with None => b = false /\ force = false | Some t => (b = true \/ force = true) /\ made clock n e t end.
Fixpoint ops_of (clock : string -> X) (es : list (string * experiment)) (p : list (option ustr)) : list op :=
  match es, p with
  | (n, _) :: es, Some t :: p => save_ops (version_file n (second (clock n))) (Ok t) ++ ops_of clock es p
  | _ :: es, None :: p => ops_of clock es p
  | _, _ => []
  end.
Definition plan (clock : string -> X) d (es : list (string * experiment)) (p : list (option ustr)) : Prop := Forall2 (fun ne o => entry clock d (fst ne) (snd ne) o) es p.
Definition known (es : list (string * experiment)) : Prop := forall n e, In (n, e) es -> dget (experiments ws) n = Some e.

Lemma version_never_stray n t m : ~ stray (version_file n t) m.
Proof. intros (_ & _ & H). apply H. exists n, t. reflexivity. Qed.
Lemma tidy_set d f : tidy ws d -> (exists n u, f = version_file n u) -> forall d', (forall g, In g (dkeys d') <-> g = f \/ In g (dkeys d)) -> (NoDup (dkeys d) -> NoDup (dkeys d')) -> tidy ws d'.
Proof.
  intros (N & S) (n & u & ->) d' K ND. split; [auto|]. intros m e g E I. apply K in I. destruct I as [->|I]; [apply version_never_stray|eapply S; eassumption].
Qed.
Lemma tidy_killed d n s t d' : tidy ws d -> killed d (save_ops (version_file n s) (Ok t)) d' -> tidy ws d'.
Proof. intros T K. apply save_killed in K. destruct K as [->|(p & q & _ & _ & K & ND)]; [exact T|]. eapply tidy_set; eauto. Qed.
Lemma tidy_saved d n s t : tidy ws d -> tidy ws (apply_ops d (save_ops (version_file n s) (Ok t))).
Proof. intros T. eapply tidy_killed; [exact T|]. apply killed_all. Qed.

(* ---- what the operations do ---- *)
Lemma ops_other clock es : forall p d d' f, killed d (ops_of clock es p) d' -> (forall n, In n (map fst es) -> f <> version_file n (second (clock n))) -> dget d' f = dget d f.
Proof.
  induction es as [|[n e] es IH]; intros p d d' f K N; [apply killed_nil in K; subst; reflexivity|]. destruct p as [|[t|] p]; cbn [ops_of] in K.
  - apply killed_nil in K; subst; reflexivity.
  - apply killed_app in K. destruct K as [K|K].
    + apply save_killed in K. destruct K as [->|(p1 & q & _ & E & _)]; [reflexivity|]. rewrite E, eqb_neq; [reflexivity|]. apply N. left; reflexivity.
    + rewrite (IH _ _ _ _ K) by (intros m I; apply N; right; exact I). rewrite save_get, eqb_neq; [reflexivity|]. apply N. left; reflexivity.
  - apply (IH _ _ _ _ K). intros m I; apply N; right; exact I.
Qed.
Lemma ops_tidy clock es : forall p d d', tidy ws d -> killed d (ops_of clock es p) d' -> tidy ws d'.
Proof.
  induction es as [|[n e] es IH]; intros p d d' T K; [apply killed_nil in K; subst; exact T|]. destruct p as [|[t|] p]; cbn [ops_of] in K.
  - apply killed_nil in K; subst; exact T.
  - apply killed_app in K. destruct K as [K|K]; [eapply tidy_killed; eassumption|]. eapply IH; [|exact K]. apply tidy_saved. exact T.
  - eapply IH; eassumption.
Qed.
Lemma ops_agree clock es p d d' n : killed d (ops_of clock es p) d' -> ~ In n (map fst es) -> agree d d' n.
Proof. intros K N t. apply (ops_other clock es p _ _ _ K). intros m I E. apply version_inj in E. destruct E as [-> _]. contradiction. Qed.
(* after a kill every experiment has a new version that is a part of its text, or none *)
Definition partial (o o' : option ustr) : Prop := o' = None \/ exists p q, o = Some (p ++ q) /\ o' = Some p.
Lemma save_after d n s t d' : killed d (save_ops (version_file n s) (Ok t)) d' -> (exists o', partial (Some t) o' /\ after s d d' n o') /\ forall m, m <> n -> agree d d' m.
Proof.
  intros K. apply save_killed in K. destruct K as [->|(p & q & E & H & _)].
  - split; [exists None; split; [left; reflexivity|intros u; reflexivity]|intros m _ u; reflexivity].
  - split; [exists (Some p); split; [right; exists p, q; rewrite E; auto|]|].
    + intros u. rewrite H. destruct (Z.eqb_spec u s) as [->|N]; [rewrite eqb_refl; reflexivity|]. rewrite eqb_neq; [reflexivity|]. intros Q. apply version_inj in Q. destruct Q; contradiction.
    + intros m N u. rewrite H, eqb_neq; [reflexivity|]. intros Q. apply version_inj in Q. destruct Q; contradiction.
Qed.
Lemma after_agree s d d1 d' n o : agree d1 d' n -> after s d d1 n o -> after s d d' n o.
Proof. intros A B u. rewrite (A u). apply B. Qed.
Lemma agree_after s d d1 d' n o : agree d d1 n -> after s d1 d' n o -> after s d d' n o.
Proof. intros A B u. rewrite (B u), (A u). reflexivity. Qed.
Lemma ops_killed clock es : forall p d d', NoDup (map fst es) -> List.length p = List.length es -> killed d (ops_of clock es p) d' -> Forall2 (fun ne o => exists o', partial o o' /\ after (second (clock (fst ne))) d d' (fst ne) o') es p.
Proof.
  induction es as [|[n e] es IH]; intros p d d' N L K; (destruct p as [|o p]; [try discriminate L|try discriminate L]); [constructor|]. inversion N as [|? ? NI N']; subst. injection L as L. cbn [map fst] in *. destruct o as [t|]; cbn [ops_of] in K.
  - apply killed_app in K. destruct K as [K|K].
    + apply save_after in K. destruct K as [K A]. constructor; [exact K|]. clear IH N N'. revert NI p L. induction es as [|[m e'] es IH]; intros NI p L; (destruct p as [|o p]; [try discriminate L|try discriminate L]); [constructor|]. injection L as L. constructor.
      * exists None. split; [left; reflexivity|]. intros u. apply A. cbn [fst]. intros Q. apply NI. left; exact Q.
      * apply IH; [intros I; apply NI; right; exact I|exact L].
    + set (d1 := apply_ops d (save_ops (version_file n (second (clock n))) (Ok t))) in *. destruct (save_after d n _ t d1 (killed_all _ _)) as [_ A]. constructor.
      * exists (Some t). split; [right; exists t, []; rewrite app_nil_r; auto|]. eapply after_agree; [eapply ops_agree; [exact K|exact NI]|]. cbn [fst]. intros u. unfold d1. rewrite save_get. destruct (Z.eqb_spec u (second (clock n))) as [->|Q]; [rewrite eqb_refl; reflexivity|]. rewrite eqb_neq; [reflexivity|]. intros E. apply version_inj in E. destruct E; contradiction.
      * assert (R := IH p d1 d' N' L K). assert (B : forall m, In m (map fst es) -> agree d d1 m) by (intros m I; apply A; intros ->; contradiction). clear - R B. revert B. induction R as [|[m e'] o es p (o' & P & Q) R IH]; intros B; constructor.
        -- exists o'. split; [exact P|]. eapply agree_after; [|exact Q]. apply B. left; reflexivity.
        -- apply IH. intros m' I. apply B. right; exact I.
  - constructor; [|apply IH; assumption]. exists None. split; [left; reflexivity|]. cbn [fst]. apply (ops_agree clock es p); assumption.
Qed.
Lemma ops_done clock es : forall p d, NoDup (map fst es) -> List.length p = List.length es -> Forall2 (fun ne o => after (second (clock (fst ne))) d (apply_ops d (ops_of clock es p)) (fst ne) o) es p.
Proof.
  induction es as [|[n e] es IH]; intros p d N L; (destruct p as [|o p]; [try discriminate L|try discriminate L]); [constructor|]. inversion N as [|? ? NI N']; subst. injection L as L. cbn [map fst] in *. destruct o as [t|]; cbn [ops_of].
  - rewrite apply_ops_app. set (d1 := apply_ops d (save_ops (version_file n (second (clock n))) (Ok t))) in *. destruct (save_after d n _ t d1 (killed_all _ _)) as [_ A]. constructor.
    + eapply after_agree; [eapply ops_agree; [apply killed_all|exact NI]|]. cbn [fst]. intros u. unfold d1. rewrite save_get. destruct (Z.eqb_spec u (second (clock n))) as [->|Q]; [rewrite eqb_refl; reflexivity|]. rewrite eqb_neq; [reflexivity|]. intros E. apply version_inj in E. destruct E; contradiction.
    + assert (R := IH p d1 N' L). assert (B : forall m, In m (map fst es) -> agree d d1 m) by (intros m I; apply A; intros ->; contradiction). clear - R B. revert R B. generalize (apply_ops d1 (ops_of clock es p)) as d'. intros d' R. induction R as [|[m e'] o es p Q R IH]; intros B; constructor.
      * eapply agree_after; [|exact Q]. apply B. left; reflexivity.
      * apply IH. intros m' I. apply B. right; exact I.
  - constructor; [|apply IH; assumption]. cbn [fst]. apply (ops_agree clock es p); [apply killed_all|assumption].
Qed.

(* ---- the loop ---- *)
Lemma entry_agree clock d d' n e o : tidy ws d -> tidy ws d' -> dget (experiments ws) n = Some e -> agree d d' n -> entry clock d n e o -> entry clock d' n e o.
Proof. intros T T' E A H. unfold entry in *. rewrite (agree_needs ha hv hd data listing parse HL w ws d d' n e T T' E A). exact H. Qed.
Lemma agree_sym d d' n : agree d d' n -> agree d' d n.
Proof. intros A t. symmetry. apply A. Qed.
Lemma plan_agree clock d d' es p : tidy ws d -> tidy ws d' -> known es -> (forall n, In n (map fst es) -> agree d d' n) -> plan clock d es p -> plan clock d' es p.
Proof.
  intros T T' K A H. unfold plan in *. revert K A. induction H as [|[n e] o es p E H IH]; intros K A; constructor.
  - cbn [fst snd] in *. eapply entry_agree; [exact T|exact T'|apply K; left; reflexivity|apply A; left; reflexivity|exact E].
  - apply IH; [intros m e' I; apply K; right; exact I|intros m I; apply A; right; exact I].
Qed.
Lemma one_ok clock n e os : execute_one ha hv hd data run second text_of clock w ws n e = (w, (os, Ok tt)) <-> exists t, made clock n e t /\ os = save_ops (version_file n (second (clock n))) (Ok t).
Proof.
  unfold execute_one. assert (W := exec_world ha hv hd data run w ws HU e). destruct (exec w ws e) as [w1 [l|x]] eqn:E; cbn [fst] in W; subst w1.
  - destruct (dget (pipelines ws) (e_pipeline e)) as [r|] eqn:P.
    + destruct (text_of (clock n) r l) as [t|x] eqn:T; cbn [rbind]; split.
      * intros H. injection H as <-. exists t. split; [exists l, r; auto|reflexivity].
      * intros (t' & (l' & r' & E' & P' & T') & ->). rewrite E in E'. injection E' as <-. rewrite P in P'. injection P' as <-. rewrite T in T'. injection T' as <-. reflexivity.
      * intros H. discriminate H.
      * intros (t' & (l' & r' & E' & P' & T') & ->). rewrite E in E'. injection E' as <-. rewrite P in P'. injection P' as <-. rewrite T in T'. discriminate T'.
    + split; [discriminate|]. intros (t' & (l' & r' & E' & P' & T') & ->). rewrite P in P'. discriminate P'.
  - split; [discriminate|]. intros (t' & (l' & r' & E' & P' & T') & ->). rewrite E in E'. discriminate E'.
Qed.
Lemma one_world clock n e : fst (execute_one ha hv hd data run second text_of clock w ws n e) = w.
Proof. unfold execute_one. assert (W := exec_world ha hv hd data run w ws HU e). destruct (exec w ws e) as [w1 o]. exact W. Qed.
Theorem loop_iff clock es : forall d, tidy ws d -> NoDup (map fst es) -> known es -> forall w' os, loop clock force w ws d es = (w', (os, Ok tt)) <-> w' = w /\ exists p, plan clock d es p /\ os = ops_of clock es p.
Proof.
  induction es as [|[n e] es IH]; intros d T N K w' os.
  - cbn [execute_loop]. split.
    + intros H. injection H as <- <-. split; [reflexivity|]. exists []. split; [constructor|reflexivity].
    + intros (-> & p & P & ->). inversion P; subst. reflexivity.
  - inversion N as [|? ? NI N']; subst. assert (K' : known es) by (intros m e' I; apply K; right; exact I). assert (En : dget (experiments ws) n = Some e) by (apply K; left; reflexivity).
    cbn [execute_loop]. assert (W := needs_world ha hv hd data listing parse w ws HU d n). destruct (needs w ws d n) as [w1 b] eqn:B. cbn [fst] in W. subst w1. destruct (caught b) as [b'|x] eqn:C.
    2:{ split; [discriminate|]. intros (_ & p & P & _). inversion P as [|? ? ? ? (b' & C' & _) _]; subst. cbn [fst] in C'. rewrite B in C'. cbn [snd] in C'. congruence. }
    destruct (negb b' && negb force) eqn:Q.
    + apply andb_true_iff in Q. destruct Q as [Q1 Q2]. apply negb_true_iff in Q1, Q2. rewrite (IH d T N' K'). split.
      * intros (-> & p & P & ->). split; [reflexivity|]. exists (None :: p). split; [|reflexivity]. constructor; [|exact P]. exists b'. cbn [fst]. rewrite B. auto.
      * intros (-> & p & P & ->). split; [reflexivity|]. inversion P as [|? o ? p' (b2 & C2 & E2) P']; subst. cbn [fst snd] in C2. rewrite B in C2. cbn [snd] in C2. destruct o as [t|].
        -- rewrite C in C2. injection C2 as <-. destruct E2 as [[E2|E2] _]; congruence.
        -- exists p'. auto.
    + assert (Q' : b' = true \/ force = true) by (destruct b', force; auto; discriminate Q). clear Q.
      assert (W1 := one_world clock n e). destruct (execute_one ha hv hd data run second text_of clock w ws n e) as [w2 [os1 o]] eqn:O. cbn [fst] in W1. subst w2. destruct o as [[]|x].
      * destruct (proj1 (one_ok clock n e os1) O) as (t & M & ->). set (d1 := apply_ops d (save_ops (version_file n (second (clock n))) (Ok t))) in *. assert (T1 : tidy ws d1) by (apply tidy_saved; exact T).
        assert (A : forall m, In m (map fst es) -> agree d d1 m) by (intros m I; apply (save_after d n (second (clock n)) t d1 (killed_all _ _)); intros ->; contradiction).
        destruct (loop clock force w ws d1 es) as [w3 [os2 o2]] eqn:Lp. split.
        -- intros H. injection H as <- <- ->. destruct (proj1 (IH d1 T1 N' K' w3 os2) Lp) as (-> & p & P & ->). split; [reflexivity|]. exists (Some t :: p). split; [|reflexivity]. constructor.
           ++ exists b'. cbn [fst snd]. rewrite B. auto.
           ++ eapply plan_agree; [exact T1|exact T|exact K'| |exact P]. intros m I. apply agree_sym, A, I.
        -- intros (-> & p & P & ->). inversion P as [|? o ? p' (b2 & C2 & E2) P']; subst. cbn [fst snd] in C2, E2. rewrite B in C2. cbn [snd] in C2. rewrite C in C2. injection C2 as <-. destruct o as [t'|]; [|destruct E2 as [E1 E2]; destruct Q'; congruence].
           destruct E2 as [_ (l' & r' & X1 & X2 & X3)]. destruct M as (l & r & Y1 & Y2 & Y3). rewrite X1 in Y1. injection Y1 as <-. rewrite X2 in Y2. injection Y2 as <-. rewrite X3 in Y3. injection Y3 as <-.
           assert (P1 : plan clock d1 es p') by (eapply plan_agree; [exact T|exact T1|exact K'|exact A|exact P']). assert (R := proj2 (IH d1 T1 N' K' w (ops_of clock es p')) (conj eq_refl (ex_intro _ p' (conj P1 eq_refl)))). rewrite Lp in R. injection R as -> -> ->. reflexivity.
      * split; [discriminate|]. intros (-> & p & P & ->). inversion P as [|? o ? p' (b2 & C2 & E2) P']; subst. cbn [fst snd] in C2, E2. rewrite B in C2. cbn [snd] in C2. rewrite C in C2. injection C2 as <-. destruct o as [t'|]; [|destruct E2 as [E1 E2]; destruct Q'; congruence].
        destruct E2 as [_ M]. assert (R := proj2 (one_ok clock n e _) (ex_intro _ t' (conj M eq_refl))). rewrite O in R. discriminate R.
Qed.
Lemma plan_length clock d es p : plan clock d es p -> List.length p = List.length es.
Proof. intros H. induction H; [reflexivity|]. cbn [List.length]. f_equal. assumption. Qed.
End Loop.
