(* The execute command when it is killed and when it is repeated: C76, C77.  Killing the commands that remove results or
   write the workspace: C78. *)
From Coq Require Import Sorting.Sorted.
From Verif Require Import Base PyDict PyDictFacts PyStr PyStrFacts Variables VariableSpec VariableFacts Workspace WorkspaceSpec WorkspaceFacts PropsWorkspace JsonText JsonTextSpec ResultText ResultTextSpec PropsResult ResultJson ResultJsonFacts Execute ExecuteSpec ExecuteFacts ExecuteMain.
Open Scope string_scope.
Open Scope list_scope.
Close Scope Z_scope.

Lemma forall2_both {A B} (P Q : A -> B -> Prop) l m : Forall2 P l m -> Forall2 Q l m -> Forall2 (fun a b => P a b /\ Q a b) l m.
Proof. intros H. induction H as [|a b l m E H IH]; intros K; inversion K; subst; constructor; auto. Qed.
Lemma forall2_in {A B} (P : A -> B -> Prop) l m : Forall2 P l m -> forall a, In a l -> exists b, P a b.
Proof. intros H. induction H as [|a b l m E H IH]; intros a' I; [destruct I|]. destruct I as [<-|I]; [exists b; exact E|apply IH; exact I]. Qed.
Lemma forall2_choice {A B} (P : A -> B -> Prop) l : (forall a, In a l -> exists b, P a b) -> exists m, Forall2 P l m.
Proof.
  induction l as [|a l IH]; intros H; [exists []; constructor|]. destruct (H a (or_introl eq_refl)) as (b & E). destruct IH as (m & F); [intros a' I; apply H; right; exact I|]. exists (b :: m). constructor; assumption.
Qed.
Lemma forall2_impl {A B} (P Q : A -> B -> Prop) l m : (forall a b, P a b -> Q a b) -> Forall2 P l m -> Forall2 Q l m.
Proof. intros I H. induction H; constructor; auto. Qed.
Lemma forall2_none {A B} (P : A -> option B -> Prop) l : (forall a, In a l -> P a None) -> Forall2 P l (map (fun _ => None) l).
Proof. induction l as [|a l IH]; intros H; constructor; [apply H; left; reflexivity|apply IH; intros a' I; apply H; right; exact I]. Qed.

Section Run.
Context {D G G' X : Type}.
Variables (ha : algorithm -> string) (hv : dict string scalar -> string) (hd : D -> string) (data : string -> res D) (run : algorithm -> D -> res G).
Variables (listing : dir ustr -> list string) (second : X -> Z) (text_of : X -> aref -> @result G -> res ustr) (parse : ustr -> res (@result G')).
Notation exec := (execute_experiment ha hv hd data run).
Notation command := (Execute.execute ha hv hd data run listing second text_of parse).
Notation loop := (execute_loop ha hv hd data run listing second text_of parse).
Notation needs := (needs_text ha hv hd data listing parse).
Notation last_of := (latest listing parse).
Implicit Types d : dir ustr.

(* t is the text of a result of the experiment *)
Definition result_text (clock : string -> X) ws n e t : Prop := exists w1 w2 l r, exec w1 ws e = (w2, Ok l) /\ dget (pipelines ws) (e_pipeline e) = Some r /\ text_of (clock n) r l = Ok t.
(* what a killed command leaves in a file: what was there; or, in the file of an experiment, a new text, which is complete
   in all files but f0 *)
Definition left_in (clock : string -> X) ws d d' f0 f : Prop :=
  dget d' f = dget d f \/ exists n e t, In (n, e) (experiments ws) /\ f = version_file n (second (clock n)) /\ dget d' f = Some t /\
  (result_text clock ws n e t \/ f = f0 /\ (t = [] \/ exists q, result_text clock ws n e (t ++ q))).

Lemma one_left clock ws w d n e w' os o d' : execute_one ha hv hd data run second text_of clock w ws n e = (w', (os, o)) -> In (n, e) (experiments ws) -> killed d os d' -> forall f, left_in clock ws d d' (version_file n (second (clock n))) f.
Proof.
  unfold execute_one. destruct (exec w ws e) as [w1 [l|x]] eqn:E; intros H I K f; [|injection H as <- <- <-; apply killed_nil in K; subst; left; reflexivity].
  destruct (dget (pipelines ws) (e_pipeline e)) as [r|] eqn:P; [|injection H as <- <- <-; apply killed_nil in K; subst; left; reflexivity]. injection H as <- <- <-. destruct (text_of (clock n) r l) as [t|x] eqn:T.
  - apply save_killed in K. destruct K as [->|(p & q & Q & C & _)]; [left; reflexivity|]. unfold left_in. rewrite C. destruct (eqb_spec f (version_file n (second (clock n)))) as [->|N]; [|left; reflexivity]. right. exists n, e, p. split; [exact I|]. split; [reflexivity|]. split; [reflexivity|]. right. split; [reflexivity|]. right. exists q. exists w, w1, l, r. rewrite <- Q. auto.
  - unfold save_ops in K. apply killed_cons in K. destruct K as [->|[(g & p & q & Q & _)|K]]; [left; reflexivity|discriminate Q|]. apply killed_nil in K. subst d'. unfold left_in. cbn [apply_op]. rewrite dget_dset. destruct (eqb_spec f (version_file n (second (clock n)))) as [->|N]; [|left; reflexivity].
    right. exists n, e, []. split; [exact I|]. split; [reflexivity|]. split; [reflexivity|]. right. split; [reflexivity|]. left; reflexivity.
Qed.
Lemma one_done clock ws w d n e w' os : execute_one ha hv hd data run second text_of clock w ws n e = (w', (os, Ok tt)) -> exists t, result_text clock ws n e t /\ os = save_ops (version_file n (second (clock n))) (Ok t).
Proof.
  unfold execute_one. destruct (exec w ws e) as [w1 [l|x]] eqn:E; [|discriminate]. destruct (dget (pipelines ws) (e_pipeline e)) as [r|] eqn:P; [|discriminate]. destruct (text_of (clock n) r l) as [t|x] eqn:T; [|discriminate]. intros H. injection H as <- <-. exists t. split; [|reflexivity]. exists w, w1, l, r. auto.
Qed.
Lemma loop_left clock force ws es : incl es (experiments ws) -> forall w d w' os o d', loop clock force w ws d es = (w', (os, o)) -> killed d os d' -> exists f0, forall f, left_in clock ws d d' f0 f.
Proof.
  induction es as [|[n e] es IH]; intros S w d w' os o d' H K; cbn [execute_loop] in H.
  - injection H as <- <- <-. apply killed_nil in K. subst. exists "". intros f. left; reflexivity.
  - assert (S' : incl es (experiments ws)) by (intros x I; apply S; right; exact I). assert (I : In (n, e) (experiments ws)) by (apply S; left; reflexivity).
    destruct (needs w ws d n) as [w1 b]. destruct (caught b) as [b'|x]; [|injection H as <- <- <-; apply killed_nil in K; subst; exists ""; intros f; left; reflexivity]. destruct (negb b' && negb force); [eapply IH; eassumption|].
    destruct (execute_one ha hv hd data run second text_of clock w1 ws n e) as [w2 [os1 o1]] eqn:O. destruct o1 as [[]|x]; [|injection H as <- <- <-; exists (version_file n (second (clock n))); intros f; eapply one_left; eassumption].
    destruct (loop clock force w2 ws (apply_ops d os1) es) as [w3 [os2 o2]] eqn:L. injection H as <- <- <-. apply killed_app in K. destruct K as [K|K]; [exists (version_file n (second (clock n))); intros f; eapply one_left; eassumption|].
    destruct (IH S' _ _ _ _ _ _ L K) as (f0 & F). exists f0. intros f. destruct (F f) as [Q|Q]; [|right; exact Q]. unfold left_in. rewrite Q. destruct (one_done clock ws w1 d n e w2 os1 O) as (t & R & ->). rewrite save_get. destruct (eqb_spec f (version_file n (second (clock n)))) as [->|N]; [|left; reflexivity].
    right. exists n, e, t. auto.
Qed.
(* C76: whenever the command is killed, every file has the content it had, except that executed experiments may have their
   new version; all of these but one are complete, and the other one holds a part of the text *)
Theorem C76_killed : forall clock force w ws d name w' os o d', command clock force w ws d name = (w', (os, o)) -> killed d os d' -> exists f0, forall f, left_in clock ws d d' f0 f.
Proof.
  intros clock force w ws d [n|] w' os o d' H K; unfold Execute.execute in H; [|eapply loop_left; [apply incl_refl|exact H|exact K]]. destruct (dget (experiments ws) n) as [e|] eqn:E.
  - exists (version_file n (second (clock n))). intros f. eapply one_left; [exact H|apply dget_In; exact E|exact K].
  - injection H as <- <- <-. apply killed_nil in K. subst. exists "". intros f. left; reflexivity.
Qed.

(* ---- repeating the command ---- *)
Section Repeat.
Hypothesis HL : lists listing.
Variable keep : G -> G'.
(* the results of the experiments are written as texts that are read back *)
Definition storable (clock : string -> X) w ws : Prop := forall n e l r, dget (experiments ws) n = Some e -> exec w ws e = (w, Ok l) -> dget (pipelines ws) (e_pipeline e) = Some r -> exists t, text_of (clock n) r l = Ok t /\ reads parse t (kept keep l).

Lemma known_all ws : NoDup (dkeys (experiments ws)) -> known ws (experiments ws).
Proof. intros N n e I. apply NoDup_dget; assumption. Qed.

Lemma made_reads clock w ws n e t : storable clock w ws -> dget (experiments ws) n = Some e -> made ha hv hd data run text_of w ws clock n e t -> exists l, exec w ws e = (w, Ok l) /\ reads parse t (kept keep l).
Proof. intros S E (l & r & H & P & T). destruct (S n e l r E H P) as (t' & T' & R). rewrite T in T'. injection T' as <-. exists l. auto. Qed.

(* After the command has ended normally, the newest version of every experiment is the result of an execution, unless
   the check found that it was up to date; then it is the one that was there. *)
Theorem C77_complete_partial : forall clock force w ws d w' os, unshared w ws -> NoDup (dkeys (experiments ws)) -> tidy ws d -> storable clock w ws -> (forall n, In n (dkeys (experiments ws)) -> not_newer d n (second (clock n))) ->
  command clock force w ws d None = (w', (os, Ok tt)) -> forall n e, dget (experiments ws) n = Some e ->
  (exists l, exec w ws e = (w, Ok l) /\ last_of (apply_ops d os) n = Ok (kept keep l)) \/
  (force = false /\ (forall t, dget (apply_ops d os) (version_file n t) = dget d (version_file n t)) /\ exists l, last_of (apply_ops d os) n = Ok l /\ up_to_date ha hv hd data w ws e l).
Proof.
  intros clock force w ws d w' os U N T S NN H n e E. unfold Execute.execute in H. apply (loop_iff ha hv hd data run listing second text_of parse HL w ws U force clock (experiments ws) d T N (known_all ws N)) in H. destruct H as (-> & p & P & ->).
  assert (A := ops_done second clock (experiments ws) p d N (plan_length _ _ _ _ _ _ _ _ _ _ _ _ _ _ _ P)). assert (T1 : tidy ws (apply_ops d (ops_of second clock (experiments ws) p))) by (eapply ops_tidy; [exact T|apply killed_all]). set (d1 := apply_ops d (ops_of second clock (experiments ws) p)) in *. clearbody d1.
  assert (I : In (n, e) (experiments ws)) by (apply dget_In; exact E). destruct (forall2_in _ _ _ (forall2_both _ _ _ _ P A) _ I) as (o & Q & A1). cbn [fst snd] in *. destruct Q as (b & B & Q). destruct o as [t|].
  - left. destruct Q as (_ & M). destruct (made_reads clock w ws n e t S E M) as (l & X1 & R). exists l. split; [exact X1|]. rewrite (after_latest listing parse HL ws d d1 n e _ t T T1 E (NN n (in_map fst _ _ I)) A1). apply R.
  - right. destruct Q as (-> & F). split; [exact F|]. split; [exact A1|]. rewrite (agree_latest listing parse HL ws d d1 n e T T1 E A1). eapply needs_up_to_date; [exact E|]. unfold caught in B. destruct (snd (needs w ws d n)) as [b|[]]; congruence.
Qed.
(* If moreover the hashes do not collide and the saved results are results of executions, of whatever experiments, then the
   newest version of every experiment is what executing it returns, whether it was skipped or not. *)
Theorem C77_current_partial : forall clock force w ws d w' os, unshared w ws -> valued w ws -> NoDup (dkeys (experiments ws)) -> tidy ws d -> storable clock w ws -> (forall n, In n (dkeys (experiments ws)) -> not_newer d n (second (clock n))) ->
  (forall x y, ha x = ha y -> x = y) -> (forall x y, hv x = hv y -> x = y) -> (forall x y, hd x = hd y -> x = y) ->
  (forall n L, In n (dkeys (experiments ws)) -> last_of d n = Ok L -> exists w0 ws0 e0 w1 l, exec w0 ws0 e0 = (w1, Ok l) /\ L = kept keep l) ->
  command clock force w ws d None = (w', (os, Ok tt)) -> forall n e, dget (experiments ws) n = Some e -> exists l, exec w ws e = (w, Ok l) /\ last_of (apply_ops d os) n = Ok (kept keep l).
Proof.
  intros clock force w ws d w' os U V N T S NN IA IV ID SV H n e E. destruct (C77_complete_partial clock force w ws d w' os U N T S NN H n e E) as [XX|(_ & A & L & LL & UD)]; [exact XX|].
  assert (I : In n (dkeys (experiments ws))) by (apply dmem_In, dmem_get; eauto). unfold Execute.execute in H. apply (loop_iff ha hv hd data run listing second text_of parse HL w ws U force clock (experiments ws) d T N (known_all ws N)) in H. destruct H as (-> & p & P & ->).
  assert (T1 : tidy ws (apply_ops d (ops_of second clock (experiments ws) p))) by (eapply ops_tidy; [exact T|apply killed_all]). rewrite (agree_latest listing parse HL ws d _ n e T T1 E A) in LL |- *. destruct (SV n L I LL) as (w0 & ws0 & e0 & w1 & l & XX & ->).
  exists l. split; [|exact LL]. eapply up_to_date_same; try eassumption. intros r a. apply (V n e r a E).
Qed.
(* Executing again right away executes nothing and writes nothing. *)
Theorem C77_idle_partial : forall clock clock' force w ws d w' os, unshared w ws -> valued w ws -> NoDup (dkeys (experiments ws)) -> tidy ws d -> storable clock w ws -> (forall n, In n (dkeys (experiments ws)) -> not_newer d n (second (clock n))) ->
  command clock force w ws d None = (w', (os, Ok tt)) -> command clock' false w ws (apply_ops d os) None = (w, ([], Ok tt)).
Proof.
  intros clock clock' force w ws d w' os U V N T S NN H. unfold Execute.execute in *. apply (loop_iff ha hv hd data run listing second text_of parse HL w ws U force clock (experiments ws) d T N (known_all ws N)) in H. destruct H as (-> & p & P & ->).
  assert (A := ops_done second clock (experiments ws) p d N (plan_length _ _ _ _ _ _ _ _ _ _ _ _ _ _ _ P)). assert (T1 : tidy ws (apply_ops d (ops_of second clock (experiments ws) p))) by (eapply ops_tidy; [exact T|apply killed_all]). set (d1 := apply_ops d (ops_of second clock (experiments ws) p)) in *. clearbody d1.
  apply (loop_iff ha hv hd data run listing second text_of parse HL w ws U false clock' (experiments ws) d1 T1 N (known_all ws N)). split; [reflexivity|]. exists (map (fun _ => None) (experiments ws)).
  assert (Z : forall es, ops_of second clock' es (map (fun _ : string * experiment => None) es) = []) by (induction es as [|[m e'] es IH]; [reflexivity|exact IH]). split; [|rewrite Z; reflexivity]. apply forall2_none. intros [m e'] I.
  destruct (forall2_in _ _ _ (forall2_both _ _ _ _ P A) _ I) as (o & Q & A1). cbn [fst snd] in *. assert (E : dget (experiments ws) m = Some e') by (apply known_all; assumption). assert (NM : not_newer d m (second (clock m))) by (apply NN, (in_map fst _ _ I)). exists false. split; [|auto]. destruct Q as (b & B & Q). destruct o as [t|].
    + destruct Q as (_ & M). destruct (made_reads clock w ws m e' t S E M) as (l & X1 & R). rewrite (after_needs ha hv hd data listing parse HL w ws d d1 m e' _ t T T1 E NM A1). rewrite (proj1 R), (check_fresh ha hv hd data run w ws U keep e' l X1); [reflexivity|]. intros r a. apply (V m e' r a E).
    + destruct Q as (-> & F). rewrite (agree_needs ha hv hd data listing parse HL w ws d d1 m e' T T1 E A1). exact B.
Qed.
(* C76: when the command was killed at any point, executing again ends normally, and then the newest version of every
   experiment is the one an undisturbed command would have left. *)
Theorem C76_resumed_partial : forall clock clock' force w ws d w' os d', unshared w ws -> valued w ws -> NoDup (dkeys (experiments ws)) -> tidy ws d -> storable clock w ws -> storable clock' w ws ->
  (forall n, In n (dkeys (experiments ws)) -> not_newer d n (second (clock n)) /\ Z.le (second (clock n)) (second (clock' n))) ->
  command clock force w ws d None = (w', (os, Ok tt)) -> killed d os d' ->
  exists os', command clock' force w ws d' None = (w, (os', Ok tt)) /\ forall n, In n (dkeys (experiments ws)) -> last_of (apply_ops d' os') n = last_of (apply_ops d os) n.
Proof.
  intros clock clock' force w ws d w' os d' U V N T S S' NN H KD. unfold Execute.execute in *. apply (loop_iff ha hv hd data run listing second text_of parse HL w ws U force clock (experiments ws) d T N (known_all ws N)) in H. destruct H as (-> & p & P & ->).
  assert (LP := plan_length _ _ _ _ _ _ _ _ _ _ _ _ _ _ _ P). assert (A := ops_done second clock (experiments ws) p d N LP). assert (B := ops_killed second clock (experiments ws) p d d' N LP KD).
  assert (T1 : tidy ws (apply_ops d (ops_of second clock (experiments ws) p))) by (eapply ops_tidy; [exact T|apply killed_all]). assert (T2 : tidy ws d') by (eapply ops_tidy; [exact T|exact KD]). set (d1 := apply_ops d (ops_of second clock (experiments ws) p)) in *. clearbody d1. clear KD LP.
  assert (Q : exists p', plan ha hv hd data run listing text_of parse w ws force clock' d' (experiments ws) p' /\ forall d2, tidy ws d2 -> Forall2 (fun ne o => after (second (clock' (fst ne))) d' d2 (fst ne) o) (experiments ws) p' -> forall n, In n (dkeys (experiments ws)) -> last_of d2 n = last_of d1 n).
  2:{ destruct Q as (p' & P' & L). exists (ops_of second clock' (experiments ws) p'). split.
      - apply (loop_iff ha hv hd data run listing second text_of parse HL w ws U force clock' (experiments ws) d' T2 N (known_all ws N)). split; [reflexivity|]. exists p'. auto.
      - apply L; [eapply ops_tidy; [exact T2|apply killed_all]|]. apply ops_done; [exact N|]. eapply plan_length. exact P'. }
  assert (RR : forall ne, In ne (experiments ws) -> exists o2, entry ha hv hd data run listing text_of parse w ws force clock' d' (fst ne) (snd ne) o2 /\ forall d2, tidy ws d2 -> after (second (clock' (fst ne))) d' d2 (fst ne) o2 -> last_of d2 (fst ne) = last_of d1 (fst ne)).
  2:{ apply forall2_choice in RR. destruct RR as (p' & RR). exists p'. split; [revert RR; apply forall2_impl; intros a b (R1 & R2); exact R1|]. intros d2 T3 FA n I. unfold dkeys in I. apply in_map_iff in I. destruct I as (ne & <- & I). destruct (forall2_in _ _ _ (forall2_both _ _ _ _ RR FA) _ I) as (o2 & (_ & R2) & R3). apply R2; assumption. }
  intros [m e] I. destruct (forall2_in _ _ _ (forall2_both _ _ _ _ P (forall2_both _ _ _ _ A B)) _ I) as (o & Q & A1 & (o' & PO & B1)). cbn [fst snd] in *. assert (E : dget (experiments ws) m = Some e) by (apply known_all; assumption). destruct (NN m (in_map fst _ _ I)) as [NM LE].
    assert (NM' : not_newer d' m (second (clock' m))). { intros u J. apply key_dget in J. rewrite (B1 u) in J. destruct o' as [t|]; [destruct (Z.eqb_spec u (second (clock m))) as [Hz|Hz]; [rewrite Hz; exact LE|]|]; apply key_dget in J; specialize (NM u J); lia. }
    destruct Q as (b & C & Q). destruct o as [t|].
    + destruct Q as (BF & M). destruct (made_reads clock w ws m e t S E M) as (l & X1 & (R1 & R2)). assert (LD1 : last_of d1 m = Ok (kept keep l)) by (rewrite (after_latest listing parse HL ws d d1 m e _ t T T1 E NM A1); exact R1).
      assert (M2 : exists t2, made ha hv hd data run text_of w ws clock' m e t2 /\ reads parse t2 (kept keep l)). { destruct M as (l0 & r & Y1 & Y2 & Y3). rewrite X1 in Y1. injection Y1 as <-. destruct (S' m e l r E X1 Y2) as (t2 & Y4 & Y5). exists t2. split; [exists l, r; auto|exact Y5]. }
      destruct M2 as (t2 & M2 & (R3 & _)). assert (GO : forall c, caught (snd (needs w ws d' m)) = Ok c -> c = true \/ force = true -> exists o2, entry ha hv hd data run listing text_of parse w ws force clock' d' m e o2 /\ forall d2, tidy ws d2 -> after (second (clock' m)) d' d2 m o2 -> last_of d2 m = last_of d1 m).
      { intros c C1 C2. exists (Some t2). split; [exists c; auto|]. intros d2 T3 A3. rewrite LD1, (after_latest listing parse HL ws d' d2 m e _ t2 T2 T3 E NM' A3). exact R3. }
      destruct PO as [->|(p1 & q & PQ & ->)].
      * apply (GO b); [rewrite (agree_needs ha hv hd data listing parse HL w ws d d' m e T T2 E B1); exact C|exact BF].
      * injection PQ as PQ. assert (ND := after_needs ha hv hd data listing parse HL w ws d d' m e _ p1 T T2 E NM B1). destruct q as [|c q].
        -- rewrite app_nil_r in PQ. subst p1. rewrite R1, (check_fresh ha hv hd data run w ws U keep e l X1) in ND by (intros r a; apply (V m e r a E)). destruct force eqn:FE; [apply (GO false); [rewrite ND; reflexivity|auto]|].
           exists None. split; [exists false; split; [rewrite ND; reflexivity|auto]|]. intros d2 T3 A3. rewrite LD1, (agree_latest listing parse HL ws d' d2 m e T2 T3 E A3), (after_latest listing parse HL ws d d' m e _ t T T2 E NM B1). exact R1.
        -- rewrite (R2 p1 (c :: q) PQ) in ND by discriminate. apply (GO true); [rewrite ND; reflexivity|auto].
    + destruct Q as (-> & F). destruct PO as [->|(p1 & q & PQ & _)]; [|discriminate PQ]. exists None. split.
      * exists false. split; [rewrite (agree_needs ha hv hd data listing parse HL w ws d d' m e T T2 E B1); exact C|auto].
      * intros d2 T3 A3. rewrite (agree_latest listing parse HL ws d' d2 m e T2 T3 E A3), (agree_latest listing parse HL ws d d' m e T T2 E B1), (agree_latest listing parse HL ws d d1 m e T T1 E A1). reflexivity.
Qed.
End Repeat.
(* A latest result that cannot be loaded for another reason than a ValueError stops the command, even when a new
   execution is asked for: no experiment is executed any more. *)
Theorem C77_blocked : forall clock force w ws d n e es x v vs, experiments ws = (n, e) :: es -> load_versions (listing d) n = Ok (v :: vs) -> last_of d n = Err x -> x <> ValueError -> command clock force w ws d None = (w, ([], Err x)).
Proof.
  intros clock force w ws d n e es x v vs E V L N. unfold Execute.execute. rewrite E. cbn [execute_loop]. unfold needs_text. rewrite E. cbn [dget]. rewrite eqb_refl, V, L. cbn [caught]. destruct x; try reflexivity. contradiction.
Qed.
End Run.
Print Assumptions C76_killed.
Print Assumptions C76_resumed_partial.
Print Assumptions C77_complete_partial.
Print Assumptions C77_current_partial.
Print Assumptions C77_idle_partial.
Print Assumptions C77_blocked.

(* ---- the JSON texts of results are such texts ---- *)
(* the graph g' is what is written for g *)
Definition graph_written (g : graph_result (pval fl)) (g' : graph_result (jval fl)) : Prop :=
  gr_nodes g = gr_nodes g' /\ Forall2 edge_written (gr_edges g) (gr_edges g') /\ Forall2 step_written (gr_history g) (gr_history g').
Definition with_graph {G G'} (l : @result G) (g' : G') : @result G' := kept (fun _ => g') l.
Theorem C76_json : forall float_text read_float is_date x r l g', graph_written (res_graph l) g' -> sound_result float_text read_float (full_result scalar_json x r (with_graph l g')) -> is_date (mo_created x) = true ->
  Forall shipped_type (gr_edges g') -> Forall has_metadata (gr_edges g') -> exists t, json_text float_text x r l = Ok t /\ reads (json_parse read_float is_date) t (with_graph l (forgetful g')).
Proof.
  intros ft rf da x r l g' (W1 & W2 & W3) S Dt T M. set (rr := full_result scalar_out x r l). set (rr' := full_result scalar_json x r (with_graph l g')) in *.
  assert (W : result_written rr rr').
  { unfold rr, rr', full_result, with_graph, kept. cbn [res_graph res_variables res_data_hash res_alg_hash res_vars_hash]. repeat (split; [first [reflexivity|exact W1|exact W2|apply timed_list_written; exact W3]|]). split; [|repeat split; reflexivity]. cbn [rr_variables data_written]. unfold entries_written. induction (res_variables l) as [|[k s] d IH]; constructor; [|exact IH].
    split; [reflexivity|]. destruct s; constructor. }
  assert (L := C75_loaded ft rf da rr rr' W S Dt T M). unfold save_and_load in L. unfold json_text. fold rr. destruct (dumps ft (dump_result rr)) as [t|] eqn:E; [|discriminate L]. exists t. split; [reflexivity|]. cbn [rbind] in L. unfold json_parse. split.
  - destruct (loads rf t) as [j|]; [|discriminate L]. cbn [rbind] in *. rewrite L. cbn [rbind]. unfold rr'. rewrite short_full. reflexivity.
  - intros p q Q N. assert (B := C75_torn ft rf da rr rr' t p q W S E Q N). destruct (loads rf p) as [j|]; cbn [rbind] in *; [rewrite B; reflexivity|congruence].
Qed.
Print Assumptions C76_json.

(* ---- C78: killing the commands that remove results or write the workspace ---- *)
(* Removing the results of an experiment: whenever the command is killed, the newest versions are gone, the others and all
   other files are as they were. *)
Theorem C78_clear : forall ws listing d n e os d', lists listing -> tidy ws d -> dget (experiments ws) n = Some e -> clear_ops d (listing d) n = Ok os -> killed d os d' ->
  exists gone left, load_versions (listing d) n = Ok (gone ++ left) /\ load_versions (listing d') n = Ok left /\ (forall f, dget d' f = if existsb (fun t => eqb f (version_file n t)) gone then None else dget d f) /\
  (forall t, In t left -> In (version_file n t) (dkeys d')) /\ (d' = apply_ops d os -> left = []).
Proof.
  intros ws listing d n e os d' HL T E C K. destruct (versions_of listing HL ws d n e T E) as (vs & V & NF & M). unfold clear_ops in C. rewrite V in C. cbn [rbind] in C. injection C as <-.
  assert (FV : filter (fun t => dmem d (version_file n t)) vs = vs). { assert (A : forall t, In t vs -> dmem d (version_file n t) = true) by (intros t I; apply dmem_In, M, I). clear - A. induction vs as [|t vs IH]; [reflexivity|]. cbn [filter]. rewrite (A t (or_introl eq_refl)). f_equal. apply IH. intros u I. apply A. right; exact I. }
  rewrite FV in K |- *. clear FV. assert (NV : NoDup vs). { clear - NF. induction vs as [|t vs IH]; [constructor|]. inversion NF as [|? ? S F]; subst. constructor; [|apply IH; exact S]. intros I. rewrite Forall_forall in F. specialize (F t I). lia. }
  assert (Z : exists gone left, vs = gone ++ left /\ (forall f, dget d' f = if existsb (fun t => eqb f (version_file n t)) gone then None else dget d f) /\ NoDup (dkeys d') /\ incl (dkeys d') (dkeys d)).
  { destruct T as (N & _). clear - K N. revert d K N. induction vs as [|t vs IH]; intros d K N; cbn [map] in K.
    - apply killed_nil in K. subst. exists [], []. split; [reflexivity|]. split; [reflexivity|]. split; [exact N|apply incl_refl].
    - apply killed_cons in K. destruct K as [->|[(f & p & q & Q & _)|K]]; [|discriminate Q|].
      + exists [], (t :: vs). split; [reflexivity|]. split; [reflexivity|]. split; [exact N|apply incl_refl].
      + cbn [apply_op] in K. destruct (IH (ddel d (version_file n t)) K (NoDup_ddel _ _ N)) as (gone & left & -> & H & ND & IC). exists (t :: gone), left. split; [reflexivity|]. split; [|split; [exact ND|intros f I; apply IC in I; revert I; apply dkeys_ddel_incl]].
        intros f. rewrite H. cbn [existsb]. rewrite dget_ddel by exact N. destruct (eqb f (version_file n t)); cbn [orb]; [destruct (existsb _ gone); reflexivity|reflexivity]. }
  destruct Z as (gone & left & Q & H & ND & IC). assert (T' : tidy ws d') by (split; [exact ND|]; intros m e' f E' I; eapply (proj2 T); [exact E'|apply IC; exact I]).
  destruct (versions_of listing HL ws d' n e T' E) as (vs' & V' & NF' & M').
  assert (OUT : forall t, In t left -> existsb (fun u => eqb (version_file n t) (version_file n u)) gone = false). { intros t I. apply not_true_iff_false. intros B. apply existsb_exists in B. destruct B as (u & J & B). apply eqb_true in B. apply version_inj in B. destruct B as [_ <-]. rewrite Q in NV. clear - NV I J. induction gone as [|v gone IH]; [destruct J|]. inversion NV as [|? ? NI NV']; subst. destruct J as [->|J]; [apply NI, in_or_app; right; exact I|apply IH; assumption]. }
  assert (KD : forall t, In t left <-> In (version_file n t) (dkeys d')). { intros t. rewrite key_dget, H. split; intros I.
    - rewrite (OUT t I). apply key_dget, M. rewrite Q. apply in_or_app. right; exact I.
    - destruct (existsb _ gone) eqn:B; [contradiction|]. apply key_dget in I. apply M in I. rewrite Q in I. apply in_app_or in I. destruct I as [I|I]; [|exact I]. assert (B' : existsb (fun u => eqb (version_file n t) (version_file n u)) gone = true) by (apply existsb_exists; exists t; split; [exact I|apply eqb_refl]). rewrite B' in B. discriminate. }
  assert (left = vs'). { apply newest_unique; [|exact NF'|intros t; rewrite M', KD; reflexivity]. rewrite Q in NF. clear - NF. induction gone as [|t gone IH]; [exact NF|]. inversion NF; subst. apply IH. assumption. }
  subst vs'. exists gone, left. split; [rewrite V, Q; reflexivity|]. split; [exact V'|]. split; [exact H|]. split; [intros t I; apply KD; exact I|].
  intros ->. destruct left as [|t left]; [reflexivity|exfalso]. assert (I : In (version_file n t) (dkeys (apply_ops d (map (fun t => Unlink (version_file n t)) vs)))) by (apply KD; left; reflexivity).
  assert (J : In t vs) by (rewrite Q; apply in_or_app; right; left; reflexivity). apply key_dget in I. apply I. destruct T as (N & _). clear - J N. revert d N J. induction vs as [|u vs IH]; intros d N J; [destruct J|]. cbn [map apply_ops fold_left apply_op]. fold (apply_ops (ddel d (version_file n u)) (map (fun t => Unlink (version_file n t)) vs)).
  destruct (in_dec Z.eq_dec t vs) as [I|I]; [apply IH; [apply NoDup_ddel; exact N|exact I]|]. destruct J as [->|J]; [|contradiction]. assert (G : forall vs d f, dget d f = None -> NoDup (dkeys d) -> dget (apply_ops d (map (fun t => Unlink (version_file n t)) vs)) f = None).
  { clear. induction vs as [|u vs IH]; intros d f Z N; [exact Z|]. cbn [map apply_ops fold_left apply_op]. apply IH; [rewrite dget_ddel by exact N; destruct (eqb f (version_file n u)); [reflexivity|exact Z]|apply NoDup_ddel; exact N]. }
  apply G; [apply dget_ddel_same; exact N|apply NoDup_ddel; exact N].
Qed.
Print Assumptions C78_clear.
(* Writing the workspace: no other file changes, and a failure to make the text changes nothing; but ... *)
Theorem C78_workspace_partial : forall d t d', killed d (workspace_ops t) d' -> (forall f, f <> "workspace.yml" -> dget d' f = dget d f) /\
  (dget d' "workspace.yml" = dget d "workspace.yml" \/ exists p q, t = Ok (p ++ q) /\ dget d' "workspace.yml" = Some p) /\ ((exists x, t = Err x) -> d' = d).
Proof.
  intros d [t|x] d' K; cbn [workspace_ops] in K; [|apply killed_nil in K; subst; split; [auto|]; split; [left; reflexivity|auto]]. apply save_killed in K. destruct K as [->|(p & q & E & H & _)]; [split; [auto|]; split; [left; reflexivity|auto]|].
  split; [intros f N; rewrite H, eqb_neq by exact N; reflexivity|]. split; [right; exists p, q; rewrite H, E; auto|]. intros [x X]. discriminate X.
Qed.
Print Assumptions C78_workspace_partial.
(* ... every command that writes the workspace can be killed so that the file is empty: neither the old nor the new
   workspace is there any more *)
Theorem C78_workspace_refuted : forall d t, exists d', killed d (workspace_ops (Ok t)) d' /\ dget d' "workspace.yml" = Some [].
Proof. intros d t. exists (apply_op d (Trunc "workspace.yml")). split; [apply k_step, k_stop|]. cbn [apply_op]. apply dget_dset_same. Qed.
Print Assumptions C78_workspace_refuted.

(* ---- concrete cases ---- *)
(* two experiments with the same pipeline and other values; a run gives the edge a --> b with data that shows the value *)
Definition show_graph (bad : bool) (a : algorithm) (_ : nat) : res (graph_result (pval fl)) :=
  Ok (mkGR [(lit "a", toy_a); (lit "b", toy_b)] [mkREdge toy_a toy_b directed_type (Some [(lit "z", if bad then PObject else PStr (lit (show a)))])] [RStep (lit "s") None [] [] []]).
Definition show_keep (g : graph_result (pval fl)) : graph_result (jval fl) :=
  mkGR (gr_nodes g) (map (fun e => mkREdge (re_u e) (re_v e) (re_type e) (match re_meta e with Some [(k, PStr s)] => Some [(k, JStr s)] | _ => None end)) (gr_edges g)) [RStep (lit "s") None [] [] []].
Definition show_float (_ : fl) : ustr := lit "NaN".
Definition read_none (_ : ustr) : fl := FNaN.
Definition at_second (s : Z) (_ : string) : moment := mkMoment s (lit "now") (fun _ => Some FNaN).
Definition date_now (s : ustr) : bool := eqb s (lit "now").
Definition two (a b : Z) : workspace := mkWs [("p", mkRef RName "PC")] [("d", "data.json")] [("e1", mkExp "p" "d" [("alpha", SInt a)]); ("e2", mkExp "p" "d" [("alpha", SInt b)])].
Definition two_command (bad : bool) (s : Z) (ws : workspace) (d : dir ustr) (n : option string) := Execute.execute show show_vars (fun _ : nat => "h") show_data (show_graph bad) dkeys mo_second (json_text show_float) (json_parse read_none date_now) (at_second s) false ws_world ws d n.
Definition two_latest := latest dkeys (json_parse read_none date_now).
Lemma torn_check {R} (parse : ustr -> res R) t : forallb (fun k => match parse (firstn k t) with Err ValueError => true | _ => false end) (seq 0 (List.length t)) = true -> forall p q, t = p ++ q -> q <> [] -> parse p = Err ValueError.
Proof.
  intros H p q -> N. rewrite forallb_forall in H. assert (I : In (List.length p) (seq 0 (List.length (p ++ q)))). { apply in_seq. rewrite app_length. destruct q; [contradiction|]. cbn [List.length]. lia. }
  specialize (H _ I). rewrite firstn_app, Nat.sub_diag, firstn_all in H. cbn [firstn] in H. rewrite app_nil_r in H. destruct (parse p) as [r|[]]; try discriminate. reflexivity.
Qed.
Lemma two_storable s a b : In (a, b) [(3, 4); (5, 4)]%Z -> storable show show_vars (fun _ : nat => "h") show_data (show_graph false) (json_text show_float) (json_parse read_none date_now) show_keep (at_second s) ws_world (two a b).
Proof.
  intros AB n e l r E X P. assert (C : In e [mkExp "p" "d" [("alpha", SInt a)]; mkExp "p" "d" [("alpha", SInt b)]]). { unfold two in E. cbn [experiments dget] in E. destruct (eqb n "e1"); [injection E as <-; left; reflexivity|]. destruct (eqb n "e2"); [injection E as <-; right; left; reflexivity|discriminate]. }
  assert (R : r = mkRef RName "PC"). { destruct C as [<-|[<-|[]]]; vm_compute in P; injection P as <-; reflexivity. } subst r. clear E P.
  assert (Q : exists v, In v [3; 4; 5]%Z /\ l = mkResult (mkGR [(lit "a", toy_a); (lit "b", toy_b)] [mkREdge toy_a toy_b directed_type (Some [(lit "z", PStr (lit (str_Z v)))])] [RStep (lit "s") None [] [] []]) [("alpha", SInt v)] (Some "h") (Some (str_Z v)) (Some (str_Z v))).
  { destruct AB as [AB|[AB|[]]]; injection AB as <- <-; destruct C as [<-|[<-|[]]]; vm_compute in X; injection X as <-; [exists 3%Z|exists 4%Z|exists 5%Z|exists 4%Z]; (split; [cbn; tauto|vm_compute; reflexivity]). }
  clear X C AB. destruct Q as (v & I & ->). destruct I as [<-|[<-|[<-|[]]]]; (eexists; split; [vm_compute; reflexivity|]; split; [vm_compute; reflexivity|apply torn_check; vm_compute; reflexivity]).
Qed.
Lemma two_unshared a b : unshared ws_world (two a b).
Proof. intros p r H. left. unfold two in H. cbn [pipelines dget] in H. destruct (eqb p "p"); [injection H as <-; discriminate|discriminate]. Qed.
Lemma two_valued a b : valued ws_world (two a b).
Proof.
  intros n e r al E P L. assert (V : dkeys (e_variables e) = ["alpha"]). { unfold two in E. cbn [experiments dget] in E. destruct (eqb n "e1"); [injection E as <-; reflexivity|]. destruct (eqb n "e2"); [injection E as <-; reflexivity|discriminate]. }
  assert (R : r = mkRef RName "PC"). { unfold two in P. cbn [pipelines dget] in P. destruct (eqb (e_pipeline e) "p"); [injection P as <-; reflexivity|discriminate]. } subst r. vm_compute in L. injection L as <-. split.
  - intros s [<-|[]]. constructor. intros x X. discriminate.
  - intros s m [<-|[]] Q. rewrite V. apply step_refers_inv in Q. destruct Q as [Q|(ss & s & Q & _)]; [|discriminate]. apply refers_inv in Q. destruct Q as [[k [Q|[]]]|(k & h & c & [Q|[]] & _)]; [|discriminate]. injection Q as _ <-. left; reflexivity.
Qed.
Lemma two_tidy a b d : NoDup (dkeys d) -> (forall f, In f (dkeys d) -> f = "workspace.yml" \/ exists n t, f = version_file n t) -> tidy (two a b) d.
Proof.
  intros N H. split; [exact N|]. intros n e f E I S. destruct (H f I) as [->|(m & t & ->)]; [|exact (version_never_stray m t n S)]. destruct S as (_ & (x & S) & _). apply (f_equal (fun s => endswith s ".json")) in S. rewrite (proj2 (endswith_iff (x ++ ".json") ".json") (ex_intro _ x eq_refl)) in S. vm_compute in S. discriminate S.
Qed.
(* two_storable, two_unshared and two_valued give the other hypotheses of C76_resumed_partial, C77_complete_partial and C77_idle_partial for
   these experiments; this is the directory after an undisturbed execution at second 7 *)
Definition two_before : dir ustr := apply_ops [("workspace.yml", lit "w")] (fst (snd (two_command false 7 (two 3 4) [("workspace.yml", lit "w")] None))).
Definition two_ops : list op := fst (snd (two_command false 9 (two 5 4) two_before None)).
Definition two_text : ustr := match two_ops with [_; Append _ t] => t | _ => [] end.
Example C76_nonvacuous : lists dkeys /\ NoDup (dkeys (experiments (two 5 4))) /\ tidy (two 5 4) two_before /\ (forall n, In n (dkeys (experiments (two 5 4))) -> not_newer two_before n 9) /\
  dkeys two_before = ["workspace.yml"; "e1_7.json"; "e2_7.json"] /\
  (* after the change of a value only the first experiment is executed again *)
  two_command false 9 (two 5 4) two_before None = (ws_world, (two_ops, Ok tt)) /\ (exists t, two_ops = save_ops "e1_9.json" (Ok t) /\ List.length t = 1050) /\
  (* killed while writing: the newest version cannot be read, the older one is intact, and a new execution repairs it *)
  exists d', killed two_before two_ops d' /\ two_latest d' "e1" = Err ValueError /\ dget d' "e1_7.json" = dget two_before "e1_7.json" /\
  exists os', two_command false 12 (two 5 4) d' None = (ws_world, (os', Ok tt)) /\ two_latest (apply_ops d' os') "e1" = two_latest (apply_ops two_before two_ops) "e1" /\ dkeys (apply_ops d' os') = ["workspace.yml"; "e1_7.json"; "e2_7.json"; "e1_9.json"; "e1_12.json"].
Proof.
  assert (K : dkeys two_before = ["workspace.yml"; "e1_7.json"; "e2_7.json"]) by (vm_compute; reflexivity).
  split; [intros d; reflexivity|]. split; [cbn; repeat constructor; cbn; intuition discriminate|]. split; [apply two_tidy; rewrite K; [repeat constructor; cbn; intuition discriminate|]|].
  { intros f [<-|[<-|[<-|[]]]]; [left; reflexivity|right; exists "e1", 7%Z; reflexivity|right; exists "e2", 7%Z; reflexivity]. }
  split. { intros n _ t I. rewrite K in I. assert (Q : t = 7%Z); [|subst; lia]. destruct I as [I|[I|[I|[]]]]; [|change "e1_7.json" with (version_file "e1" 7) in I|change "e2_7.json" with (version_file "e2" 7) in I]; [|apply version_inj in I; destruct I; congruence|apply version_inj in I; destruct I; congruence].
    exfalso. assert (V := version_end n t). rewrite <- I in V. vm_compute in V. discriminate V. }
  split; [exact K|]. split; [vm_compute; reflexivity|]. split; [eexists; split; vm_compute; reflexivity|].
  exists (apply_ops two_before [Trunc "e1_9.json"; Append "e1_9.json" (firstn 500 two_text)]). split.
  { assert (Q : two_ops = [Trunc "e1_9.json"; Append "e1_9.json" two_text]) by (vm_compute; reflexivity). rewrite Q. rewrite <- (firstn_skipn 500 two_text) at 1. apply k_step. cbn [apply_ops fold_left]. apply k_torn. }
  split; [vm_compute; reflexivity|]. split; [vm_compute; reflexivity|]. eexists. split; [vm_compute; reflexivity|]. split; vm_compute; reflexivity.
Qed.
(* "the latest result is the last one that was completed" does not hold after a kill; a version saved in the same second
   is lost; and a result that cannot be encoded leaves an empty newest version *)
Theorem C76_latest_refuted : exists d os d' l, two_command false 9 (two 5 4) d None = (ws_world, (os, Ok tt)) /\ two_latest d "e1" = Ok l /\ killed d os d' /\ two_latest d' "e1" = Err ValueError.
Proof.
  exists two_before, two_ops, (apply_op two_before (Trunc "e1_9.json")). eexists. split; [vm_compute; reflexivity|]. split; [vm_compute; reflexivity|]. split; [|vm_compute; reflexivity].
  assert (Q : exists os, two_ops = Trunc "e1_9.json" :: os) by (eexists; vm_compute; reflexivity). destruct Q as (os & ->). apply k_step, k_stop.
Qed.
Print Assumptions C76_latest_refuted.
Theorem C76_same_second_refuted : exists d os d' l, two_command false 7 (two 5 4) d None = (ws_world, (os, Ok tt)) /\ two_latest d "e1" = Ok l /\ killed d os d' /\ forall f t, dget d' f = Some t -> (exists s, f = version_file "e1" s) -> t = [].
Proof.
  exists two_before, (fst (snd (two_command false 7 (two 5 4) two_before None))), (apply_op two_before (Trunc "e1_7.json")). eexists. split; [vm_compute; reflexivity|]. split; [vm_compute; reflexivity|]. split.
  - assert (Q : exists os, fst (snd (two_command false 7 (two 5 4) two_before None)) = Trunc "e1_7.json" :: os) by (eexists; vm_compute; reflexivity). destruct Q as (os & ->). apply k_step, k_stop.
  - intros f t H (s & ->). cbn [apply_op] in H. rewrite dget_dset in H. destruct (eqb_spec (version_file "e1" s) "e1_7.json") as [E|E]; [injection H as <-; reflexivity|exfalso]. apply E. assert (K : In (version_file "e1" s) (dkeys two_before)) by (apply key_dget; rewrite H; discriminate).
    assert (KK : dkeys two_before = ["workspace.yml"; version_file "e1" 7; version_file "e2" 7]) by (vm_compute; reflexivity). rewrite KK in K. destruct K as [K|[K|[K|[]]]]; [exfalso; assert (V := version_end "e1" s); rewrite <- K in V; vm_compute in V; discriminate V|rewrite <- K; reflexivity|apply version_inj in K; destruct K; discriminate].
Qed.
Print Assumptions C76_same_second_refuted.
Theorem C76_unsaved_refuted : exists d os l, two_latest d "e1" = Ok l /\ two_command true 9 (two 5 4) d (Some "e1") = (ws_world, (os, Err TypeError)) /\ dget (apply_ops d os) "e1_9.json" = Some [] /\ two_latest (apply_ops d os) "e1" = Err ValueError.
Proof. exists two_before. eexists. eexists. split; [vm_compute; reflexivity|]. split; [vm_compute; reflexivity|]. split; vm_compute; reflexivity. Qed.
Print Assumptions C76_unsaved_refuted.
Example C77_nonvacuous : two_command false 9 (two 5 4) (apply_ops two_before two_ops) None = (ws_world, ([], Ok tt)) /\
  (exists l, snd (execute_experiment show show_vars (fun _ : nat => "h") show_data (show_graph false) ws_world (two 5 4) (mkExp "p" "d" [("alpha", SInt 5)])) = Ok l /\ two_latest (apply_ops two_before two_ops) "e1" = Ok (kept show_keep l)) /\
  (* a saved edge type that is not known stops the command *)
  exists t, json_text show_float (at_second 9 "") (mkRef RName "PC") (mkResult (mkGR [] [mkREdge toy_a toy_b (mkRType (lit "MINE") true (lit "~>")) (Some [])] []) [] (Some "h") (Some "h") (Some "h")) = Ok t /\
  two_command false 9 (two 5 4) [("e1_7.json", t)] None = (ws_world, ([], Err KeyError)).
Proof. split; [vm_compute; reflexivity|]. split; [eexists; split; [vm_compute; reflexivity|vm_compute; reflexivity]|]. eexists. split; [vm_compute; reflexivity|]. vm_compute; reflexivity. Qed.
Example C78_nonvacuous : clear_ops (apply_ops two_before two_ops) ["e2_7.json"; "e1_7.json"; "workspace.yml"; "e1_9.json"] "e1" = Ok [Unlink "e1_9.json"; Unlink "e1_7.json"].
Proof. vm_compute; reflexivity. Qed.
