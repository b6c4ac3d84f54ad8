(* C81: what the server answers, also while experiments are executed.  C82: the list of experiments and the port. *)
From Coq Require Import Sorting.Sorted.
From Verif Require Import Base PyDict PyDictFacts PyStr PyStrFacts Variables VariableSpec Workspace WorkspaceSpec WorkspaceFacts PropsWorkspace JsonText JsonTextSpec PropsJsonText ResultText ResultTextSpec PropsResult ResultJson Execute ExecuteSpec ExecuteFacts ExecuteMain PropsExecute Server ServerSpec.
Open Scope string_scope.
Open Scope list_scope.
Close Scope Z_scope.

(* ---- looking at the directory while a process runs ---- *)
Lemma append_append d f p q : apply_op (apply_op d (Append f p)) (Append f q) = apply_op d (Append f (p ++ q)).
Proof. cbn [apply_op]. rewrite dset_dset. f_equal. unfold content. rewrite dget_dset_same, app_assoc. reflexivity. Qed.
Lemma killed_part d f p q os d' : killed (apply_op d (Append f p)) (Append f q :: os) d' -> killed d (Append f (p ++ q) :: os) d'.
Proof.
  intros K. apply killed_cons in K. destruct K as [->|[(g & a & b & Q & ->)|K]]; [apply k_torn| |rewrite append_append in K; apply k_step, K].
  injection Q as <- ->. rewrite append_append. rewrite app_assoc. apply k_torn.
Qed.
Lemma runs_killed s s' : runs s s' -> killed (fst s) (snd s) (fst s').
Proof. intros R. induction R as [s|d f p q os s R IH|d o os s R IH]; [apply k_stop|apply killed_part, IH|apply k_step, IH]. Qed.
Lemma runs_trans s s' s'' : runs s s' -> runs s' s'' -> runs s s''.
Proof. intros R. induction R as [s|d f p q os s R IH|d o os s R IH]; intros Q; [exact Q|apply r_part, IH, Q|apply r_op, IH, Q]. Qed.
(* no file is removed *)
Definition keeps (o : op) : Prop := match o with Unlink _ => False | _ => True end.
Lemma runs_keeps s s' : runs s s' -> Forall keeps (snd s) -> Forall keeps (snd s') /\ incl (dkeys (fst s)) (dkeys (fst s')).
Proof.
  intros R. induction R as [s|d f p q os s R IH|d o os s R IH]; cbn [fst snd] in *; intros F.
  - split; [exact F|apply incl_refl].
  - inversion F as [|? ? _ F']; subst. destruct IH as [A B]; [constructor; [exact Logic.I|exact F']|]. split; [exact A|]. intros g H. apply B. cbn [apply_op]. apply In_dkeys_dset. auto.
  - inversion F as [|? ? K F']; subst. destruct (IH F') as [A B]. split; [exact A|]. intros g H. apply B. destruct o as [h|h t|h]; [| |destruct K]; cbn [apply_op]; apply In_dkeys_dset; auto.
Qed.

(* the operations are complete writings of files *)
Definition saves (os : list op) : Prop := exists l, os = flat_map (fun x => save_ops (fst x) (snd x)) l.
Lemma saves_nil : saves [].
Proof. exists []. reflexivity. Qed.
Lemma saves_one f t : saves (save_ops f t).
Proof. exists [(f, t)]. cbn [flat_map fst snd]. rewrite app_nil_r. reflexivity. Qed.
Lemma saves_app a b : saves a -> saves b -> saves (a ++ b).
Proof. intros (l & ->) (m & ->). exists (l ++ m). rewrite flat_map_app. reflexivity. Qed.
Lemma saves_killed os : saves os -> forall d d' f, killed d os d' -> dget d' f = dget d f \/ dget d' f = Some [] \/ exists t p q, In (Append f t) os /\ t = p ++ q /\ dget d' f = Some p.
Proof.
  intros (l & ->). induction l as [|[g t] l IH]; intros d d' f K; cbn [flat_map fst snd] in *; [apply killed_nil in K; subst; auto|]. apply killed_app in K. destruct K as [K|K].
  - destruct t as [t|x].
    + apply save_killed in K. destruct K as [->|(p & q & Q & C & _)]; [auto|]. rewrite (C f). destruct (eqb_spec f g) as [->|N]; [|auto]. right; right. exists t, p, q. split; [cbn; auto|]. auto.
    + unfold save_ops in K. apply killed_cons in K. destruct K as [->|[(h & p & q & Q & _)|K]]; [auto|discriminate Q|]. apply killed_nil in K. subst. cbn [apply_op]. rewrite dget_dset. destruct (eqb f g); auto.
  - destruct (IH _ _ f K) as [Q|[Q|(t' & p & q & I & Q & C)]]; [|auto|right; right; exists t', p, q; split; [apply in_or_app; right; exact I|auto]]. rewrite Q. destruct t as [t|x].
    + rewrite save_get. destruct (eqb_spec f g) as [->|N]; [|auto]. right; right. exists t, t, []. split; [cbn; auto|]. rewrite app_nil_r. auto.
    + unfold save_ops, apply_ops. cbn [fold_left apply_op]. rewrite dget_dset. destruct (eqb f g); auto.
Qed.

Section Run.
Context {D G G' J A X : Type}.
Variables (ha : algorithm -> string) (hv : dict string scalar -> string) (hd : D -> string) (data : string -> res D) (run : algorithm -> D -> res G).
Variables (listing : dir ustr -> list string) (second : X -> Z) (text_of : X -> aref -> @result G -> res ustr) (read_result : ustr -> res (@result G')).
Variables (parse : ustr -> res J) (build : J -> res A).
Notation command := (Execute.execute ha hv hd data run listing second text_of read_result).
Notation latest_answer := (get_latest listing parse build).
Notation version_answer := (get_version listing parse build).
Notation result_text := (result_text ha hv hd data run text_of).
Implicit Types d : dir ustr.

Lemma one_keeps clock w ws n e : Forall keeps (fst (snd (execute_one ha hv hd data run second text_of clock w ws n e))).
Proof.
  unfold execute_one. destruct (execute_experiment ha hv hd data run w ws e) as [w1 [l|x]]; [|constructor]. destruct (dget (pipelines ws) (e_pipeline e)) as [r|]; [|constructor]. cbn [fst snd]. unfold save_ops. destruct (text_of (clock n) r l); repeat constructor.
Qed.
Lemma command_keeps clock force w ws d name w' os o : command clock force w ws d name = (w', (os, o)) -> Forall keeps os.
Proof.
  assert (L : forall es w d, Forall keeps (fst (snd (execute_loop ha hv hd data run listing second text_of read_result clock force w ws d es)))).
  { induction es as [|[n e] es IH]; intros w0 d0; cbn [execute_loop]; [constructor|]. destruct (needs_text ha hv hd data listing read_result w0 ws d0 n) as [w1 b]. destruct (caught b) as [b'|x]; [|constructor]. destruct (negb b' && negb force); [apply IH|].
    pose proof (one_keeps clock w1 ws n e) as K. destruct (execute_one ha hv hd data run second text_of clock w1 ws n e) as [w2 [os1 o1]]. cbn [fst snd] in K. destruct o1 as [u|x]; [|exact K]. specialize (IH w2 (apply_ops d0 os1)).
    destruct (execute_loop ha hv hd data run listing second text_of read_result clock force w2 ws (apply_ops d0 os1) es) as [w3 [os2 o2]]. cbn [fst snd] in *. apply Forall_app. auto. }
  unfold Execute.execute. destruct name as [n|]; intros H.
  - destruct (dget (experiments ws) n) as [e|]; [|injection H as <- <- <-; constructor]. pose proof (one_keeps clock w ws n e) as K. rewrite H in K. exact K.
  - specialize (L (experiments ws) w d). rewrite H in L. exact L.
Qed.
Lemma left_in_tidy clock ws d d' f0 : NoDup (dkeys d') -> tidy ws d -> (forall f, left_in ha hv hd data run second text_of clock ws d d' f0 f) -> tidy ws d'.
Proof.
  intros N (_ & S) L. split; [exact N|]. intros n e f E I. destruct (L f) as [Q|(m & e' & t & _ & -> & _)]; [|apply version_never_stray]. apply (S n e f E). apply key_dget. rewrite <- Q. apply key_dget, I.
Qed.
Lemma killed_nodup d os d' : killed d os d' -> NoDup (dkeys d) -> NoDup (dkeys d').
Proof.
  intros K. induction K as [d os|d f p q os|d o os d' K IH]; intros N; [exact N|apply NoDup_dset, N|]. apply IH. destruct o; cbn [apply_op]; [apply NoDup_dset, N|apply NoDup_dset, N|apply NoDup_ddel, N].
Qed.

Hypothesis HL : lists listing.
Lemma newest_head ws d n e vs : tidy ws d -> dget (experiments ws) n = Some e -> load_versions (listing d) n = Ok vs -> match vs with [] => no_version d n | v :: _ => newest_version d n v end.
Proof.
  intros T E V. destruct (versions_of listing HL ws d n e T E) as (vs' & V' & S & I). rewrite V in V'. injection V' as <-. destruct vs as [|v vs].
  - intros t K. apply I in K. destruct K.
  - split; [apply I; left; reflexivity|]. intros u K. apply I in K. destruct K as [->|K]; [lia|]. unfold newest_first in S. inversion S as [|? ? _ F]; subst. rewrite Forall_forall in F. specialize (F u K). lia.
Qed.
Lemma versions_tidy ws d n e : tidy ws d -> dget (experiments ws) n = Some e -> exists vs, load_versions (listing d) n = Ok vs /\ match vs with [] => no_version d n | v :: _ => newest_version d n v end /\ forall t, existsb (Z.eqb t) vs = true <-> In (version_file n t) (dkeys d).
Proof.
  intros T E. destruct (versions_of listing HL ws d n e T E) as (vs & V & S & I). exists vs. split; [exact V|]. split; [eapply newest_head; eassumption|]. intros t. rewrite <- I. rewrite existsb_exists. split; [intros (u & K & Q); apply Z.eqb_eq in Q; congruence|intros K; exists t; split; [exact K|apply Z.eqb_refl]].
Qed.

(* C81, nobody writes: the newest result with its version, the asked version, and what is answered otherwise *)
Theorem C81_latest : forall ws d n, tidy ws d ->
  latest_answer None d d d n = Refused 404 /\
  (~ In n (dkeys (experiments ws)) -> latest_answer (Some ws) d d d n = Refused 404) /\
  (In n (dkeys (experiments ws)) -> no_version d n -> latest_answer (Some ws) d d d n = Refused 400) /\
  (forall t c, In n (dkeys (experiments ws)) -> newest_version d n t -> dget d (version_file n t) = Some c ->
     latest_answer (Some ws) d d d n = match parse c with Err _ => Refused 400 | Ok j => match build j with Err x => Crashed x | Ok a => Served (a, t) end end).
Proof.
  intros ws d n T. split; [reflexivity|]. unfold get_latest. split; [|split].
  - intros N. apply dmem_not_In in N. rewrite N. reflexivity.
  - intros I NV. apply dmem_In in I. rewrite I. apply dmem_get in I. destruct I as [e E]. destruct (versions_tidy ws d n e T E) as (vs & V & H & _). cbn [negb]. unfold load_latest. rewrite V. cbn [rbind negb]. destruct vs as [|v vs]; [reflexivity|]. destruct H as [H _]. destruct (NV v H).
  - intros t c I NV C. apply dmem_In in I. rewrite I. apply dmem_get in I. destruct I as [e E]. destruct (versions_tidy ws d n e T E) as (vs & V & H & _). cbn [negb]. unfold load_latest. rewrite V. cbn [rbind negb]. destruct vs as [|v vs]; [destruct (H t), NV; assumption|].
    assert (v = t). { destruct NV as [NV1 NV2]. destruct H as [H1 H2]. specialize (NV2 v H1). specialize (H2 t NV1). lia. } subst v. unfold read_file. rewrite C. cbn [rbind]. destruct (parse c); reflexivity.
Qed.
Theorem C81_version : forall ws d n v, tidy ws d ->
  version_answer None d d n v = Refused 404 /\
  (~ In n (dkeys (experiments ws)) -> version_answer (Some ws) d d n v = Refused 404) /\
  (In n (dkeys (experiments ws)) ->
     version_answer (Some ws) d d n v = match dget d (version_file n v) with None => Refused 400 | Some c => match parse c with Err _ => Refused 400 | Ok j => match build j with Err x => Crashed x | Ok a => Served (a, v) end end end).
Proof.
  intros ws d n v T. split; [reflexivity|]. unfold get_version. split.
  - intros N. apply dmem_not_In in N. rewrite N. reflexivity.
  - intros I. apply dmem_In in I. rewrite I. apply dmem_get in I. destruct I as [e E]. destruct (versions_tidy ws d n e T E) as (vs & V & _ & H). cbn [negb]. unfold load_version. rewrite V. cbn [rbind negb]. specialize (H v). destruct (existsb (Z.eqb v) vs).
    + unfold read_file. destruct (dget d (version_file n v)) as [c|]; cbn [rbind]; [|reflexivity]. destruct (parse c); reflexivity.
    + destruct (dget d (version_file n v)) as [c|] eqn:C; [|reflexivity]. assert (K : In (version_file n v) (dkeys d)) by (apply key_dget; rewrite C; discriminate). apply H in K. discriminate.
Qed.

(* ---- while experiments are executed ---- *)
(* a text that the command writes is not read before it is complete *)
Definition torn_unread (os : list op) : Prop := (exists x, parse [] = Err x) /\ forall f t p q, In (Append f t) os -> t = p ++ q -> q <> [] -> exists x, parse p = Err x.
(* t is a complete text of version u of n: it was there when the command started, or it is the result the command writes *)
Definition complete (clock : string -> X) ws d n u t : Prop := dget d (version_file n u) = Some t \/ u = second (clock n) /\ exists e, In (n, e) (experiments ws) /\ result_text clock ws n e t.

Lemma one_saves clock w ws n e : let os := fst (snd (execute_one ha hv hd data run second text_of clock w ws n e)) in
  saves os /\ forall f t, In (Append f t) os -> f = version_file n (second (clock n)) /\ exists w' l r, execute_experiment ha hv hd data run w ws e = (w', Ok l) /\ dget (pipelines ws) (e_pipeline e) = Some r /\ text_of (clock n) r l = Ok t.
Proof.
  unfold execute_one. destruct (execute_experiment ha hv hd data run w ws e) as [w1 [l|x]]; [|split; [apply saves_nil|intros f t []]]. destruct (dget (pipelines ws) (e_pipeline e)) as [r|] eqn:P; [|split; [apply saves_nil|intros f t []]]. cbn [fst snd]. split; [apply saves_one|].
  intros f t I. unfold save_ops in I. destruct (text_of (clock n) r l) as [t'|x] eqn:T; cbn [In] in I; [|destruct I as [I|[]]; discriminate]. destruct I as [I|[I|[]]]; [discriminate|]. injection I as <- <-. split; [reflexivity|]. exists w1, l, r. auto.
Qed.
Lemma loop_saves clock force ws (Q : world -> Prop) es : incl es (experiments ws) -> (forall w d n, Q w -> Q (fst (needs_text ha hv hd data listing read_result w ws d n))) -> (forall w n e, Q w -> Q (fst (execute_one ha hv hd data run second text_of clock w ws n e))) ->
  forall w d, Q w -> let os := fst (snd (execute_loop ha hv hd data run listing second text_of read_result clock force w ws d es)) in
  saves os /\ forall f t, In (Append f t) os -> exists n e w0 w' l r, Q w0 /\ In (n, e) (experiments ws) /\ f = version_file n (second (clock n)) /\ execute_experiment ha hv hd data run w0 ws e = (w', Ok l) /\ dget (pipelines ws) (e_pipeline e) = Some r /\ text_of (clock n) r l = Ok t.
Proof.
  intros S QN QO. induction es as [|[n e] es IH]; intros w d QW; cbn [execute_loop]; [split; [apply saves_nil|intros f t []]|]. assert (S' : incl es (experiments ws)) by (intros x I; apply S; right; exact I). assert (I : In (n, e) (experiments ws)) by (apply S; left; reflexivity).
  specialize (QN w d n QW). destruct (needs_text ha hv hd data listing read_result w ws d n) as [w1 b]. cbn [fst] in QN. destruct (caught b) as [b'|x]; [|split; [apply saves_nil|intros f t []]]. destruct (negb b' && negb force); [apply IH; assumption|].
  pose proof (one_saves clock w1 ws n e) as K. specialize (QO w1 n e QN). destruct (execute_one ha hv hd data run second text_of clock w1 ws n e) as [w2 [os1 o1]]. cbn [fst snd] in K, QO. destruct K as [K1 K2].
  assert (K3 : forall f t, In (Append f t) os1 -> exists n e w0 w' l r, Q w0 /\ In (n, e) (experiments ws) /\ f = version_file n (second (clock n)) /\ execute_experiment ha hv hd data run w0 ws e = (w', Ok l) /\ dget (pipelines ws) (e_pipeline e) = Some r /\ text_of (clock n) r l = Ok t).
  { intros f t JJ. destruct (K2 f t JJ) as (F & w' & l & r & E & P & T). exists n, e, w1, w', l, r. auto 7. }
  destruct o1 as [u|x]; [|split; assumption]. destruct (IH S' w2 (apply_ops d os1) QO) as [SA SB]. destruct (execute_loop ha hv hd data run listing second text_of read_result clock force w2 ws (apply_ops d os1) es) as [w3 [os2 o2]]. cbn [fst snd] in *. split; [apply saves_app; assumption|].
  intros f t JJ. apply in_app_or in JJ. destruct JJ; auto.
Qed.
Lemma command_saves clock force ws (Q : world -> Prop) w d name w' os o : (forall w d n, Q w -> Q (fst (needs_text ha hv hd data listing read_result w ws d n))) -> (forall w n e, Q w -> Q (fst (execute_one ha hv hd data run second text_of clock w ws n e))) ->
  command clock force w ws d name = (w', (os, o)) -> Q w ->
  saves os /\ forall f t, In (Append f t) os -> exists n e w0 w' l r, Q w0 /\ In (n, e) (experiments ws) /\ f = version_file n (second (clock n)) /\ execute_experiment ha hv hd data run w0 ws e = (w', Ok l) /\ dget (pipelines ws) (e_pipeline e) = Some r /\ text_of (clock n) r l = Ok t.
Proof.
  intros QN QO H QW. unfold Execute.execute in H. destruct name as [n|].
  - destruct (dget (experiments ws) n) as [e|] eqn:E; [|injection H as <- <- <-; split; [apply saves_nil|intros f t []]]. pose proof (one_saves clock w ws n e) as K. rewrite H in K. cbn [fst snd] in K. destruct K as [K1 K2]. split; [exact K1|].
    intros f t JJ. destruct (K2 f t JJ) as (F & w1 & l & r & X1 & P & T). exists n, e, w, w1, l, r. apply dget_In in E. auto 7.
  - pose proof (loop_saves clock force ws Q (experiments ws) (incl_refl _) QN QO w d QW) as K. rewrite H in K. exact K.
Qed.
Lemma read_complete clock force w ws d name w' os o os' d' n u t j : command clock force w ws d name = (w', (os, o)) -> runs (d, os) (d', os') -> torn_unread os -> dget d' (version_file n u) = Some t -> parse t = Ok j -> complete clock ws d n u t.
Proof.
  intros H R (T0 & TU) C P. apply runs_killed in R. cbn [fst snd] in R. destruct (command_saves clock force ws (fun _ => True) w d name w' os o (fun _ _ _ _ => Logic.I) (fun _ _ _ _ => Logic.I) H Logic.I) as [SV WR].
  destruct (saves_killed os SV d d' (version_file n u) R) as [Q|[Q|(t' & p & q & I & Q & GG)]]; [left; congruence|rewrite C in Q; injection Q as ->; destruct T0; congruence|]. rewrite C in GG. injection GG as <-.
  destruct q as [|c q]; [|destruct (TU _ t' t (c :: q) I Q); [discriminate|congruence]]. rewrite app_nil_r in Q. subst t'. destruct (WR _ _ I) as (m & e & w0 & w1 & l & r & _ & IE & F & E & PI & T). apply version_inj in F. destruct F as [<- ->]. right. split; [reflexivity|]. exists e. split; [exact IE|]. exists w0, w1, l, r. auto.
Qed.
Lemma runs_tidy clock force w ws d name w' os o os' d' : command clock force w ws d name = (w', (os, o)) -> runs (d, os) (d', os') -> tidy ws d -> tidy ws d'.
Proof.
  intros H R T. apply runs_killed in R. cbn [fst snd] in R. destruct (C76_killed ha hv hd data run listing second text_of read_result clock force w ws d name w' os o d' H R) as (f0 & L). eapply left_in_tidy; [eapply killed_nodup; [exact R|apply T]|exact T|exact L].
Qed.
(* C81: whatever an execute command is writing while the request for the newest result is answered, the answer is a
   complete result that is at least as new as every version that was there when the request came, and its label is a
   version that is there and not older; or code 400 because there was no version or the newest one could not be
   read; the request fails otherwise only if a complete result cannot be turned into an answer *)
Theorem C81_running_latest : forall clock force w ws d name w' os o d1 os1 d2 os2 d3 os3 n, tidy ws d -> torn_unread os -> In n (dkeys (experiments ws)) ->
  command clock force w ws d name = (w', (os, o)) -> runs (d, os) (d1, os1) -> runs (d1, os1) (d2, os2) -> runs (d2, os2) (d3, os3) ->
  match latest_answer (Some ws) d1 d2 d3 n with
  | Served (a, v) => exists u t j, newest_version d1 n u /\ complete clock ws d n u t /\ dget d2 (version_file n u) = Some t /\ parse t = Ok j /\ build j = Ok a /\ newest_version d3 n v /\ Z.le u v
  | Refused c => c = 400%Z /\ (no_version d1 n \/ exists u t x, newest_version d1 n u /\ dget d2 (version_file n u) = Some t /\ parse t = Err x)
  | Crashed x => exists u t j, newest_version d1 n u /\ complete clock ws d n u t /\ parse t = Ok j /\ build j = Err x
  end.
Proof.
  intros clock force w ws d name w' os o d1 os1 d2 os2 d3 os3 n T TU I H R1 R2 R3. pose proof (command_keeps _ _ _ _ _ _ _ _ _ H) as K. destruct (runs_keeps _ _ R1 K) as [K1 _]. destruct (runs_keeps _ _ R2 K1) as [K2 S2]. destruct (runs_keeps _ _ R3 K2) as [_ S3]. cbn [fst snd] in *.
  assert (R12 := runs_trans _ _ _ R1 R2). assert (R13 := runs_trans _ _ _ R12 R3). assert (T1 := runs_tidy _ _ _ _ _ _ _ _ _ _ _ H R1 T). assert (T3 := runs_tidy _ _ _ _ _ _ _ _ _ _ _ H R13 T).
  apply dmem_In in I. unfold get_latest. rewrite I. apply dmem_get in I. destruct I as [e E]. cbn [negb]. destruct (versions_tidy ws d1 n e T1 E) as (vs & V & N1 & _). destruct (versions_tidy ws d3 n e T3 E) as (vs3 & V3 & N3 & _). unfold load_latest. rewrite V, V3. cbn [rbind negb]. destruct vs as [|u vs]; [cbn [rbind]; auto|].
  pose proof N1 as [I1 _]. pose proof (S2 _ I1) as I2. apply key_dget in I2. unfold read_file. destruct (dget d2 (version_file n u)) as [t|] eqn:C2; [|contradiction]. cbn [rbind]. destruct (parse t) as [j|x] eqn:P; [|split; [reflexivity|right; exists u, t, x; auto]].
  assert (CO := read_complete _ _ _ _ _ _ _ _ _ _ _ _ _ _ _ H R12 TU C2 P). destruct vs3 as [|v vs3]; [destruct (N3 u); apply S3, S2, I1|]. assert (UV : Z.le u v) by (apply N3, S3, S2, I1). destruct (build j) as [a|x] eqn:B; exists u, t, j; repeat (split; [assumption|]); assumption.
Qed.
(* the request for a version: the complete result of that version, or the codes 400 and 500 as above *)
Theorem C81_running_version : forall clock force w ws d name w' os o d1 os1 d2 os2 n v, tidy ws d -> torn_unread os -> In n (dkeys (experiments ws)) ->
  command clock force w ws d name = (w', (os, o)) -> runs (d, os) (d1, os1) -> runs (d1, os1) (d2, os2) ->
  match version_answer (Some ws) d1 d2 n v with
  | Served (a, u) => u = v /\ exists t j, complete clock ws d n v t /\ parse t = Ok j /\ build j = Ok a
  | Refused c => c = 400%Z /\ (~ In (version_file n v) (dkeys d1) \/ exists t x, dget d2 (version_file n v) = Some t /\ parse t = Err x)
  | Crashed x => exists t j, complete clock ws d n v t /\ parse t = Ok j /\ build j = Err x
  end.
Proof.
  intros clock force w ws d name w' os o d1 os1 d2 os2 n v T TU I H R1 R2. pose proof (command_keeps _ _ _ _ _ _ _ _ _ H) as K. destruct (runs_keeps _ _ R1 K) as [K1 _]. destruct (runs_keeps _ _ R2 K1) as [_ S2]. cbn [fst snd] in *. assert (R12 := runs_trans _ _ _ R1 R2). assert (T1 := runs_tidy _ _ _ _ _ _ _ _ _ _ _ H R1 T).
  apply dmem_In in I. unfold get_version. rewrite I. apply dmem_get in I. destruct I as [e E]. cbn [negb]. destruct (versions_tidy ws d1 n e T1 E) as (vs & V & _ & N1). unfold load_version. rewrite V. cbn [rbind negb]. specialize (N1 v). destruct (existsb (Z.eqb v) vs); cbn [rbind].
  - pose proof (S2 _ (proj1 N1 eq_refl)) as I2. apply key_dget in I2. unfold read_file. destruct (dget d2 (version_file n v)) as [t|] eqn:C2; [|contradiction]. cbn [rbind]. destruct (parse t) as [j|x] eqn:P; [|split; [reflexivity|right; exists t, x; auto]].
    assert (CO := read_complete _ _ _ _ _ _ _ _ _ _ _ _ _ _ _ H R12 TU C2 P). destruct (build j) as [a|x] eqn:B; [split; [reflexivity|]|]; exists t, j; auto.
  - split; [reflexivity|]. left. intros Q. apply N1 in Q. discriminate.
Qed.
End Run.
Print Assumptions C81_latest.
Print Assumptions C81_version.
Print Assumptions C81_running_latest.
Print Assumptions C81_running_version.

(* the JSON texts of results are not read when they are not complete, whatever the edge types and data are *)
Theorem C81_json : forall D G' (ha : algorithm -> string) hv (hd : D -> string) data run listing (read_result : ustr -> res (@result G')) float_text read_float (clock : string -> moment) force w ws d name w' os o, unshared w ws ->
  (forall n e l r, In (n, e) (experiments ws) -> execute_experiment ha hv hd data run w ws e = (w, Ok l) -> dget (pipelines ws) (e_pipeline e) = Some r ->
     exists g', graph_written (res_graph l) g' /\ sound_result float_text read_float (full_result scalar_json (clock n) r (with_graph l g'))) ->
  Execute.execute ha hv hd data run listing mo_second (json_text float_text) read_result clock force w ws d name = (w', (os, o)) -> torn_unread (loads read_float) os.
Proof.
  intros D G' ha hv hd data run listing rr ft rf clock force w ws d name w' os o U H C. split; [exists ValueError; vm_compute; reflexivity|]. intros f t p q I Q N.
  destruct (command_saves ha hv hd data run listing mo_second (json_text ft) rr clock force ws (fun w1 => w1 = w) w d name w' os o) as [_ WR]; [intros; subst; apply needs_world, U|intros; subst; apply one_world, U|exact C|reflexivity|].
  destruct (WR f t I) as (n & e & w0 & w1 & l & r & -> & IE & _ & E & P & T). pose proof (exec_world ha hv hd data run w ws U e) as EW. rewrite E in EW. cbn [fst] in EW. subst w1. destruct (H n e l r IE E P) as (g' & (W1 & W2 & W3) & S).
  exists ValueError. unfold json_text in T.
  assert (W : result_written (full_result scalar_out (clock n) r l) (full_result scalar_json (clock n) r (with_graph l g'))).
  { unfold full_result, with_graph, kept. cbn [res_graph res_variables res_data_hash res_alg_hash res_vars_hash]. repeat (split; [first [reflexivity|exact W1|exact W2|apply ResultJsonFacts.timed_list_written; exact W3]|]). split; [|repeat split; reflexivity]. cbn [rr_variables data_written]. unfold entries_written. induction (res_variables l) as [|[k s] d0 IH]; constructor; [|exact IH].
    split; [reflexivity|]. destruct s; constructor. }
  exact (C74_torn fl ft rf _ _ t p q (ResultTextFacts.result_w _ _ W) (ResultTextFacts.result_s ft rf (fun _ => false) _ S) (de_dict _) T Q N).
Qed.
Print Assumptions C81_json.

(* the experiments of PropsExecute: version 7 is there, version 9 of e1 is being written *)
Definition two_serve := get_latest dkeys (loads read_none) (load_result date_now) (Some (two 5 4)).
Definition two_half : dir ustr := apply_ops two_before [Trunc "e1_9.json"; Append "e1_9.json" (firstn 500 two_text)].
Definition label {A} (x : answer (A * Z)) : option Z := match x with Served (_, v) => Some v | _ => None end.
Lemma two_ops_eq : two_ops = [Trunc "e1_9.json"; Append "e1_9.json" two_text].
Proof. vm_compute; reflexivity. Qed.
Lemma two_runs : runs (two_before, two_ops) (two_half, [Append "e1_9.json" (skipn 500 two_text)]) /\ runs (two_half, [Append "e1_9.json" (skipn 500 two_text)]) (apply_ops two_before two_ops, []).
Proof.
  assert (S : two_text = firstn 500 two_text ++ skipn 500 two_text) by (symmetry; apply firstn_skipn). rewrite two_ops_eq. split.
  - apply r_op. rewrite S at 1. apply r_part. apply r_here.
  - apply r_op. unfold two_half. cbn [apply_ops fold_left]. rewrite append_append, <- S. apply r_here.
Qed.
(* before, while and after version 9 is written *)
Lemma append_text f t f' t' : Append f t = Append f' t' -> t = t'.
Proof. congruence. Qed.
Example C81_nonvacuous : tidy (two 5 4) two_before /\ torn_unread (loads read_none) two_ops /\ two_command false 9 (two 5 4) two_before None = (ws_world, (two_ops, Ok tt)) /\
  label (two_serve two_before two_before two_before "e1") = Some 7%Z /\ two_serve two_half two_half two_half "e1" = Refused 400 /\
  label (two_serve two_half (apply_ops two_before two_ops) (apply_ops two_before two_ops) "e1") = Some 9%Z /\ two_serve two_before two_before two_before "e3" = Refused 404 /\
  label (get_version dkeys (loads read_none) (load_result date_now) (Some (two 5 4)) two_half two_half "e1" 7) = Some 7%Z.
Proof.
  split; [apply C76_nonvacuous|]. split.
  { split; [exists ValueError; vm_compute; reflexivity|]. intros f t p q I Q N. rewrite two_ops_eq in I. destruct I as [I|[I|[]]]; [discriminate|]. apply append_text in I. rewrite <- I in Q. clear I. exists ValueError. revert p q Q N. apply torn_check. vm_compute; reflexivity. }
  split; [apply C76_nonvacuous|]. repeat split; vm_compute; reflexivity.
Qed.

(* The label of the newest result may belong to another version: the directory is read again after the file. *)
Theorem C81_label_refuted : exists d os d' a, two_command false 9 (two 5 4) d None = (ws_world, (os, Ok tt)) /\ runs (d, os) (d', []) /\ two_serve d d d' "e1" = Served (a, 9%Z) /\ two_serve d d d "e1" = Served (a, 7%Z) /\ two_serve d' d' d' "e1" <> Served (a, 9%Z).
Proof.
  exists two_before, two_ops, (apply_ops two_before two_ops). eexists. split; [vm_compute; reflexivity|]. split; [apply (runs_trans _ _ _ (proj1 two_runs) (proj2 two_runs))|]. split; [vm_compute; reflexivity|]. split; [vm_compute; reflexivity|]. vm_compute. discriminate.
Qed.
Print Assumptions C81_label_refuted.
(* While the results of an experiment are removed, a request for the newest one may fail with code 500. *)
Theorem C81_clear_refuted : exists d os d', clear_ops d (dkeys d) "e1" = Ok os /\ runs (d, os) (d', []) /\ two_serve d d d' "e1" = Crashed IndexError.
Proof.
  exists two_before, [Unlink "e1_7.json"], (apply_op two_before (Unlink "e1_7.json")). split; [vm_compute; reflexivity|]. split; [apply r_op, r_here|]. vm_compute; reflexivity.
Qed.
Print Assumptions C81_clear_refuted.

(* ---- C82: the list of experiments and the port ---- *)
(* every experiment of the workspace, in order, with its versions, newest first *)
Theorem C82_experiments : forall S (listing : dir ustr -> list string) (iso : Z -> res S) ws (snap : string -> dir ustr) shown, lists listing -> NoDup (dkeys (experiments ws)) -> (forall n, tidy ws (snap n)) ->
  get_experiments listing iso (Some ws) snap = Served shown ->
  map fst shown = experiments ws /\
  forall n e vs, In (n, e, vs) shown -> newest_first (map fst vs) /\ (forall t, In t (map fst vs) <-> In (version_file n t) (dkeys (snap n))) /\ forall t s, In (t, s) vs -> iso t = Ok s.
Proof.
  intros S listing iso ws snap shown HL N T H. unfold get_experiments in H. destruct (list_experiments listing iso snap (experiments ws)) as [l|] eqn:L; [|discriminate]. injection H as <-.
  assert (NM : forall vs l, named_versions iso vs = Ok l -> map fst l = vs /\ forall t s, In (t, s) l -> iso t = Ok s).
  { induction vs as [|t vs IH]; intros m M; cbn [named_versions] in M; [injection M as <-; split; [reflexivity|intros t s []]|]. destruct (iso t) as [s|] eqn:I; [|discriminate]. cbn [rbind] in M. destruct (named_versions iso vs) as [m'|]; [|discriminate]. injection M as <-. destruct (IH _ eq_refl) as [A B]. cbn [map fst]. split; [congruence|]. intros t' s' [Q|Q]; [injection Q as <- <-; exact I|auto]. }
  assert (G : forall es l, incl es (experiments ws) -> list_experiments listing iso snap es = Ok l -> map fst l = es /\ forall n e vs, In (n, e, vs) l -> newest_first (map fst vs) /\ (forall t, In t (map fst vs) <-> In (version_file n t) (dkeys (snap n))) /\ forall t s, In (t, s) vs -> iso t = Ok s).
  { induction es as [|[n e] es IH]; intros m SU M; cbn [list_experiments] in M; [injection M as <-; split; [reflexivity|intros n e vs []]|]. assert (E : dget (experiments ws) n = Some e) by (apply NoDup_dget; [exact N|apply SU; left; reflexivity]).
    destruct (versions_of listing HL ws (snap n) n e (T n) E) as (vs & V & NF & IV). rewrite V in M. cbn [rbind] in M. destruct (named_versions iso vs) as [q|] eqn:Q; [|discriminate]. cbn [rbind] in M. destruct (list_experiments listing iso snap es) as [r|]; [|discriminate]. injection M as <-.
    destruct (IH r (fun x I => SU x (or_intror I)) eq_refl) as [A B]. destruct (NM vs q Q) as [C D]. cbn [map fst]. split; [congruence|]. intros n' e' vs' [J|J]; [injection J as <- <- <-; rewrite C; auto|apply (B n' e' vs' J)]. }
  exact (G _ _ (incl_refl _) L).
Qed.
Print Assumptions C82_experiments.
(* without a workspace the answer is code 404; with one it is the list, unless the time of some version cannot be written *)
Theorem C82_answers : forall S (listing : dir ustr -> list string) (iso : Z -> res S) (snap : string -> dir ustr), lists listing -> get_experiments listing iso None snap = Refused 404 /\
  forall ws, NoDup (dkeys (experiments ws)) -> (forall n, tidy ws (snap n)) ->
    (exists shown, get_experiments listing iso (Some ws) snap = Served shown) \/
    exists n t x, In n (dkeys (experiments ws)) /\ In (version_file n t) (dkeys (snap n)) /\ iso t = Err x /\ get_experiments listing iso (Some ws) snap = Crashed x.
Proof.
  intros S listing iso snap HL. split; [reflexivity|]. intros ws N T. unfold get_experiments.
  assert (NM : forall vs, (exists l, named_versions iso vs = Ok l) \/ exists t x, In t vs /\ iso t = Err x /\ named_versions iso vs = Err x).
  { induction vs as [|t vs IH]; cbn [named_versions]; [left; eexists; reflexivity|]. destruct (iso t) as [s|x] eqn:I; [|right; exists t, x; split; [left; reflexivity|auto]]. cbn [rbind].
    destruct IH as [[l ->]|(u & x & Iu & E & ->)]; cbn [rbind]; [left; eauto|right; exists u, x; split; [right; exact Iu|auto]]. }
  assert (G : forall es, incl es (experiments ws) -> (exists l, list_experiments listing iso snap es = Ok l) \/
    exists n t x, In n (dkeys (experiments ws)) /\ In (version_file n t) (dkeys (snap n)) /\ iso t = Err x /\ list_experiments listing iso snap es = Err x).
  { induction es as [|[n e] es IH]; intros SU; cbn [list_experiments]; [left; eauto|]. assert (E : dget (experiments ws) n = Some e) by (apply NoDup_dget; [exact N|apply SU; left; reflexivity]).
    destruct (versions_of listing HL ws (snap n) n e (T n) E) as (vs & V & _ & IV). rewrite V. cbn [rbind]. destruct (NM vs) as [[l ->]|(t & x & It & Ex & ->)]; cbn [rbind].
    - destruct (IH (fun x I => SU x (or_intror I))) as [[m ->]|(n' & t & x & A & B & C & ->)]; cbn [rbind]; [left; eauto|right; exists n', t, x; auto].
    - right. exists n, t, x. split; [apply dget_In in E; apply (in_map fst) in E; exact E|]. split; [apply IV; exact It|auto]. }
  destruct (G (experiments ws) (incl_refl _)) as [[l ->]|(n & t & x & A & B & C & ->)]; [left; eauto|right; exists n, t, x; auto].
Qed.
Print Assumptions C82_answers.
Example C82_nonvacuous : get_experiments dkeys (fun t => Ok t) (Some (two 5 4)) (fun _ => apply_ops two_before two_ops) =
  Served [("e1", mkExp "p" "d" [("alpha", SInt 5)], [(9, 9); (7, 7)]%Z); ("e2", mkExp "p" "d" [("alpha", SInt 4)], [(7, 7)]%Z)].
Proof. vm_compute; reflexivity. Qed.
(* Without PORT the server takes the first port from 8000 that is not in use, and fails only if there is none. *)
Open Scope Z_scope.
Theorem C82_port : forall busy,
  (forall p, server_port true None busy = Ok p <-> 8000 <= p <= 65535 /\ busy p = false /\ forall q, 8000 <= q < p -> busy q = true) /\
  (forall x, server_port true None busy = Err x <-> x = ValueError /\ forall q, 8000 <= q <= 65535 -> busy q = true).
Proof.
  intros busy. assert (G : forall fuel port, (forall p, search_port busy fuel port = Ok p <-> port <= p <= port + Z.of_nat fuel /\ busy p = false /\ forall q, port <= q < p -> busy q = true) /\ (forall x, search_port busy fuel port = Err x <-> x = ValueError /\ forall q, port <= q <= port + Z.of_nat fuel -> busy q = true)).
  { induction fuel as [|f IH]; intros port; cbn [search_port]; destruct (busy port) eqn:B.
    - split; intros p; split.
      + discriminate.
      + intros (R & F & _). assert (p = port) by lia. congruence.
      + intros Q. injection Q as <-. split; [reflexivity|]. intros q R. assert (q = port) by lia. congruence.
      + intros [-> _]. reflexivity.
    - split; intros p; split.
      + intros Q. injection Q as <-. split; [lia|]. split; [exact B|]. intros q R. lia.
      + intros (R & _). f_equal. lia.
      + discriminate.
      + intros [_ F]. rewrite F in B by lia. discriminate.
    - destruct (IH (port + 1)) as [IH1 IH2]. split; intros p.
      + rewrite IH1. split; intros (R & F & M); (split; [|split; [exact F|]]).
        * lia.
        * intros q Q. destruct (Z.eq_dec q port) as [E|E]; [congruence|apply M; lia].
        * destruct (Z.eq_dec p port) as [E|E]; [congruence|lia].
        * intros q Q. apply M. lia.
      + rewrite IH2. split; intros [E M]; (split; [exact E|]); intros q Q; [|apply M; lia]. destruct (Z.eq_dec q port) as [E'|E']; [congruence|apply M; lia].
    - split; intros p; split.
      + intros Q. injection Q as <-. split; [lia|]. split; [exact B|]. intros q R. lia.
      + intros (R & F & M). f_equal. destruct (Z.eq_dec p port) as [E|E]; [congruence|]. rewrite M in B by lia. discriminate.
      + discriminate.
      + intros [_ F]. rewrite F in B by lia. discriminate. }
  destruct (G (Z.to_nat (65535 - 8000)) 8000) as [G1 G2]. unfold server_port. cbn [negb]. replace (8000 + Z.of_nat (Z.to_nat (65535 - 8000))) with 65535 in * by lia. split; assumption.
Qed.
Print Assumptions C82_port.
Close Scope Z_scope.
Example C82_port_nonvacuous : server_port true None (fun p => Z.ltb p 8003) = Ok 8003%Z /\ server_port true (Some "9000") (fun _ => true) = Ok 9000%Z /\ server_port false None (fun _ => false) = Err ValueError.
Proof. repeat split; vm_compute; reflexivity. Qed.
(* Without a model and a workspace the server is not started, and a PORT that is a number is used without asking whether it is free. *)
Theorem C82_start : forall busy, (forall env, server_port false env busy = Err ValueError) /\ (forall p, server_port true (Some (str_Z p)) busy = Ok p) /\ (forall s, py_int s = None -> server_port true (Some s) busy = Err ValueError).
Proof.
  intros busy. split; [reflexivity|]. split.
  - intros p. unfold server_port. cbn [negb]. rewrite py_int_str. reflexivity.
  - intros s H. unfold server_port. cbn [negb]. rewrite H. reflexivity.
Qed.
Print Assumptions C82_start.
(* PORT set to nothing is not the same as PORT not set *)
Theorem C82_empty_refuted : exists busy, server_port true None busy = Ok 8000%Z /\ server_port true (Some "") busy = Err ValueError.
Proof. exists (fun _ => false). split; vm_compute; reflexivity. Qed.
Print Assumptions C82_empty_refuted.
