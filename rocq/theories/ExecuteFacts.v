(* Proofs about the execute command. *)
From Coq Require Import Sorting.Sorted.
From Verif Require Import Base PyDict PyDictFacts PyStr PyStrFacts Variables VariableSpec VariableFacts Workspace WorkspaceSpec WorkspaceFacts PropsWorkspace JsonText Execute ExecuteSpec.
Open Scope string_scope.
Open Scope list_scope.

(* ---- the file system ---- *)
Lemma apply_ops_app d a b : apply_ops d (a ++ b) = apply_ops (apply_ops d a) b.
Proof. apply fold_left_app. Qed.
Lemma killed_nil d d' : killed d [] d' -> d' = d.
Proof. intros K. inversion K; reflexivity. Qed.
Lemma killed_cons d o os d' : killed d (o :: os) d' -> d' = d \/ (exists f p q, o = Append f (p ++ q) /\ d' = apply_op d (Append f p)) \/ killed (apply_op d o) os d'.
Proof. intros K. inversion K; subst; [left; reflexivity|right; left; eauto|right; right; assumption]. Qed.
Lemma killed_app a : forall d b d', killed d (a ++ b) d' -> killed d a d' \/ killed (apply_ops d a) b d'.
Proof.
  induction a as [|o a IH]; intros d b d' K; [right; exact K|]. cbn [app] in K. inversion K; subst.
  - left. constructor.
  - left. apply k_torn.
  - destruct (IH _ _ _ H3) as [K'|K']; [left; apply k_step; exact K'|right; exact K'].
Qed.
Lemma killed_all os : forall d, killed d os (apply_ops d os).
Proof. induction os as [|o os IH]; intros d; [constructor|]. apply k_step. apply IH. Qed.
Lemma save_get d f t g : dget (apply_ops d (save_ops f (Ok t))) g = if eqb g f then Some t else dget d g.
Proof.
  cbn [save_ops apply_ops fold_left apply_op]. rewrite dget_dset. destruct (eqb_spec g f) as [->|N]; [|apply dget_dset_other; exact N]. unfold content. rewrite dget_dset_same. reflexivity.
Qed.
Lemma save_killed d f t d' : killed d (save_ops f (Ok t)) d' -> d' = d \/ exists p q, t = p ++ q /\ (forall g, dget d' g = if eqb g f then Some p else dget d g) /\ (forall g, In g (dkeys d') <-> g = f \/ In g (dkeys d)) /\ (NoDup (dkeys d) -> NoDup (dkeys d')).
Proof.
  assert (T : forall p q, t = p ++ q -> exists p' q', t = p' ++ q' /\ (forall g, dget (dset (dset d f []) f (content (dset d f []) f ++ p)) g = if eqb g f then Some p' else dget d g) /\ (forall g, In g (dkeys (dset (dset d f []) f (content (dset d f []) f ++ p))) <-> g = f \/ In g (dkeys d)) /\ (NoDup (dkeys d) -> NoDup (dkeys (dset (dset d f []) f (content (dset d f []) f ++ p))))).
  { intros p q E. exists p, q. split; [exact E|]. split; [|split].
    - intros g. rewrite dget_dset. destruct (eqb_spec g f) as [->|N]; [|apply dget_dset_other; exact N]. unfold content. rewrite dget_dset_same. reflexivity.
    - intros g. rewrite !In_dkeys_dset. tauto.
    - intros N. apply NoDup_dset, NoDup_dset. exact N. }
  unfold save_ops. intros K. apply killed_cons in K. destruct K as [->|[(g & p & q & E & _)|K]]; [left; reflexivity|discriminate E|right]. apply killed_cons in K. destruct K as [->|[(g & p & q & E & ->)|K]].
  - exists [], t. split; [reflexivity|]. split; [intros g; apply dget_dset|]. split; [intros g; apply In_dkeys_dset|apply NoDup_dset].
  - injection E as <- E. apply (T p q). exact E.
  - apply killed_nil in K. subst d'. apply (T t []). rewrite app_nil_r. reflexivity.
Qed.

(* ---- versions are determined by the files of the experiment ---- *)
Lemma newest_unique : forall l m, newest_first l -> newest_first m -> (forall t, In t l <-> In t m) -> l = m.
Proof.
  unfold newest_first. induction l as [|x l IH]; intros m S T E.
  - destruct m as [|y m]; [reflexivity|]. destruct (proj2 (E y)). left; reflexivity.
  - destruct m as [|y m]; [destruct (proj1 (E x)); left; reflexivity|]. inversion S as [|? ? S1 F1]; inversion T as [|? ? T1 F2]; subst. rewrite Forall_forall in F1, F2.
    assert (x = y). { destruct (proj1 (E x) (or_introl eq_refl)) as [->|I]; [reflexivity|]. destruct (proj2 (E y) (or_introl eq_refl)) as [->|J]; [reflexivity|]. specialize (F1 y J). specialize (F2 x I). lia. }
    subst y. f_equal. apply IH; try assumption. intros t. specialize (E t). cbn [In] in E. split; intros I.
    + destruct (proj1 E (or_intror I)) as [<-|J]; [specialize (F1 x I); lia|exact J].
    + destruct (proj2 E (or_intror I)) as [<-|J]; [specialize (F2 x I); lia|exact J].
Qed.
Lemma key_dget {V} (d : dict string V) f : In f (dkeys d) <-> dget d f <> None.
Proof. rewrite dget_None. destruct (in_dec string_dec f (dkeys d)); tauto. Qed.

Section Facts.
Context {D G G' X : Type}.
Variables (ha : algorithm -> string) (hv : dict string scalar -> string) (hd : D -> string) (data : string -> res D) (run : algorithm -> D -> res G).
Variables (listing : dir ustr -> list string) (second : X -> Z) (text_of : X -> aref -> @result G -> res ustr) (parse : ustr -> res (@result G')).
Hypothesis HL : lists listing.
Variables (w : world) (ws : workspace).
Notation exec := (execute_experiment ha hv hd data run).
Notation needs := (needs_text ha hv hd data listing parse).
Notation check := (check_latest (G := G') ha hv hd data).
Notation last_of := (latest listing parse).
Implicit Types d : dir ustr.

(* d and d' have the same results of n *)
Definition agree d d' n := forall t, dget d' (version_file n t) = dget d (version_file n t).
(* d' has the results of n that d has, and possibly a new one *)
Definition after (s : Z) d d' n (o : option ustr) := forall u, dget d' (version_file n u) = match o with Some t => if Z.eqb u s then Some t else dget d (version_file n u) | None => dget d (version_file n u) end.

Lemma versions_of d n e : tidy ws d -> dget (experiments ws) n = Some e -> exists vs, load_versions (listing d) n = Ok vs /\ newest_first vs /\ forall t, In t vs <-> In (version_file n t) (dkeys d).
Proof.
  intros (N & S) E. destruct (load_versions_ok (listing d) n) as (vs & A & B & C).
  - eapply Permutation_NoDup; [symmetry; apply HL|exact N].
  - intros f I. eapply S; [exact E|]. eapply Permutation_in; [apply HL|exact I].
  - exists vs. split; [exact A|]. split; [exact B|]. intros t. rewrite C. split; apply Permutation_in; [apply HL|symmetry; apply HL].
Qed.
Lemma agree_versions d d' n e : tidy ws d -> tidy ws d' -> dget (experiments ws) n = Some e -> agree d d' n -> load_versions (listing d') n = load_versions (listing d) n.
Proof.
  intros T T' E A. destruct (versions_of d n e T E) as (vs & H1 & H2 & H3). destruct (versions_of d' n e T' E) as (vs' & H1' & H2' & H3'). rewrite H1, H1'. f_equal. apply newest_unique; try assumption. intros t. rewrite H3, H3', !key_dget, (A t). reflexivity.
Qed.
Lemma agree_latest d d' n e : tidy ws d -> tidy ws d' -> dget (experiments ws) n = Some e -> agree d d' n -> last_of d' n = last_of d n.
Proof.
  intros T T' E A. unfold latest, load_latest. rewrite (agree_versions d d' n e T T' E A). destruct (load_versions (listing d) n) as [[|t vs]|]; try reflexivity. cbn [rbind negb]. unfold read_file. rewrite (A t). reflexivity.
Qed.
Lemma agree_needs d d' n e : tidy ws d -> tidy ws d' -> dget (experiments ws) n = Some e -> agree d d' n -> needs w ws d' n = needs w ws d n.
Proof. intros T T' E A. unfold needs_text. rewrite (agree_versions d d' n e T T' E A), (agree_latest d d' n e T T' E A). reflexivity. Qed.
Lemma after_head d d' n e s t : tidy ws d -> tidy ws d' -> dget (experiments ws) n = Some e -> not_newer d n s -> after s d d' n (Some t) -> exists vs, load_versions (listing d') n = Ok (s :: vs).
Proof.
  intros T T' E N A. destruct (versions_of d' n e T' E) as (vs & H1 & H2 & H3). assert (I : In s vs). { apply H3, key_dget. rewrite (A s), Z.eqb_refl. discriminate. }
  assert (L : forall u, In u vs -> Z.le u s). { intros u Hu. apply H3, key_dget in Hu. rewrite (A u) in Hu. destruct (Z.eqb_spec u s) as [Q|Q]; [lia|]. apply N. apply key_dget. exact Hu. }
  destruct vs as [|v vs]; [destruct I|]. exists vs. rewrite H1. do 2 f_equal. inversion H2 as [|? ? ? F]; subst. rewrite Forall_forall in F. destruct I as [->|I]; [reflexivity|]. specialize (F s I). specialize (L v (or_introl eq_refl)). lia.
Qed.
Lemma after_latest d d' n e s t : tidy ws d -> tidy ws d' -> dget (experiments ws) n = Some e -> not_newer d n s -> after s d d' n (Some t) -> last_of d' n = parse t.
Proof.
  intros T T' E N A. destruct (after_head d d' n e s t T T' E N A) as (vs & V). unfold latest, load_latest. rewrite V. cbn [rbind negb]. unfold read_file. rewrite (A s), Z.eqb_refl. reflexivity.
Qed.
Lemma after_needs d d' n e s t : tidy ws d -> tidy ws d' -> dget (experiments ws) n = Some e -> not_newer d n s -> after s d d' n (Some t) ->
  needs w ws d' n = match parse t with Err x => (w, Err x) | Ok l => check w ws e l end.
Proof.
  intros T T' E N A. destruct (after_head d d' n e s t T T' E N A) as (vs & V). unfold needs_text. rewrite E, V, (after_latest d d' n e s t T T' E N A). reflexivity.
Qed.

(* ---- the world does not change ---- *)
Hypothesis HU : unshared w ws.
Lemma after_world p r a values : dget (pipelines ws) p = Some r -> load_algorithm w r = Ok a -> after_factory w r (graph_model_factory a values) = w.
Proof.
  intros P L. destruct (HU p r P) as [T|(a' & L' & S & C)]; [unfold after_factory; destruct (r_type r); try reflexivity; contradiction|].
  rewrite L in L'. injection L' as <-. rewrite (factory_same a values S C). unfold after_factory. destruct (r_type r) eqn:T; try reflexivity. unfold load_algorithm in L. rewrite T in L. destruct (dget (w_mod w) (r_ref r)) as [b|] eqn:M; [|discriminate]. injection L as ->.
  assert (Q : dset (w_mod w) (r_ref r) a = w_mod w). { clear - M. induction (w_mod w) as [|[k v] l IH]; [discriminate|]. cbn [dget dset] in *. destruct (eqb_spec (r_ref r) k) as [Q|N]; [injection M as ->; reflexivity|]. rewrite IH by exact M. reflexivity. }
  rewrite Q. destruct w; reflexivity.
Qed.
Lemma exec_world e : fst (exec w ws e) = w.
Proof.
  unfold execute_experiment. destruct (dget (pipelines ws) (e_pipeline e)) as [r|] eqn:P; [|reflexivity]. destruct (load_algorithm w r) as [a|] eqn:L; [|reflexivity]. cbn [rbind]. destruct (variables_of a) as [vs|]; [|reflexivity]. cbn [rbind].
  destruct (validate_variable_values vs (e_variables e)); [|reflexivity]. cbn [rbind]. destruct (dget (dataloaders ws) (e_dataloader e)); [|reflexivity]. destruct (data s); [|reflexivity]. cbn [fst]. eapply after_world; eassumption.
Qed.
Lemma check_world e l : fst (check w ws e l) = w.
Proof.
  unfold check_latest. destruct (res_alg_hash l); [|reflexivity]. destruct (res_data_hash l); [|reflexivity]. destruct (dget (pipelines ws) (e_pipeline e)) as [r|] eqn:P; [|reflexivity]. destruct (load_algorithm w r) as [a|] eqn:L; [|reflexivity]. cbn [rbind]. destruct (variables_of a) as [vs|]; [|reflexivity]. cbn [rbind].
  destruct (validate_variable_values vs (e_variables e)); [|reflexivity]. cbn [rbind]. match goal with |- context [if ?b then _ else _] => destruct b; [reflexivity|] end. cbn [fst]. eapply after_world; eassumption.
Qed.
Lemma needs_world d n : fst (needs w ws d n) = w.
Proof. unfold needs_text. destruct (dget (experiments ws) n) as [e|]; [|reflexivity]. destruct (load_versions (listing d) n) as [[|t vs]|]; try reflexivity. destruct (last_of d n); [apply check_world|reflexivity]. Qed.
Lemma check_fresh (keep : G -> G') e l : exec w ws e = (w, Ok l) -> (forall r a, dget (pipelines ws) (e_pipeline e) = Some r -> load_algorithm w r = Ok a -> steps_ok a /\ covers a e) -> check w ws e (kept keep l) = (w, Ok false).
Proof.
  intros H C. assert (W := check_world e (kept keep l)). apply execute_inv in H. destruct H as (r & a & vs & k & dt & a' & g & Dp & LA & AV & V & Dl & DT & F & R & _ & ->). destruct (C r a Dp LA) as [SO CV].
  rewrite (factory_agree a e vs SO AV V CV) in F. unfold check_latest, kept in *. cbn [res_alg_hash res_data_hash res_vars_hash] in *. rewrite Dp, LA in *. cbn [rbind] in *. unfold variables_of in *. rewrite AV in *. cbn [rbind] in *. rewrite V in *. cbn [rbind] in *. rewrite eqb_refl in *. cbn [negb] in *. rewrite F in *. cbn [rbind fst] in *. rewrite W, eqb_refl. cbn [negb]. rewrite Dl, DT. cbn [rbind]. rewrite eqb_refl. reflexivity.
Qed.
Lemma check_up_to_date e l : snd (check w ws e l) = Ok false -> up_to_date ha hv hd data w ws e l.
Proof.
  unfold check_latest. destruct (res_alg_hash l) as [ah|] eqn:AH; [|discriminate]. destruct (res_data_hash l) as [dh|] eqn:DH; [|discriminate]. destruct (dget (pipelines ws) (e_pipeline e)) as [r|] eqn:P; [|discriminate].
  destruct (load_algorithm w r) as [a|] eqn:L; [|discriminate]. cbn [rbind]. unfold variables_of. destruct (a_variables a) as [vs|] eqn:A; [|discriminate]. cbn [rbind]. destruct (validate_variable_values vs (e_variables e)) as [[]|] eqn:V; [|discriminate]. cbn [rbind].
  destruct (res_vars_hash l) as [vh|] eqn:VH; [|discriminate]. destruct (eqb_spec vh (hv (resolve_variables vs (e_variables e)))) as [EV|EV]; cbn [negb]; [|discriminate].
  destruct (graph_model_factory a (Some (resolve_variables vs (e_variables e)))) as [a'|] eqn:F; [|discriminate]. cbn [rbind snd]. destruct (eqb_spec ah (ha a')) as [EA|EA]; cbn [negb]; [|discriminate].
  destruct (dget (dataloaders ws) (e_dataloader e)) as [k|] eqn:K; [|discriminate]. destruct (data k) as [dt|] eqn:DT; [|discriminate]. cbn [rbind]. destruct (eqb_spec dh (hd dt)) as [ED|ED]; cbn [negb]; [|discriminate]. intros _.
  exists r, a, vs, a', k, dt. repeat (split; [first [reflexivity|assumption|congruence]|]). congruence.
Qed.
Lemma needs_up_to_date d n e : dget (experiments ws) n = Some e -> snd (needs w ws d n) = Ok false -> exists l, last_of d n = Ok l /\ up_to_date ha hv hd data w ws e l.
Proof.
  intros E. unfold needs_text. rewrite E. destruct (load_versions (listing d) n) as [[|t vs]|]; [discriminate| |discriminate]. destruct (last_of d n) as [l|]; [|discriminate]. intros H. exists l. split; [reflexivity|]. apply check_up_to_date, H.
Qed.
Lemma up_to_date_same (keep : G -> G') e l w0 ws0 e0 w1 : (forall x y, ha x = ha y -> x = y) -> (forall x y, hv x = hv y -> x = y) -> (forall x y, hd x = hd y -> x = y) ->
  up_to_date ha hv hd data w ws e (kept keep l) -> exec w0 ws0 e0 = (w1, Ok l) -> (forall r a, dget (pipelines ws) (e_pipeline e) = Some r -> load_algorithm w r = Ok a -> steps_ok a /\ covers a e) -> exec w ws e = (w, Ok l).
Proof.
  intros IA IV ID (r & a & vs & a' & k & dt & P & L & A & V & F & K & DT & HA & HV & HD) XE C. apply execute_inv in XE. destruct XE as (r0 & a0 & vs0 & l0 & dt0 & a0' & g & _ & _ & _ & _ & _ & _ & _ & R0 & _ & ->).
  cbn [kept res_alg_hash res_vars_hash res_data_hash] in HA, HV, HD. injection HA as HA. injection HV as HV. injection HD as HD. apply IA in HA. apply IV in HV. apply ID in HD. subst a0' dt0. destruct (C r a P L) as [SO CV]. rewrite <- (factory_agree a e vs SO A V CV) in F.
  assert (W := exec_world e). unfold execute_experiment in *. rewrite P, L in *. cbn [rbind] in *. unfold variables_of in *. rewrite A in *. cbn [rbind] in *. rewrite V in *. cbn [rbind] in *. rewrite K, DT, F in *. cbn [rbind fst] in *. rewrite R0 in *. cbn [rbind] in *. rewrite W, HV. reflexivity.
Qed.
End Facts.
