(* Generic reasoning about pipeline execution: an invariant of the graph that is kept by the proposals
   of a step is kept by the step, in every execution mode. *)
From Verif Require Import Base PyDict PyDictFacts Graph GraphSpec GraphFacts GraphInv GraphInv2 GraphInv3 GraphQ GraphMain
  Actions ActionSpec ActionFacts ActionMain Generators Rules IndepTests Pipeline Parallel.

Section Hoare.
Variable Inv : graph -> Prop.
Variable E : exn -> Prop.

Definition keeps {A} (m : ST A) (Post : A -> graph -> Prop) : Prop :=
  forall g, Inv g -> Inv (fst (m g)) /\ match snd (m g) with Ok a => Post a (fst (m g)) | Err e => E e end.

Lemma keeps_ret {A} (a : A) (Post : A -> graph -> Prop) : (forall g, Inv g -> Post a g) -> keeps (ret a) Post.
Proof. intros H g I; cbn; auto. Qed.
Lemma keeps_raise {A} e (Post : A -> graph -> Prop) : E e -> keeps (raise e) Post.
Proof. intros H g I; cbn; auto. Qed.
Lemma keeps_weaken {A} (m : ST A) (P P' : A -> graph -> Prop) : keeps m P -> (forall a g, Inv g -> P a g -> P' a g) -> keeps m P'.
Proof. intros H W g I; destruct (H g I) as [A1 A2]; split; [exact A1|]. destruct (snd (m g)); auto. Qed.

(* the continuation may use what the first part established about the graph *)
Lemma keeps_bind {A B} (m : ST A) (k : A -> ST B) (P : A -> graph -> Prop) (P' : B -> graph -> Prop) :
  keeps m P -> (forall a g, Inv g -> P a g -> Inv (fst (k a g)) /\ match snd (k a g) with Ok b => P' b (fst (k a g)) | Err e => E e end) ->
  keeps (bind m k) P'.
Proof.
  intros H1 H2 g I; unfold bind. destruct (H1 g I) as [I1 R1]. destruct (m g) as [g1 [a|e]]; cbn in *; [apply H2; assumption|auto].
Qed.
Lemma keeps_bind' {A B} (m : ST A) (k : A -> ST B) (P : A -> Prop) (P' : B -> graph -> Prop) :
  keeps m (fun a _ => P a) -> (forall a, P a -> keeps (k a) P') -> keeps (bind m k) P'.
Proof. intros H1 H2; eapply keeps_bind; [exact H1|]. intros a g I HP; apply (H2 a HP g I). Qed.
Lemma keeps_liftr {A} (r : res A) (P : A -> graph -> Prop) : match r with Ok a => forall g, Inv g -> P a g | Err e => E e end -> keeps (liftr r) P.
Proof. destruct r; intros H; [apply keeps_ret|apply keeps_raise]; exact H. Qed.
Lemma keeps_gget {B} (k : graph -> ST B) P : (forall g, Inv g -> keeps (k g) P) -> keeps (bind gget k) P.
Proof. intros H g I; unfold bind, gget; cbn. apply (H g I g I). Qed.

(* ---- one step ---- *)
Variable Q : tresult -> Prop.
Variable H : hooks.
Definition good_hooks : Prop :=
  (forall g l, Inv g -> Forall Q l -> match run_pre_hooks H g l with Ok l' => Forall Q l' | Err e => E e end) /\
  (forall g l, Inv g -> match run_post_hooks H g l with Ok _ => True | Err e => E e end).
Hypothesis Hhooks : good_hooks.
Variable dry : bool.
(* a dry run takes no action *)
Hypothesis Hact : dry = false -> forall i, Q i -> keeps (apply_action i) (fun _ _ => True).

Definition goodo (o : outcome) : Prop := Forall Q (items_of o).
Definition good2 (a : acts2) : Prop := Forall Q (fst a) /\ Forall Q (snd a).

Lemma keeps_items l : Forall Q l -> keeps (take_items dry l) (fun t _ => Forall Q t).
Proof.
  induction l as [|i l IH]; intros F; [apply keeps_ret; constructor|]. inversion F; subst. cbn [take_items].
  apply (keeps_bind' _ _ (fun _ => True)).
  - destruct dry eqn:D; [apply keeps_ret; auto|apply (Hact eq_refl); assumption].
  - intros b _. eapply (keeps_bind' _ _ (Forall Q)); [apply IH; assumption|]. intros t Ft. apply keeps_ret. intros _ _.
    destruct b; [constructor|]; assumption.
Qed.

Lemma keeps_take rs : Forall goodo rs -> keeps (take_action H dry rs) (fun a _ => good2 a).
Proof.
  induction rs as [|[items|] rs IH]; intros F.
  - apply keeps_ret; intros; split; constructor.
  - inversion F as [|? ? Fi Fr]; subst. cbn [take_action]. apply keeps_gget; intros g I. assert (X := proj1 Hhooks g items I Fi).
    destruct (run_pre_hooks H g items) as [items'|e]; [|apply keeps_raise; exact X].
    apply (keeps_bind' _ _ (Forall Q)); [apply keeps_items; exact X|]. intros t Ft. apply keeps_gget; intros g1 I1.
    assert (Y := proj2 Hhooks g1 t I1). destruct (run_post_hooks H g1 t); [|apply keeps_raise; exact Y].
    apply (keeps_bind' _ _ good2); [apply IH; exact Fr|]. intros p [G1 G2]. apply keeps_ret; intros; split; cbn; apply Forall_app; auto.
  - inversion F; subst. apply IH; assumption.
Qed.

Lemma good2_plus a b : good2 a -> good2 b -> good2 (plus2 a b).
Proof. intros [A1 A2] [B1 B2]; split; cbn; apply Forall_app; auto. Qed.

Variable A : list id -> Prop.
Definition good_em (chunked : bool) (e : emission) : Prop :=
  if chunked then Forall A (as_chunk e) else match as_args e with Ok ns => A ns | Err x => E x end.
Definition good_block (chunked : bool) (f : graph -> res (list emission)) : Prop :=
  forall g, Inv g -> match f g with Ok es => Forall (good_em chunked) es | Err e => E e end.
Definition good_calls (s : step) : Prop :=
  forall g ns us, Inv g -> A ns -> (forall l, us = Some l -> Forall goodo l) ->
    match call s g ns us with Ok o => goodo o | Err e => E e end.
Definition good_gen (s : step) (chunked : bool) : Prop := forall g, Inv g -> Forall (good_block chunked) (s_gen s g).

Lemma rmap_good s g : Inv g -> good_calls s -> forall l, Forall A l ->
  match rmap (fun ns => call s g ns None) l with Ok os => Forall goodo os | Err e => E e end.
Proof.
  intros I C; induction l as [|ns l IH]; intros F; cbn; [constructor|]. inversion F; subst.
  assert (X := C g ns None I). destruct (call s g ns None) as [o|e]; cbn; [|apply X; [assumption|discriminate]].
  specialize (IH ltac:(assumption)). destruct (rmap _ l); cbn; [|exact IH]. constructor; [|exact IH]. apply X; [assumption|discriminate].
Qed.

Lemma keeps_chunks s es : good_calls s -> Forall (good_em true) es -> keeps (run_chunks H dry s es) (fun a _ => good2 a).
Proof.
  intros C; induction es as [|e es IH]; intros F; [apply keeps_ret; intros; split; constructor|]. inversion F; subst. cbn [run_chunks].
  apply keeps_gget; intros g I. apply (keeps_bind' _ _ (Forall goodo)).
  - apply keeps_liftr. assert (X := rmap_good s g I C (as_chunk e) ltac:(assumption)). destruct (rmap _ _); auto.
  - intros rs Fr. apply (keeps_bind' _ _ good2); [apply keeps_take; exact Fr|]. intros a Ga.
    apply (keeps_bind' _ _ good2); [apply IH; assumption|]. intros b Gb. apply keeps_ret; intros; apply good2_plus; assumption.
Qed.

Lemma keeps_blocks s bs : good_calls s -> Forall (good_block true) bs -> keeps (run_blocks H dry s bs) (fun a _ => good2 a).
Proof.
  intros C; induction bs as [|f bs IH]; intros F; [apply keeps_ret; intros; split; constructor|]. inversion F as [|? ? Hf Hb]; subst. cbn [run_blocks].
  apply keeps_gget; intros g I. apply (keeps_bind' _ _ (Forall (good_em true))).
  - apply keeps_liftr. specialize (Hf g I). destruct (f g); auto.
  - intros es Fe. apply (keeps_bind' _ _ good2); [apply keeps_chunks; assumption|]. intros a Ga.
    apply (keeps_bind' _ _ good2); [apply IH; assumption|]. intros b Gb. apply keeps_ret; intros; apply good2_plus; assumption.
Qed.

Lemma gen_run_good chunked bs g : Inv g -> Forall (good_block chunked) bs ->
  match gen_run bs g with Ok es => Forall (good_em chunked) es | Err e => E e end.
Proof.
  intros I; unfold gen_run; induction bs as [|f bs IH]; intros F; cbn; [constructor|]. inversion F as [|? ? Hf Hb]; subst.
  specialize (Hf g I). destruct (f g) as [es|e]; cbn; [|exact Hf]. specialize (IH Hb). destruct (rflat _ bs); cbn; [|exact IH].
  apply Forall_app; auto.
Qed.

Lemma collect_good s g es : Inv g -> good_calls s -> Forall (good_em false) es -> forall local, Forall goodo local ->
  match collect s g es local with Ok os => Forall goodo os | Err e => E e end.
Proof.
  intros I C; induction es as [|e es IH]; intros F local L; cbn; [exact L|]. inversion F as [|? ? He Hr]; subst.
  unfold good_em in He. destruct (as_args e) as [ns|x]; cbn; [|exact He].
  assert (X := C g ns (Some local) I He ltac:(intros l Hl; injection Hl as <-; exact L)).
  destruct (call s g ns (Some local)) as [o|x]; cbn; [|exact X]. apply IH; [exact Hr|]. apply Forall_app; auto.
Qed.

Lemma keeps_sync s es : good_calls s -> Forall (good_em false) es -> keeps (run_sync H dry s es) (fun a _ => good2 a).
Proof.
  intros C; induction es as [|e es IH]; intros F; [apply keeps_ret; intros; split; constructor|]. inversion F as [|? ? He Hr]; subst. cbn [run_sync].
  apply keeps_gget; intros g I. apply (keeps_bind' _ _ goodo).
  - apply keeps_liftr. unfold good_em in He. destruct (as_args e) as [ns|x]; cbn; [|exact He].
    assert (X := C g ns (Some []) I He ltac:(intros l Hl; injection Hl as <-; constructor)). destruct (call s g ns (Some [])); auto.
  - intros o Go. apply (keeps_bind' _ _ good2); [apply keeps_take; constructor; [exact Go|constructor]|]. intros a Ga.
    apply (keeps_bind' _ _ good2); [apply IH; assumption|]. intros b Gb. apply keeps_ret; intros; apply good2_plus; assumption.
Qed.

(* parallel execution, whatever the schedule *)
Lemma single_good o : goodo o -> Forall goodo (single_results o).
Proof.
  destruct o as [l|]; cbn; [|intros _; constructor; constructor]. intros F. unfold goodo in F; cbn in F. induction l as [|i l IH]; cbn; constructor; inversion F; subst.
  - constructor; [assumption|constructor].
  - apply IH; assumption.
Qed.

Lemma par_good s : good_calls s -> forall bs tasks done_ past g a r, par_run H dry s bs tasks done_ past g a r ->
  Forall (good_block false) bs -> Forall (good_em false) tasks -> Forall goodo done_ -> Forall Inv past -> Inv g -> good2 a ->
  Inv (fst r) /\ match snd r with Ok a => good2 a | Err e => E e end.
Proof.
  intros C; induction 1 as [past g a|f bs tasks done_ past g a g0 es r Hp Hf _ IH|f bs tasks done_ past g a g0 e Hp Hf
    |bs t1 t t2 done_ past g a g0 o r Hp Hc _ IH|bs t1 t t2 done_ past g a g0 e Hp Hc|bs tasks d1 o d2 past g a g' b r Ht _ IH|bs tasks d1 o d2 past g a g' e Ht];
    intros Fb Ft Fd Fp I G2.
  - cbn; auto.
  - inversion Fb as [|? ? Hb Fb']; subst. rewrite Forall_forall in Fp. specialize (Hb g0 (Fp _ Hp)). rewrite Hf in Hb.
    apply IH; auto; [apply Forall_app; auto|rewrite Forall_forall; exact Fp].
  - inversion Fb as [|? ? Hb Fb']; subst. rewrite Forall_forall in Fp. specialize (Hb g0 (Fp _ Hp)). rewrite Hf in Hb. cbn; auto.
  - apply Forall_app in Ft. destruct Ft as [Ft1 Ft2]. inversion Ft2 as [|? ? Hem Ft2']; subst.
    assert (I0 : Inv g0) by (rewrite Forall_forall in Fp; auto).
    unfold good_em in Hem. destruct (as_args t) as [ns|x]; cbn in Hc; [|discriminate].
    assert (X := C g0 ns None I0 Hem ltac:(discriminate)). rewrite Hc in X. apply IH; auto. apply Forall_app; auto.
  - apply Forall_app in Ft. destruct Ft as [Ft1 Ft2]. inversion Ft2 as [|? ? Hem Ft2']; subst.
    assert (I0 : Inv g0) by (rewrite Forall_forall in Fp; auto).
    unfold good_em in Hem. cbn. split; [exact I|]. destruct (as_args t) as [ns|x]; cbn in Hc; [|injection Hc as <-; exact Hem].
    assert (X := C g0 ns None I0 Hem ltac:(discriminate)). rewrite Hc in X. exact X.
  - apply Forall_app in Fd. destruct Fd as [Fd1 Fd2]. inversion Fd2 as [|? ? Go Fd2']; subst.
    destruct (keeps_take _ (single_good o Go) g I) as [A1 A2]. rewrite Ht in A1, A2; cbn in *.
    apply IH; auto; [apply Forall_app; auto|apply good2_plus; assumption].
  - apply Forall_app in Fd. destruct Fd as [Fd1 Fd2]. inversion Fd2 as [|? ? Go Fd2']; subst.
    destruct (keeps_take _ (single_good o Go) g I) as [A1 A2]. rewrite Ht in A1, A2; cbn in *. auto.
Qed.

Definition good_step (s : step) : Prop := good_calls s /\ good_gen s (negb (s_parallel s) && s_chunked s).

Lemma keeps_step P s : (s_parallel s = true -> pool_runner H P) -> good_step s ->
  keeps (execute_step P H s dry) (fun a _ => good2 a).
Proof.
  intros HP [C G]. unfold execute_step. unfold good_gen in G. destruct (s_parallel s) eqn:Par; cbn [negb andb] in G.
  - intros g I. apply (par_good s C _ _ _ _ _ _ _ (HP eq_refl s dry g)); auto; try constructor; auto; constructor.
  - destruct (s_chunked s).
    + apply keeps_gget; intros g I. apply keeps_blocks; [exact C|apply G; exact I].
    + apply keeps_gget; intros g I. apply (keeps_bind' _ _ (Forall (good_em false))).
      * apply keeps_liftr. assert (X := gen_run_good false _ g I (G g I)). destruct (gen_run _ g); auto.
      * intros es Fe. destruct (s_sync s); [apply keeps_sync; assumption|]. apply (keeps_bind' _ _ (Forall goodo)).
        -- apply keeps_liftr. assert (X := collect_good s g es I C Fe [] (Forall_nil _)). destruct (collect s g es []); auto.
        -- intros rs Fr. apply keeps_take; exact Fr.
Qed.

End Hoare.

Lemma no_hooks_good Inv E Q : good_hooks Inv E Q no_hooks.
Proof. split; cbn; auto. Qed.

(* ---- whole pipelines ---- *)
Section HoarePipe.
Variable Inv : graph -> Prop.
Variable E : exn -> Prop.
Variable P : runner.
Variable H : hooks.

Notation kp := (keeps Inv E).
(* the invariant is kept by one execution of the step *)
Definition step_keeps (Q : tresult -> Prop) (dry : bool) (s : step) : Prop :=
  kp (execute_step P H s dry) (fun a _ => good2 Q a).

Hypothesis Hlog : forall g h, Inv g -> Inv (with_ahist g h).

Lemma keeps_log h : kp (log_step h) (fun _ _ => True).
Proof. intros g I; cbn; auto. Qed.

Lemma keeps_inner Q dry l : Forall (step_keeps Q dry) l -> kp (run_inner P H dry l) (fun a _ => Forall Q (snd a)).
Proof.
  induction l as [|s l IH]; intros F; [apply keeps_ret; intros; constructor|]. inversion F as [|? ? Hs Hl]; subst. cbn [run_inner].
  apply (keeps_bind' _ _ _ _ (good2 Q)); [exact Hs|]. intros a [Ga _]. apply (keeps_bind' _ _ _ _ (fun b => Forall Q (snd b))); [apply IH; exact Hl|].
  intros b Gb. apply keeps_ret; intros; cbn. apply Forall_app; auto.
Qed.

Lemma keeps_loop Q exit l : Forall (step_keeps Q false) l -> E OutOfFuel -> (forall n o e, exit n o = Err e -> E e) ->
  forall fuel n last, kp (run_loop fuel P H exit l n last) (fun _ _ => True).
Proof.
  intros F EO EX; induction fuel as [|f IH]; intros n last; cbn [run_loop]; [apply keeps_raise; exact EO|].
  apply (keeps_bind' _ _ _ _ (fun _ => True)); [apply keeps_liftr; destruct (exit n last) eqn:X; [auto|eapply EX; exact X]|].
  intros stop _. destruct stop; [apply keeps_ret; auto|]. apply (keeps_bind' _ _ _ _ (fun b => Forall Q (snd b))); [apply keeps_inner; exact F|].
  intros a _. apply (keeps_bind' _ _ _ _ (fun _ => True)); [apply IH|]. intros b _. apply keeps_ret; auto.
Qed.

Lemma keeps_together (Q : tresult -> Prop) l : good_hooks Inv E Q H -> (forall i, Q i -> kp (apply_action i) (fun _ _ => True)) -> Forall (step_keeps Q true) l ->
  kp (run_together P H l) (fun _ _ => True).
Proof.
  intros HH HA F. unfold run_together. apply (keeps_bind' _ _ _ _ (fun b => Forall Q (snd b))); [apply keeps_inner; exact F|].
  intros a Ga. apply (keeps_bind' _ _ _ _ (good2 Q)).
  - apply (keeps_take _ _ _ _ HH false (fun _ => HA)). rewrite Forall_forall in Ga |- *. intros o Ho. apply in_map_iff in Ho. destruct Ho as (i & <- & Hi).
    constructor; [auto|constructor].
  - intros b _. apply keeps_ret; auto.
Qed.

Lemma keeps_pstep_plain fuel Q s : step_keeps Q false s -> kp purge_soft_deleted_edges (fun _ _ => True) ->
  kp (run_pstep fuel P H (PStep s)) (fun _ _ => True).
Proof.
  intros S HP. cbn [run_pstep]. apply (keeps_bind' _ _ _ _ (good2 Q)); [exact S|]. intros a _.
  apply (keeps_bind' _ _ _ _ (fun _ => True)); [apply keeps_log|]. intros _ _. exact HP.
Qed.
Lemma keeps_pstep_loop fuel Q name exit l : Forall (step_keeps Q false) l -> E OutOfFuel -> (forall n o e, exit n o = Err e -> E e) ->
  kp (run_pstep fuel P H (PLoop name exit l)) (fun _ _ => True).
Proof.
  intros F EO EX. cbn [run_pstep]. apply (keeps_bind' _ _ _ _ (fun _ => True)); [eapply keeps_loop; eauto|]. intros hs _. apply keeps_log.
Qed.
Lemma keeps_pstep_together fuel (Q : tresult -> Prop) name l : good_hooks Inv E Q H -> (forall i, Q i -> kp (apply_action i) (fun _ _ => True)) -> Forall (step_keeps Q true) l ->
  kp (run_pstep fuel P H (PTogether name l)) (fun _ _ => True).
Proof.
  intros HH HA F. cbn [run_pstep]. apply (keeps_bind' _ _ _ _ (fun _ => True)); [eapply keeps_together; eauto|]. intros hs _. apply keeps_log.
Qed.
Lemma keeps_pipeline fuel l : Forall (fun p => kp (run_pstep fuel P H p) (fun _ _ => True)) l ->
  kp (execute_pipeline fuel P H l) (fun _ _ => True).
Proof.
  induction l as [|p l IH]; intros F; [apply keeps_ret; auto|]. inversion F; subst. cbn [execute_pipeline].
  apply (keeps_bind' _ _ _ _ (fun _ => True)); [assumption|]. intros _ _. apply IH; assumption.
Qed.
End HoarePipe.
