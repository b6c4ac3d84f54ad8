(* Generic reasoning about completeness of a step: when some test call of the step is bound to propose
   an action that establishes T, the step establishes T, in every execution mode. *)
From Verif Require Import Base PyDict PyDictFacts Graph Actions ActionSpec ActionMain Generators Rules IndepTests Pipeline Parallel PipeFacts RuleFacts.

Section Serve.
Variable Inv T : graph -> Prop.
Variable E : exn -> Prop.
Variable Q win : tresult -> Prop.
Variable dry : bool.
Variable A : list id -> Prop.
Definition InvT (g : graph) : Prop := Inv g /\ T g.
Hypothesis HI : dry = false -> forall i, Q i -> keeps Inv E (apply_action i) (fun _ _ => True).
Hypothesis HT : dry = false -> forall i, Q i -> keeps InvT E (apply_action i) (fun _ _ => True).
Hypothesis HW : dry = false -> forall i g, Q i -> win i -> Inv g -> T (fst (apply_action i g)).

Definition served (a : acts2) (g : graph) : Prop := T g \/ (dry = true /\ exists i, In i (fst a) /\ win i).
Notation kI := (keeps Inv E).

(* the same for one start graph *)
Definition tri {X} (m : ST X) (g : graph) (P : X -> graph -> Prop) : Prop :=
  Inv (fst (m g)) /\ match snd (m g) with Ok a => P a (fst (m g)) | Err e => E e end.
Lemma tri_bind {X Y} (m : ST X) (k : X -> ST Y) g (P : X -> graph -> Prop) (P' : Y -> graph -> Prop) :
  tri m g P -> (forall a g1, Inv g1 -> P a g1 -> tri (k a) g1 P') -> tri (bind m k) g P'.
Proof. unfold tri, bind. intros [I1 R1] K. destruct (m g) as [g1 [a|e]]; cbn [fst snd] in *; [apply K; assumption|auto]. Qed.
Lemma tri_gget {Y} (k : graph -> ST Y) g (P' : Y -> graph -> Prop) : tri (k g) g P' -> tri (bind gget k) g P'.
Proof. intros K; exact K. Qed.
Lemma tri_liftr {X Y} (r : res X) (k : X -> ST Y) g (P' : Y -> graph -> Prop) : Inv g ->
  match r with Ok a => tri (k a) g P' | Err e => E e end -> tri (bind (liftr r) k) g P'.
Proof. intros I K. destruct r; [exact K|]. split; [exact I|exact K]. Qed.
Lemma tri_ret {X} (a : X) g (P : X -> graph -> Prop) : Inv g -> P a g -> tri (ret a) g P.
Proof. intros I H; split; [exact I|exact H]. Qed.
Lemma tri_keeps {X} (m : ST X) (P : X -> graph -> Prop) g : kI m P -> Inv g -> tri m g P.
Proof. intros K I; exact (K g I). Qed.
Lemma tri_weaken {X} (m : ST X) g (P P' : X -> graph -> Prop) : tri m g P -> (forall a g, Inv g -> P a g -> P' a g) -> tri m g P'.
Proof. intros [I1 R1] K; split; [exact I1|]. destruct (snd (m g)); auto. Qed.
(* keeping Inv and T means keeping Inv with T as an additional postcondition *)
Lemma tri_T {X} (m : ST X) (P : X -> graph -> Prop) g : keeps InvT E m P -> Inv g -> T g -> tri m g (fun a g => P a g /\ T g).
Proof. intros K I t. destruct (K g (conj I t)) as [[I1 t1] R]. split; [exact I1|]. destruct (snd (m g)); auto. Qed.

Lemma items_win l i : Forall Q l -> In i l -> win i -> forall g, Inv g -> tri (take_items dry l) g (fun t g => (T g \/ (dry = true /\ In i t)) /\ Forall Q t).
Proof.
  intros F Hi W. induction l as [|j l IH]; intros g I; [destruct Hi|]. inversion F as [|? ? Qj Fl]; subst. cbn [take_items].
  destruct Hi as [->|Hi].
  - destruct (bool_dec dry true) as [D|D].
    + apply (tri_bind _ _ _ (fun b _ => b = true)); [rewrite D; apply tri_ret; auto|]. intros b g1 I1 ->.
      eapply tri_bind; [apply tri_keeps; [apply (keeps_items Inv E Q dry HI l Fl)|exact I1]|]. intros t g2 I2 Ft. apply tri_ret; [exact I2|].
      split; [right; cbn; auto|constructor; assumption].
    + apply not_true_is_false in D. apply (tri_bind _ _ _ (fun _ g => T g)).
      { rewrite D. destruct (HI D i Qj g I) as [I1 R1]. split; [exact I1|]. assert (t1 := HW D i g Qj W I). destruct (snd (apply_action i g)); auto. }
      intros b g1 I1 t1. eapply tri_bind; [apply (tri_T _ _ g1 (keeps_items InvT E Q dry HT l Fl) I1 t1)|].
      intros t g2 I2 [Ft t2]. apply tri_ret; [exact I2|]. split; [auto|]. destruct b; [constructor|]; assumption.
  - apply (tri_bind _ _ _ (fun _ _ => True)).
    { destruct dry eqn:D; [apply tri_ret; auto|]. apply tri_keeps; [apply (HI eq_refl j Qj)|exact I]. }
    intros b g1 I1 _. eapply tri_bind; [apply (IH Fl Hi g1 I1)|]. intros t g2 I2 [S Ft]. apply tri_ret; [exact I2|].
    split; [destruct S as [S|[D S]]; [left; exact S|right; split; [exact D|destruct b; cbn; auto]]|destruct b; [constructor|]; assumption].
Qed.

Lemma take_T rs g : Forall (goodo Q) rs -> Inv g -> T g -> tri (take_action no_hooks dry rs) g (fun a g => good2 Q a /\ T g).
Proof. intros F I t. exact (tri_T _ _ g (keeps_take InvT E Q no_hooks (no_hooks_good _ _ _) dry HT rs F) I t). Qed.
Lemma take_I rs g : Forall (goodo Q) rs -> Inv g -> tri (take_action no_hooks dry rs) g (fun a g => good2 Q a).
Proof. intros F I. exact (tri_keeps _ _ g (keeps_take Inv E Q no_hooks (no_hooks_good _ _ _) dry HI rs F) I). Qed.

Lemma take_serve rs o i : Forall (goodo Q) rs -> In o rs -> In i (items_of o) -> win i ->
  forall g, Inv g -> tri (take_action no_hooks dry rs) g (fun a g => served a g /\ good2 Q a).
Proof.
  induction rs as [|o' rs IH]; intros F Ho Hi W g I; [destruct Ho|]. inversion F as [|? ? Fo Fr]; subst. destruct Ho as [->|Ho].
  - destruct o as [items|]; [|destruct Hi]. cbn [items_of] in Hi. cbn [take_action]. apply tri_gget.
    cbn [run_pre_hooks no_hooks pre_hooks rfold]. eapply tri_bind; [apply (items_win items i Fo Hi W g I)|]. intros t g1 I1 [S Ft].
    apply tri_gget. cbn [run_post_hooks no_hooks post_hooks rfold]. destruct S as [t1|[D It]].
    + eapply tri_bind; [apply (take_T rs g1 Fr I1 t1)|]. intros p g2 I2 [[G1 G2] t2]. apply tri_ret; [exact I2|]. split; [left; exact t2|].
      split; cbn; apply Forall_app; auto.
    + eapply tri_bind; [apply (take_I rs g1 Fr I1)|]. intros p g2 I2 [G1 G2]. apply tri_ret; [exact I2|]. 
      split; [right; split; [exact D|]; exists i; cbn; split; [apply in_app_iff; auto|exact W]|]. split; cbn; apply Forall_app; auto.
  - destruct o' as [items|]; [|cbn [take_action]; apply IH; assumption]. cbn [take_action]. apply tri_gget.
    cbn [run_pre_hooks no_hooks pre_hooks rfold]. eapply tri_bind; [apply tri_keeps; [apply (keeps_items Inv E Q dry HI items Fo)|exact I]|].
    intros t g1 I1 Ft. apply tri_gget. cbn [run_post_hooks no_hooks post_hooks rfold].
    eapply tri_bind; [apply (IH Fr Ho Hi W g1 I1)|]. intros p g2 I2 [S [G1 G2]]. apply tri_ret; [exact I2|]. split; [|split; cbn; apply Forall_app; auto].
    destruct S as [S|(D & j & Hj & Wj)]; [left; exact S|right; split; [exact D|]; exists j; cbn; split; [apply in_app_iff; auto|exact Wj]].
Qed.

(* a node combination whose test is bound to propose a winning action, or T holds already *)
Definition wins_on (s : step) (ns : list id) : Prop :=
  forall g us, Inv g -> T g \/ forall o, call s g ns us = Ok o -> exists i, In i (items_of o) /\ win i.

Lemma served_plus_r a b g : served b g -> served (plus2 a b) g.
Proof. intros [t|(D & i & Hi & W)]; [left; exact t|right; split; [exact D|]; exists i; cbn; split; [apply in_app_iff; auto|exact W]]. Qed.
Lemma served_plus_l' a b g : (dry = true /\ exists i, In i (fst a) /\ win i) -> served (plus2 a b) g.
Proof. intros (D & i & Hi & W). right; split; [exact D|]. exists i; cbn; split; [apply in_app_iff; auto|exact W]. Qed.

Section Step.
Variable s : step.
Hypothesis C : good_calls Inv E Q A s.
Lemma CT : good_calls InvT E Q A s.
Proof. intros g ns us [I _] HA HU. exact (C g ns us I HA HU). Qed.

Lemma rmap_In {X Y} (f : X -> res Y) l out x : rmap f l = Ok out -> In x l -> exists y, f x = Ok y /\ In y out.
Proof.
  revert out; induction l as [|a l IH]; intros out R Hx; [destruct Hx|]. cbn in R.
  apply rbind_ok in R. destruct R as (y & E1 & R). apply rbind_ok in R. destruct R as (t & E2 & R). injection R as <-.
  destruct Hx as [->|Hx]; [exists y; cbn; auto|]. destruct (IH _ E2 Hx) as (y' & ? & ?). exists y'; cbn; auto.
Qed.

(* ---- chunked ---- *)
Lemma chunks_T es g : Forall (good_em E A true) es -> Inv g -> T g -> tri (run_chunks no_hooks dry s es) g (fun a g => good2 Q a /\ T g).
Proof. intros F I t. exact (tri_T _ _ g (keeps_chunks InvT E Q no_hooks (no_hooks_good _ _ _) dry HT A s es CT F) I t). Qed.
Lemma chunks_I es g : Forall (good_em E A true) es -> Inv g -> tri (run_chunks no_hooks dry s es) g (fun a g => good2 Q a).
Proof. intros F I. exact (tri_keeps _ _ g (keeps_chunks Inv E Q no_hooks (no_hooks_good _ _ _) dry HI A s es C F) I). Qed.

(* after a part that served, the rest keeps it *)
Lemma then_serve (m m2 : ST acts2) g : tri m g (fun a g => served a g /\ good2 Q a) ->
  (forall g, Inv g -> tri m2 g (fun a g => good2 Q a)) -> (forall g, Inv g -> T g -> tri m2 g (fun a g => good2 Q a /\ T g)) ->
  tri (a <- m ;; b <- m2 ;; ret (plus2 a b)) g (fun a g => served a g /\ good2 Q a).
Proof.
  intros M K KT. eapply tri_bind; [exact M|]. intros a g1 I1 [[t1|S] Ga].
  - eapply tri_bind; [apply (KT g1 I1 t1)|]. intros b g2 I2 [Gb t2]. apply tri_ret; [exact I2|]. split; [left; exact t2|apply good2_plus; assumption].
  - eapply tri_bind; [apply (K g1 I1)|]. intros b g2 I2 Gb. apply tri_ret; [exact I2|]. split; [apply served_plus_l'; exact S|apply good2_plus; assumption].
Qed.
Lemma serve_later (m m2 : ST acts2) g : tri m g (fun a g => good2 Q a) -> (forall g, Inv g -> tri m2 g (fun a g => served a g /\ good2 Q a)) ->
  tri (a <- m ;; b <- m2 ;; ret (plus2 a b)) g (fun a g => served a g /\ good2 Q a).
Proof.
  intros M K. eapply tri_bind; [exact M|]. intros a g1 I1 Ga. eapply tri_bind; [apply (K g1 I1)|]. intros b g2 I2 [S Gb]. apply tri_ret; [exact I2|].
  split; [apply served_plus_r; exact S|apply good2_plus; assumption].
Qed.

Lemma chunks_serve es e ns : Forall (good_em E A true) es -> In e es -> In ns (as_chunk e) -> wins_on s ns ->
  forall g, Inv g -> tri (run_chunks no_hooks dry s es) g (fun a g => served a g /\ good2 Q a).
Proof.
  induction es as [|e' es IH]; intros F He Hn W g I; [destruct He|]. inversion F as [|? ? Fe Fr]; subst. cbn [run_chunks]. apply tri_gget.
  apply tri_liftr; [exact I|]. assert (X := rmap_good Inv E Q A s g I C (as_chunk e') Fe).
  destruct (rmap (fun ns => call s g ns None) (as_chunk e')) as [rs|x] eqn:RM; [|exact X].
  destruct He as [->|He].
  - apply then_serve; [|intros; apply chunks_I; assumption|intros; apply chunks_T; assumption]. destruct (W g None I) as [t|Wc].
    + eapply tri_weaken; [apply (take_T rs g X I t)|]. intros a g1 _ [Ga t1]; split; [left|]; assumption.
    + destruct (rmap_In _ _ _ _ RM Hn) as (o & Co & Ho). destruct (Wc o Co) as (i & Hi & Wi). apply (take_serve rs o i X Ho Hi Wi g I).
  - apply serve_later; [apply take_I; assumption|]. intros; apply IH; assumption.
Qed.

(* a generator block that emits such a node combination, or T holds already *)
Definition block_wins (chunked : bool) (f : graph -> res (list emission)) : Prop :=
  forall g, Inv g -> T g \/ forall es, f g = Ok es -> exists e ns, In e es /\
    (if chunked then In ns (as_chunk e) else as_args e = Ok ns) /\ wins_on s ns.

Lemma blockT chunked f : good_block Inv E A chunked f -> good_block InvT E A chunked f.
Proof. intros G g [I _]; exact (G g I). Qed.

Lemma blocks_T bs g : Forall (good_block Inv E A true) bs -> Inv g -> T g -> tri (run_blocks no_hooks dry s bs) g (fun a g => good2 Q a /\ T g).
Proof.
  intros F I t. assert (FT : Forall (good_block InvT E A true) bs) by (eapply Forall_impl; [|exact F]; apply blockT).
  exact (tri_T _ _ g (keeps_blocks InvT E Q no_hooks (no_hooks_good _ _ _) dry HT A s bs CT FT) I t).
Qed.
Lemma blocks_I bs g : Forall (good_block Inv E A true) bs -> Inv g -> tri (run_blocks no_hooks dry s bs) g (fun a g => good2 Q a).
Proof. intros F I. exact (tri_keeps _ _ g (keeps_blocks Inv E Q no_hooks (no_hooks_good _ _ _) dry HI A s bs C F) I). Qed.

Lemma blocks_serve bs f : Forall (good_block Inv E A true) bs -> In f bs -> block_wins true f ->
  forall g, Inv g -> tri (run_blocks no_hooks dry s bs) g (fun a g => served a g /\ good2 Q a).
Proof.
  induction bs as [|f' bs IH]; intros F Hf W g I; [destruct Hf|]. inversion F as [|? ? Fe Fr]; subst. cbn [run_blocks].
  apply tri_gget. apply tri_liftr; [exact I|]. assert (X := Fe g I). destruct (f' g) as [es|x] eqn:Ef; [|exact X].
  destruct Hf as [->|Hf].
  - apply then_serve; [|intros; apply blocks_I; assumption|intros; apply blocks_T; assumption]. destruct (W g I) as [t|Wb].
    + eapply tri_weaken; [apply (chunks_T es g X I t)|]. intros a g1 _ [Ga t1]; split; [left|]; assumption.
    + destruct (Wb es Ef) as (e & ns & He & Hn & Wn). apply (chunks_serve es e ns X He Hn Wn g I).
  - apply serve_later; [apply chunks_I; assumption|]. intros; apply IH; assumption.
Qed.

(* ---- parallel, whatever the schedule ---- *)
Lemma par_serve : forall bs tasks done_ past g a r, par_run no_hooks dry s bs tasks done_ past g a r ->
  Forall (good_block Inv E A false) bs -> Forall (good_em E A false) tasks -> Forall (goodo Q) done_ -> Forall Inv past -> Inv g -> good2 Q a ->
  (forall p, In p past -> T p -> T g) ->
  (T g \/ (exists f, In f bs /\ block_wins false f) \/ (exists t ns, In t tasks /\ as_args t = Ok ns /\ wins_on s ns) \/
   (exists o i, In o done_ /\ In i (items_of o) /\ win i) \/ (dry = true /\ exists i, In i (fst a) /\ win i)) ->
  match snd r with Ok a => served a (fst r) | Err e => True end.
Proof.
  induction 1 as [past g a|f bs tasks done_ past g a g0 es r Hp Hf _ IH|f bs tasks done_ past g a g0 e Hp Hf
    |bs t1 t t2 done_ past g a g0 o r Hp Hc _ IH|bs t1 t t2 done_ past g a g0 e Hp Hc|bs tasks d1 o d2 past g a g' b r Ht _ IH|bs tasks d1 o d2 past g a g' e Ht];
    intros Fb Ft Fd Fp I G2 Past Case; try (cbn; exact Logic.I).
  - cbn. destruct Case as [t|[(f & [] & _)|[(t & ns & [] & _)|[(o & i & [] & _)|S]]]]; [left; exact t|right; exact S].
  - inversion Fb as [|? ? Hb Fb']; subst. assert (I0 : Inv g0) by (rewrite Forall_forall in Fp; auto).
    assert (X := Hb g0 I0). rewrite Hf in X. apply IH; auto; [apply Forall_app; auto|].
    destruct Case as [t|[(f' & [<-|Hf'] & W)|[(t & ns & Hn & W)|Case]]]; [left; exact t| | | |].
    + destruct (W g0 I0) as [t|Wb]; [left; eapply Past; eauto|]. destruct (Wb es Hf) as (e & ns & He & Hn & Wn).
      right; right; left. exists e, ns. split; [apply in_app_iff; auto|auto].
    + right; left; eauto.
    + right; right; left. exists t, ns. split; [apply in_app_iff; auto|exact W].
    + right; right; right; exact Case.
  - apply Forall_app in Ft. destruct Ft as [Ft1 Ft2]. inversion Ft2 as [|? ? Hem Ft2']; subst.
    assert (I0 : Inv g0) by (rewrite Forall_forall in Fp; auto).
    unfold good_em in Hem. destruct (as_args t) as [ns|x] eqn:Et; cbn in Hc; [|discriminate].
    assert (X := C g0 ns None I0 Hem ltac:(discriminate)). rewrite Hc in X. apply IH; auto; [apply Forall_app; auto|].
    destruct Case as [t'|[W|[(t' & ns' & Hn & Et' & W)|[(o' & i & Ho & Hi & W)|Case]]]]; [left; exact t'|right; left; exact W| | |].
    + apply in_app_iff in Hn. destruct Hn as [Hn|[<-|Hn]].
      * right; right; left. exists t', ns'. split; [apply in_app_iff; auto|auto].
      * rewrite Et in Et'; injection Et' as <-. destruct (W g0 None I0) as [t'|Wc]; [left; eapply Past; eauto|].
        destruct (Wc o Hc) as (i & Hi & Wi). right; right; right; left. exists o, i. cbn; auto.
      * right; right; left. exists t', ns'. split; [apply in_app_iff; auto|auto].
    + right; right; right; left. exists o', i. cbn; auto.
    + right; right; right; right; exact Case.
  - apply Forall_app in Fd. destruct Fd as [Fd1 Fd2]. inversion Fd2 as [|? ? Go Fd2']; subst.
    assert (SG := single_good Q o Go).
    assert (K := keeps_take Inv E Q no_hooks (no_hooks_good _ _ _) dry HI _ SG g I). rewrite Ht in K; cbn in K. destruct K as [I1 Gb].
    assert (MT : T g -> T g').
    { intros t. assert (Y := take_T _ g SG I t). unfold tri in Y. rewrite Ht in Y. cbn in Y. tauto. }
    apply IH; auto; [apply Forall_app; auto|apply good2_plus; assumption| |].
    { intros p [<-|Hp] tp; [exact tp|]. apply MT. eapply Past; eauto. }
    destruct Case as [t'|[W|[W|[(o' & i & Ho & Hi & W)|(D & i & Hi & W)]]]]; [left; auto|right; left; exact W|right; right; left; exact W| |].
    + apply in_app_iff in Ho. destruct Ho as [Ho|[<-|Ho]].
      * right; right; right; left. exists o', i. split; [apply in_app_iff; auto|auto].
      * assert (Y : exists o1, In o1 (single_results o) /\ In i (items_of o1)).
        { destruct o as [l|]; [|destruct Hi]. exists (Some [i]). split; [cbn; apply in_map_iff; exists i; auto|left; reflexivity]. }
        destruct Y as (o1 & Ho1 & Hi1). assert (Z := take_serve _ o1 i SG Ho1 Hi1 W g I). unfold tri in Z. rewrite Ht in Z; cbn in Z. destruct Z as (_ & [t1|(D & j & Hj & Wj)] & _).
        -- left; exact t1.
        -- right; right; right; right. split; [exact D|]. exists j. cbn. split; [apply in_app_iff; auto|exact Wj].
      * right; right; right; left. exists o', i. split; [apply in_app_iff; auto|auto].
    + right; right; right; right. split; [exact D|]. exists i. cbn. split; [apply in_app_iff; auto|exact W].
Qed.

End Step.
End Serve.

(* ---- all calls first (collect mode) ---- *)
Lemma collect_local s g : forall es local os o, collect s g es local = Ok os -> In o local -> In o os.
Proof.
  induction es as [|e es IH]; intros local os o R Ho; cbn in R; [injection R as <-; exact Ho|].
  apply rbind_ok in R. destruct R as (ns & _ & R). apply rbind_ok in R. destruct R as (o1 & _ & R). eapply IH; [exact R|]. apply in_app_iff; auto.
Qed.
Lemma collect_In s g : forall es local os e ns, collect s g es local = Ok os -> In e es -> as_args e = Ok ns ->
  exists us o, call s g ns (Some us) = Ok o /\ In o os.
Proof.
  induction es as [|e' es IH]; intros local os e ns R He Hn; [destruct He|]. cbn in R.
  apply rbind_ok in R. destruct R as (ns' & R1 & R). apply rbind_ok in R. destruct R as (o1 & R2 & R). destruct He as [->|He].
  - rewrite Hn in R1; injection R1 as <-. exists local, o1. split; [exact R2|]. eapply collect_local; [exact R|]. apply in_app_iff; cbn; auto.
  - eapply IH; eassumption.
Qed.

Definition plain_step (s : step) : Prop := s_parallel s = false /\ s_chunked s = false /\ s_sync s = false.

Section Collect.
Variable Inv T : graph -> Prop.
Variable E : exn -> Prop.
Variable Q win : tresult -> Prop.
Variable dry : bool.
Variable A : list id -> Prop.
Hypothesis HI : dry = false -> forall i, Q i -> keeps Inv E (apply_action i) (fun _ _ => True).
Variable s : step.
Hypothesis Pl : plain_step s.
Variable P : runner.
Variable g : graph.
Variable es : list emission.
Hypothesis Gen : gen_run (s_gen s g) g = Ok es.
Hypothesis GE : Forall (good_em E A false) es.
Hypothesis C : good_calls (fun g' => g' = g) E Q A s.
Hypothesis I : Inv g.

Lemma plain_unfold : execute_step P no_hooks s dry g = (rs <- liftr (collect s g es []) ;; take_action no_hooks dry rs) g.
Proof.
  destruct Pl as (P1 & P2 & P3). unfold execute_step. rewrite P1, P2. unfold bind at 1, gget. rewrite Gen, P3. reflexivity.
Qed.

Lemma collect_tri : tri Inv E (execute_step P no_hooks s dry) g (fun a _ => good2 Q a).
Proof.
  unfold tri. rewrite plain_unfold. apply (tri_liftr Inv E (collect s g es []) (take_action no_hooks dry) g (fun a _ => good2 Q a)); [exact I|].
  assert (X := collect_good (fun g' => g' = g) E Q A s g es eq_refl C GE [] (Forall_nil _)).
  destruct (collect s g es []) as [rs|e]; [|exact X]. apply take_I; assumption.
Qed.

Hypothesis HT : dry = false -> forall i, Q i -> keeps (InvT Inv T) E (apply_action i) (fun _ _ => True).
Hypothesis HW : dry = false -> forall i g, Q i -> win i -> Inv g -> T (fst (apply_action i g)).
Lemma collect_serve e ns : In e es -> as_args e = Ok ns -> (forall us o, call s g ns us = Ok o -> exists i, In i (items_of o) /\ win i) ->
  tri Inv E (execute_step P no_hooks s dry) g (fun a g => served T win dry a g /\ good2 Q a).
Proof.
  intros He Hn W. unfold tri. rewrite plain_unfold. apply (tri_liftr Inv E (collect s g es []) (take_action no_hooks dry) g (fun a g => served T win dry a g /\ good2 Q a)); [exact I|].
  assert (X := collect_good (fun g' => g' = g) E Q A s g es eq_refl C GE [] (Forall_nil _)).
  destruct (collect s g es []) as [rs|x] eqn:R; [|exact X]. destruct (collect_In s g es [] rs e ns R He Hn) as (us & o & Co & Ho).
  destruct (W _ _ Co) as (i & Hi & Wi). apply (take_serve Inv T E Q win dry HI HT HW rs o i X Ho Hi Wi g I).
Qed.
End Collect.
