(* Steps whose tests change nothing: they leave the graph as it is when they are executed again. *)
From Verif Require Import Base PyDict PyDictFacts Graph GraphSpec GraphFacts GraphInv GraphInv2 GraphInv3 GraphQ GraphMain
  GraphPaths PathSpec Actions ActionSpec ActionFacts ActionMain Generators GenSpec GenFacts Rules IndepTests Pipeline Parallel PipeFacts RuleFacts
  Construct ConstructSpec ConstructFacts Dag DagFacts DagSep SkelSpec Rows Serve SkelFacts SkelStart SkelSteps SkelMatrix SkelMain
  LoopFacts TotalSpec TotalFacts TotalMain TestedFacts.
Open Scope string_scope.
Open Scope list_scope.

Definition nothing (i : tresult) : Prop := Graph.t_act i = DO_NOTHING.
Definition still (o : outcome) : Prop := Forall nothing (items_of o).

(* ---- the same graph up to the two logs ---- *)
Definition eqv4 (h h' : graph) : Prop := nodes h' = nodes h /\ edges h' = edges h /\ redges h' = redges h /\ dedges h' = dedges h.
Lemma eqv4_refl h : eqv4 h h. Proof. repeat split. Qed.
Lemma eqv4_trans a b c : eqv4 a b -> eqv4 b c -> eqv4 a c.
Proof. intros (A1 & A2 & A3 & A4) (B1 & B2 & B3 & B4). repeat split; congruence. Qed.
Lemma eqv4_sym a b : eqv4 a b -> eqv4 b a.
Proof. intros (A1 & A2 & A3 & A4). repeat split; congruence. Qed.
Lemma eqv4_dee h h' u v : eqv4 h h' -> directed_edge_exists h' u v = directed_edge_exists h u v.
Proof. intros (A1 & A2 & A3 & A4). unfold directed_edge_exists, directed_edge_is_soft_deleted. rewrite A1, A2. reflexivity. Qed.
Lemma eqv4_WF h h' : eqv4 h h' -> WF h -> WF h'.
Proof.
  intros (A1 & A2 & A3 & A4) [W1 W2 W3 W4 W5 W6 W7 W8 W9 W10].
  constructor; unfold eget in *; rewrite ?A1, ?A2, ?A3, ?A4; assumption.
Qed.

(* ---- steps in which every call ends without an action ---- *)
Definition calm_call (s : step) (h : graph) (ns : list id) : Prop := exists o, (forall us, call s h ns us = Ok o) /\ still o.
Definition calm_em (ch : bool) (s : step) (h : graph) (e : emission) : Prop :=
  if ch then forall ns, In ns (as_chunk e) -> calm_call s h ns else exists ns, as_args e = Ok ns /\ calm_call s h ns.
Definition calm_block (s : step) (h : graph) (f : graph -> res (list emission)) : Prop :=
  exists es, f h = Ok es /\ forall e, In e es -> calm_em (negb (s_parallel s) && s_chunked s) s h e.
Definition calm (s : step) (h : graph) : Prop := forall f, In f (s_gen s h) -> calm_block s h f.

Lemma take_items_still dry l g : Forall nothing l -> take_items dry l g = (g, Ok (if dry then l else [])).
Proof.
  induction l as [|i l IH]; intros F; [destruct dry; reflexivity|]. inversion F as [|? ? Ni Fl]; subst. cbn [take_items]. unfold bind.
  destruct dry; cbn [ret]; [|rewrite (do_nothing_act i g Ni)]; unfold ret; rewrite (IH Fl); reflexivity.
Qed.
Lemma take_still dry os g : (forall o, In o os -> still o) -> exists a, take_action no_hooks dry os g = (g, Ok a) /\ Forall nothing (fst a) /\ (dry = false -> fst a = []).
Proof.
  induction os as [|o os IH]; intros H; [exists ([], []); repeat split; constructor|]. destruct (IH (fun o' J => H o' (or_intror J))) as (a & E & Fa & Da).
  destruct o as [l|]; cbn [take_action]; [|exists a; auto]. assert (Fl := H _ (or_introl eq_refl)). unfold still in Fl; cbn in Fl.
  exists ((if dry then l else []) ++ fst a, l ++ snd a). unfold bind at 1, gget. cbn [run_pre_hooks no_hooks pre_hooks rfold].
  unfold bind at 1. rewrite (take_items_still dry l g Fl). unfold bind at 1. cbn. unfold bind. rewrite E. cbn. split; [reflexivity|]. split.
  - apply Forall_app. split; [destruct dry; [exact Fl|constructor]|exact Fa].
  - intros D. rewrite (Da D). subst dry. reflexivity.
Qed.
Lemma single_still o : still o -> forall o', In o' (single_results o) -> still o'.
Proof.
  intros S o' I. destruct o as [l|]; cbn in I; [|destruct I as [<-|[]]; constructor]. apply in_map_iff in I. destruct I as (i & <- & I). constructor; [|constructor].
  unfold still in S; cbn in S. rewrite Forall_forall in S. auto.
Qed.

Section Forward.
Variables (s : step) (h : graph) (dry : bool).
Notation ch := (negb (s_parallel s) && s_chunked s).
Hypothesis Sy : s_sync s = false.
Hypothesis Ca : calm s h.
Notation good a := (Forall nothing (fst a) /\ (dry = false -> fst a = [])).
Lemma good_plus (a b : acts2) : good a -> good b -> good (plus2 a b).
Proof. intros [A1 A2] [B1 B2]. split; [apply Forall_app; auto|]. intros D. cbn. rewrite (A2 D), (B2 D). reflexivity. Qed.
Lemma rmap_calm l : (forall ns, In ns l -> calm_call s h ns) -> exists os, rmap (fun ns => call s h ns None) l = Ok os /\ forall o, In o os -> still o.
Proof.
  induction l as [|ns l IH]; intros C; [exists []; split; [reflexivity|intros o []]|]. destruct (C ns (or_introl eq_refl)) as (o & Co & So).
  destruct (IH (fun n I => C n (or_intror I))) as (os & Eo & Sos). exists (o :: os). cbn [rmap]. rewrite (Co None), Eo. split; [reflexivity|].
  intros o' [<-|I]; [exact So|apply Sos; exact I].
Qed.
Lemma chunks_calm es : (forall e, In e es -> calm_em true s h e) -> exists a, run_chunks no_hooks dry s es h = (h, Ok a) /\ good a.
Proof.
  induction es as [|e es IH]; intros C; [exists ([], []); repeat split; constructor|]. cbn [run_chunks]. unfold bind at 1, gget.
  destruct (rmap_calm (as_chunk e) (C e (or_introl eq_refl))) as (os & Eo & So). rewrite Eo. unfold bind at 1. cbn [liftr ret].
  destruct (take_still dry os h So) as (a & Ea & Ga). unfold bind at 1. unfold ret. rewrite Ea. destruct (IH (fun e' I => C e' (or_intror I))) as (b & Eb & Gb).
  unfold bind. rewrite Eb. exists (plus2 a b). split; [reflexivity|]. apply good_plus; assumption.
Qed.
Lemma blocks_calm : ch = true -> forall bs, (forall f, In f bs -> calm_block s h f) -> exists a, run_blocks no_hooks dry s bs h = (h, Ok a) /\ good a.
Proof.
  intros Ch. induction bs as [|f bs IH]; intros C; [exists ([], []); repeat split; constructor|]. cbn [run_blocks]. unfold bind at 1, gget.
  destruct (C f (or_introl eq_refl)) as (es & Ef & Ce). rewrite Ch in Ce. rewrite Ef. unfold bind at 1. cbn [liftr]. unfold ret at 1. destruct (chunks_calm es Ce) as (a & Ea & Ga).
  unfold bind at 1. rewrite Ea. destruct (IH (fun f' I => C f' (or_intror I))) as (b & Eb & Gb). unfold bind. rewrite Eb. exists (plus2 a b). split; [reflexivity|]. apply good_plus; assumption.
Qed.
Lemma collect_calm es : (forall e, In e es -> calm_em false s h e) -> forall local, (forall o, In o local -> still o) ->
  exists os, collect s h es local = Ok os /\ forall o, In o os -> still o.
Proof.
  induction es as [|e es IH]; intros C local L; [exists local; auto|]. cbn [collect]. destruct (C e (or_introl eq_refl)) as (ns & Ea & o & Co & So). rewrite Ea. cbn [rbind]. rewrite (Co (Some local)). cbn [rbind].
  apply IH; [intros e' I; apply C; right; exact I|]. intros o' I. apply in_app_or in I. destruct I as [I|[<-|[]]]; auto.
Qed.
Lemma gen_run_calm : ch = false -> forall bs, (forall f, In f bs -> calm_block s h f) -> exists es, gen_run bs h = Ok es /\ forall e, In e es -> calm_em false s h e.
Proof.
  intros Ch. induction bs as [|f bs IH]; intros C; [exists []; split; [reflexivity|intros e []]|]. destruct (C f (or_introl eq_refl)) as (es & Ef & Ce). rewrite Ch in Ce.
  destruct (IH (fun f' I => C f' (or_intror I))) as (es' & Ef' & Ce'). unfold gen_run in *. cbn [rflat]. rewrite Ef, Ef'. cbn [rbind]. eexists. split; [reflexivity|].
  intros e I. apply in_app_or in I. destruct I; auto.
Qed.
Lemma par_calm : ch = false -> forall bs tasks done_ past g a r, par_run no_hooks dry s bs tasks done_ past g a r ->
  (forall f, In f bs -> calm_block s h f) -> (forall t, In t tasks -> calm_em false s h t) -> (forall o, In o done_ -> still o) -> (forall x, In x past -> x = h) -> g = h -> good a ->
  exists b, r = (h, Ok b) /\ good b.
Proof.
  intros Ch. induction 1 as [past g a|f bs tasks done_ past g a g1 es r Hp Ef Ru IH|f bs tasks done_ past g a g1 e Hp Ef|bs t1 t t2 done_ past g a g1 o r Hp Ec Ru IH|bs t1 t t2 done_ past g a g1 e Hp Ec|bs tasks d1 o d2 past g a g2 b r Et Ru IH|bs tasks d1 o d2 past g a g2 e Et]; intros B T D Pa Eg Ga.
  - subst. eauto.
  - rewrite (Pa _ Hp) in Ef. destruct (B f (or_introl eq_refl)) as (es' & Ef' & Ce). rewrite Ef' in Ef. injection Ef as <-. rewrite Ch in Ce. apply IH; auto.
    + intros f' I. apply B. right; exact I.
    + intros t I. apply in_app_or in I. destruct I; auto.
  - rewrite (Pa _ Hp) in Ef. destruct (B f (or_introl eq_refl)) as (es' & Ef' & Ce). congruence.
  - rewrite (Pa _ Hp) in Ec. destruct (T t) as (ns & Ea & o' & Co & So); [apply in_or_app; right; left; reflexivity|]. rewrite Ea in Ec. cbn [rbind] in Ec. rewrite (Co None) in Ec. injection Ec as <-.
    apply IH; auto; [intros t' J; apply T; apply in_app_or in J; apply in_or_app; destruct J; [left|right; right]; assumption|]. intros o [<-|J]; [exact So|apply D; exact J].
  - rewrite (Pa _ Hp) in Ec. destruct (T t) as (ns & Ea & o' & Co & So); [apply in_or_app; right; left; reflexivity|]. rewrite Ea in Ec. cbn [rbind] in Ec. rewrite (Co None) in Ec. discriminate.
  - subst g. destruct (take_still dry (single_results o) h) as (b' & Eb & Gb); [apply single_still, D, in_or_app; right; left; reflexivity|]. rewrite Eb in Et. injection Et as <- <-.
    apply IH; auto; [intros o' J; apply D; apply in_app_or in J; apply in_or_app; destruct J; [left|right; right]; assumption|intros x [<-|J]; [reflexivity|apply Pa; exact J]|apply good_plus; assumption].
  - subst g. destruct (take_still dry (single_results o) h) as (b' & Eb & Gb); [apply single_still, D, in_or_app; right; left; reflexivity|]. rewrite Eb in Et. discriminate.
Qed.
Lemma step_calm P : pool_runner no_hooks P -> exists a, execute_step P no_hooks s dry h = (h, Ok a) /\ good a.
Proof.
  intros HP. unfold execute_step. destruct (s_parallel s) eqn:Par.
  - assert (X := HP s dry h). unfold par_exec in X. refine (par_calm _ _ _ _ _ _ _ _ X Ca _ _ _ eq_refl _); try (rewrite Par; reflexivity); try (intros x []; fail); [intros x [<-|[]]; reflexivity|split; [constructor|reflexivity]].
  - destruct (s_chunked s) eqn:Chu.
    + unfold bind, gget. apply blocks_calm; [rewrite Par, Chu; reflexivity|exact Ca].
    + unfold bind at 1, gget. destruct (gen_run_calm ltac:(rewrite Par, Chu; reflexivity) _ Ca) as (es & Es & Ce). rewrite Es. unfold bind at 1. cbn [liftr]. unfold ret at 1. rewrite Sy.
      destruct (collect_calm es Ce [] ltac:(intros o [])) as (os & Eo & So). rewrite Eo. unfold bind. cbn [liftr]. unfold ret. apply take_still. exact So.
Qed.
End Forward.

(* ---- from a run that removed nothing ---- *)
Section Back.
Variable g0 : graph.
Variable N : numerics.
Variable Sep : id -> id -> list id -> Prop.
Hypothesis Ssym : forall x y S, Sep x y S -> Sep y x S.
Notation node := (SkelFacts.node g0).
Notation E := (fun _ : exn => True).
Notation cor := (corr g0 N).
Notation sk := (skel g0 [] cor Sep).
Notation Q := (proposal g0 Sep).
Definition Lost (g : graph) : Prop := sk g /\ exists x y, node x /\ node y /\ x <> y /\ gone x y g.
Lemma lost_full g : Lost g -> full g0 g -> False.
Proof. intros (_ & x & y & Hx & Hy & Ne & G) F. unfold gone in G. rewrite (F x y Hx Hy Ne) in G. discriminate. Qed.
Lemma q_lost i : Q i -> keeps Lost E (apply_action i) (fun _ _ => True).
Proof.
  intros Hi g (K & x & y & Hx & Hy & Ne & G). assert (X := act_gone g0 [] cor Sep Ssym (Snadj Sep) x y i Hi g (conj K G)). destruct X as [[X1 X2] X3].
  split; [split; [exact X1|exists x, y; auto]|]. destruct (snd (apply_action i g)); [exact Logic.I|destruct X3].
Qed.
Lemma item_back i g g' r : Q i -> sk g -> full g0 g -> apply_action i g = (g', r) -> Lost g' \/ (nothing i /\ g' = g).
Proof.
  intros Hi K F R. destruct Hi as [A|(x & y & S & -> & Hx & Hy & Ne & Sp)]; [rewrite (do_nothing_act i g A) in R; injection R as <- <-; right; split; [exact A|reflexivity]|].
  left. destruct (separated_spec g0 [] cor Sep Ssym (Snadj Sep) g x y S g' r K Hx Hy Ne Sp R) as [(_ & _ & L)|(_ & K' & L & _)].
  - rewrite (F x y Hx Hy Ne) in L. discriminate.
  - split; [exact K'|exists x, y; auto].
Qed.
Lemma items_back l : Forall Q l -> forall g g' r, sk g -> full g0 g -> take_items false l g = (g', r) -> Lost g' \/ (Forall nothing l /\ g' = g).
Proof.
  induction l as [|i l IH]; intros FQ g g' r K F R; [injection R as <- <-; right; split; [constructor|reflexivity]|]. inversion FQ as [|? ? Qi Ql]; subst.
  cbn [take_items] in R. unfold bind in R. destruct (apply_action i g) as [g1 r1] eqn:R1. destruct (item_back i g g1 r1 Qi K F R1) as [L|[Ni ->]].
  - left. destruct r1 as [b|e]; [|injection R as <- <-; exact L]. assert (X := proj1 (keeps_items Lost E Q false (fun _ => q_lost) l Ql g1 L)).
    destruct (take_items false l g1) as [g2 [t|e]]; cbn [fst] in X; injection R as <- <-; exact X.
  - rewrite (do_nothing_act i g Ni) in R1. injection R1 as <-. destruct (take_items false l g) as [g2 r2] eqn:R2. destruct (IH Ql g g2 r2 K F R2) as [L|[Nl ->]].
    + left. destruct r2; injection R as <- <-; exact L.
    + right. split; [constructor; assumption|]. destruct r2; injection R as <- <-; reflexivity.
Qed.
Lemma take_lost os g : Forall (goodo Q) os -> Lost g -> Lost (fst (take_action no_hooks false os g)).
Proof. intros F L. exact (proj1 (keeps_take Lost E Q no_hooks (no_hooks_good _ _ _) false (fun _ => q_lost) os F g L)). Qed.
Lemma take_back os : Forall (goodo Q) os -> forall g g' r, sk g -> full g0 g -> take_action no_hooks false os g = (g', r) -> Lost g' \/ ((forall o, In o os -> still o) /\ g' = g).
Proof.
  induction os as [|o os IH]; intros FQ g g' r K F R; [injection R as <- <-; right; split; [intros o []|reflexivity]|]. inversion FQ as [|? ? Qo Qos]; subst.
  destruct o as [l|].
  - cbn [take_action] in R. unfold bind at 1, gget in R. cbn [run_pre_hooks no_hooks pre_hooks rfold] in R. unfold bind at 1 in R. destruct (take_items false l g) as [g1 r1] eqn:R1.
    destruct (items_back l Qo g g1 r1 K F R1) as [L|[Nl ->]].
    + left. destruct r1 as [t|e]; [|injection R as <- <-; exact L]. unfold bind in R. cbn in R. assert (X := take_lost os g1 Qos L).
      destruct (take_action no_hooks false os g1) as [g2 [p|e]]; cbn [fst] in X; injection R as <- <-; exact X.
    + rewrite (take_items_still false l g Nl) in R1. injection R1 as <-. unfold bind in R. cbn in R. destruct (take_action no_hooks false os g) as [g2 r2] eqn:R2.
      destruct (IH Qos g g2 r2 K F R2) as [L|[Nos ->]].
      * left. destruct r2; injection R as <- <-; exact L.
      * right. split; [intros o [<-|I]; [exact Nl|apply Nos; exact I]|]. destruct r2; injection R as <- <-; reflexivity.
  - cbn [take_action] in R. destruct (IH Qos g g' r K F R) as [L|[Nos ->]]; [left; exact L|]. right. split; [|reflexivity]. intros o [<-|I]; [constructor|apply Nos; exact I].
Qed.

Variable s : step.
Variable A : list id -> Prop.
Hypothesis GS : good_step sk E Q A s.
Hypothesis Un : s_unapplied s = false.
Hypothesis Sy : s_sync s = false.
Lemma call_us g ns us : call s g ns us = call s g ns None.
Proof. unfold call. rewrite Un. reflexivity. Qed.
Lemma calm_call_of g ns o : call s g ns None = Ok o -> still o -> calm_call s g ns.
Proof. intros C S. exists o. split; [|exact S]. intros us. rewrite call_us. exact C. Qed.
Lemma rmap_back g l os : rmap (fun ns => call s g ns None) l = Ok os -> (forall o, In o os -> still o) -> forall ns, In ns l -> calm_call s g ns.
Proof. intros R S ns I. destruct (proj1 (rmap_each _ _ _ R) ns I) as (o & Co & Io). apply (calm_call_of g ns o Co). apply S; exact Io. Qed.

Lemma chunks_lost es g : Forall (good_em E A true) es -> Lost g -> Lost (fst (run_chunks no_hooks false s es g)).
Proof.
  intros F L. assert (GC : good_calls Lost E Q A s) by (intros g1 ns us [K1 _]; exact (proj1 GS g1 ns us K1)).
  exact (proj1 (keeps_chunks Lost E Q no_hooks (no_hooks_good _ _ _) false (fun _ => q_lost) A s es GC F g L)).
Qed.
Lemma blocks_lost bs g : Forall (good_block sk E A true) bs -> Lost g -> Lost (fst (run_blocks no_hooks false s bs g)).
Proof.
  intros F L. assert (GC : good_calls Lost E Q A s) by (intros g1 ns us [K1 _]; exact (proj1 GS g1 ns us K1)).
  refine (proj1 (keeps_blocks Lost E Q no_hooks (no_hooks_good _ _ _) false (fun _ => q_lost) A s bs GC _ g L)).
  eapply Forall_impl; [|exact F]. intros f Hf g2 [K2 _]. exact (Hf g2 K2).
Qed.
Lemma chunks_back es : Forall (good_em E A true) es -> forall g g' a, sk g -> full g0 g -> run_chunks no_hooks false s es g = (g', Ok a) ->
  Lost g' \/ ((forall e, In e es -> calm_em true s g e) /\ g' = g).
Proof.
  induction es as [|e es IH]; intros FE g g' a K F R; [injection R as <- _; right; split; [intros e []|reflexivity]|]. inversion FE as [|? ? He Hes]; subst.
  cbn [run_chunks] in R. unfold bind at 1, gget in R. unfold bind at 1 in R. assert (GR := rmap_good sk E Q A s g K (proj1 GS) (as_chunk e) He).
  destruct (rmap (fun ns => call s g ns None) (as_chunk e)) as [os|x] eqn:RM; [|discriminate]. cbn [liftr] in R. unfold ret at 1 in R. unfold bind at 1 in R.
  destruct (take_action no_hooks false os g) as [g1 r1] eqn:R1. destruct (take_back os GR g g1 r1 K F R1) as [L|[So ->]].
  - left. destruct r1 as [b|x]; [|discriminate]. unfold bind in R. assert (X := chunks_lost es g1 Hes L). destruct (run_chunks no_hooks false s es g1) as [g2 [c|x]]; [|discriminate].
    injection R as <- _. exact X.
  - destruct r1 as [b|x]; [|discriminate]. unfold bind in R. destruct (run_chunks no_hooks false s es g) as [g2 [c|x]] eqn:R2; [|discriminate]. injection R as <- _.
    destruct (IH Hes g g2 c K F R2) as [L|[Ce ->]]; [left; exact L|]. right. split; [|reflexivity]. intros e' [<-|I]; [exact (rmap_back g _ os RM So)|apply Ce; exact I].
Qed.
Lemma blocks_back bs : negb (s_parallel s) && s_chunked s = true -> Forall (good_block sk E A true) bs -> forall g g' a, sk g -> full g0 g -> run_blocks no_hooks false s bs g = (g', Ok a) ->
  Lost g' \/ ((forall f, In f bs -> calm_block s g f) /\ g' = g).
Proof.
  intros Ch. induction bs as [|f bs IH]; intros FE g g' a K F R; [injection R as <- _; right; split; [intros e []|reflexivity]|]. inversion FE as [|? ? Hf Hbs]; subst.
  cbn [run_blocks] in R. unfold bind at 1, gget in R. unfold bind at 1 in R. assert (GF := Hf g K). destruct (f g) as [es|x] eqn:Ef; [|discriminate]. cbn [liftr] in R. unfold ret at 1 in R. unfold bind at 1 in R.
  destruct (run_chunks no_hooks false s es g) as [g1 [b|x]] eqn:R1; [|discriminate]. unfold bind in R. destruct (chunks_back es GF g g1 b K F R1) as [L|[Ce ->]].
  - left. assert (X := blocks_lost bs g1 Hbs L). destruct (run_blocks no_hooks false s bs g1) as [g2 [c|x]]; [|discriminate]. injection R as <- _. exact X.
  - destruct (run_blocks no_hooks false s bs g) as [g2 [c|x]] eqn:R2; [|discriminate]. injection R as <- _.
    destruct (IH Hbs g g2 c K F R2) as [L|[Cb ->]]; [left; exact L|]. right. split; [|reflexivity]. intros f' [<-|I]; [exists es; rewrite Ch; auto|apply Cb; exact I].
Qed.
Lemma collect_back g es : forall local os, collect s g es local = Ok os -> (forall o, In o os -> still o) -> forall e, In e es -> calm_em false s g e.
Proof.
  assert (Sub : forall es local os, collect s g es local = Ok os -> forall o, In o local -> In o os).
  { clear es. induction es as [|e es IH]; intros local os R o I; [injection R as <-; exact I|]. cbn [collect] in R. destruct (as_args e) as [ns|x]; [|discriminate]. cbn [rbind] in R.
    destruct (call s g ns (Some local)) as [o'|x]; [|discriminate]. cbn [rbind] in R. apply (IH _ _ R). apply in_or_app; left; exact I. }
  induction es as [|e es IH]; intros local os R S e' I; [destruct I|]. cbn [collect] in R. destruct (as_args e) as [ns|x] eqn:Ea; [|discriminate]. cbn [rbind] in R.
  destruct (call s g ns (Some local)) as [o'|x] eqn:Co; [|discriminate]. cbn [rbind] in R. destruct I as [<-|I]; [|exact (IH _ _ R S e' I)].
  exists ns. split; [exact Ea|]. rewrite call_us in Co. apply (calm_call_of g ns o' Co). apply S. apply (Sub _ _ _ R). apply in_or_app; right; left; reflexivity.
Qed.
Lemma gen_run_back g bs : negb (s_parallel s) && s_chunked s = false -> forall es, gen_run bs g = Ok es -> (forall e, In e es -> calm_em false s g e) -> forall f, In f bs -> calm_block s g f.
Proof.
  intros Ch. unfold gen_run. induction bs as [|f bs IH]; intros es R C f' I; [destruct I|]. cbn [rflat] in R. destruct (f g) as [e1|x] eqn:Ef; [|discriminate]. cbn [rbind] in R.
  destruct (rflat _ bs) as [e2|x] eqn:E2; [|discriminate]. cbn [rbind] in R. injection R as <-. destruct I as [<-|I].
  - exists e1. rewrite Ch. split; [exact Ef|]. intros e Ie. apply C. apply in_or_app; left; exact Ie.
  - apply (IH e2 eq_refl); [|exact I]. intros e Ie. apply C. apply in_or_app; right; exact Ie.
Qed.
Lemma par_lost bs tasks done_ past g a r : par_run no_hooks false s bs tasks done_ past g a r ->
  Forall (good_block sk E A false) bs -> Forall (good_em E A false) tasks -> Forall (goodo Q) done_ -> Forall sk past -> Lost g -> Lost (fst r).
Proof.
  induction 1 as [past g a|f bs tasks done_ past g a g1 es r Hp Ef Ru IH|f bs tasks done_ past g a g1 e Hp Ef|bs t1 t t2 done_ past g a g1 o r Hp Ec Ru IH|bs t1 t t2 done_ past g a g1 e Hp Ec|bs tasks d1 o d2 past g a g2 b r Et Ru IH|bs tasks d1 o d2 past g a g2 e Et];
    intros B T D Pa L; try exact L.
  - inversion B as [|? ? Hf Hb]; subst. assert (X := Hf g1 (proj1 (Forall_forall _ _) Pa _ Hp)). rewrite Ef in X. apply IH; auto. apply Forall_app; auto.
  - apply Forall_app in T. destruct T as [T1 T2]. inversion T2 as [|? ? Ht T3]; subst. unfold good_em in Ht. destruct (as_args t) as [ns|x]; [|discriminate]. cbn [rbind] in Ec.
    assert (X := proj1 GS g1 ns None (proj1 (Forall_forall _ _) Pa _ Hp) Ht ltac:(discriminate)). rewrite Ec in X. apply IH; auto. apply Forall_app; auto.
  - apply Forall_app in D. destruct D as [D1 D2]. inversion D2 as [|? ? Ho D3]; subst. assert (X := take_lost (single_results o) g (single_good Q o Ho) L). rewrite Et in X. cbn [fst] in X.
    apply IH; auto; [apply Forall_app; auto|constructor; [exact (proj1 X)|exact Pa]].
  - apply Forall_app in D. destruct D as [D1 D2]. inversion D2 as [|? ? Ho D3]; subst. assert (X := take_lost (single_results o) g (single_good Q o Ho) L). rewrite Et in X. exact X.
Qed.
Lemma still_single o : (forall o', In o' (single_results o) -> still o') -> still o.
Proof.
  destruct o as [l|]; [|constructor]. intros H. unfold still; cbn. apply Forall_forall. intros i I. assert (X := H (Some [i]) (in_map (fun i => Some [i]) l i I)). inversion X; assumption.
Qed.
Lemma par_back h bs tasks done_ past g a r : negb (s_parallel s) && s_chunked s = false -> sk h -> full g0 h -> par_run no_hooks false s bs tasks done_ past g a r ->
  Forall (good_block sk E A false) bs -> Forall (good_em E A false) tasks -> Forall (goodo Q) done_ -> (forall x, In x past -> x = h) -> g = h ->
  forall g' b, r = (g', Ok b) -> Lost g' \/ (g' = h /\ (forall f, In f bs -> calm_block s h f) /\ (forall t, In t tasks -> calm_em false s h t) /\ forall o, In o done_ -> still o).
Proof.
  intros Ch K F. induction 1 as [past g a|f bs tasks done_ past g a g1 es r Hp Ef Ru IH|f bs tasks done_ past g a g1 e Hp Ef|bs t1 t t2 done_ past g a g1 o r Hp Ec Ru IH|bs t1 t t2 done_ past g a g1 e Hp Ec|bs tasks d1 o d2 past g a g2 b r Et Ru IH|bs tasks d1 o d2 past g a g2 e Et];
    intros B T D Pa Eg g' bb Er; try discriminate.
  - injection Er as <- <-. right. split; [exact Eg|]. split; [intros f []|split; [intros t []|intros o []]].
  - rewrite (Pa _ Hp) in Ef. inversion B as [|? ? Hf Hb]; subst. assert (X := Hf h K). rewrite Ef in X. destruct (IH Hb ltac:(apply Forall_app; auto) D Pa eq_refl g' bb eq_refl) as [L|(-> & C1 & C2 & C3)]; [left; exact L|].
    right. split; [reflexivity|]. split; [|split; [intros t I; apply C2, in_or_app; left; exact I|exact C3]]. intros f' [<-|I]; [|apply C1; exact I]. exists es. rewrite Ch. split; [exact Ef|]. intros e I. apply C2, in_or_app; right; exact I.
  - rewrite (Pa _ Hp) in Ec. apply Forall_app in T. destruct T as [T1 T2]. inversion T2 as [|? ? Ht T3]; subst. unfold good_em in Ht. destruct (as_args t) as [ns|x] eqn:Ea; [|discriminate]. cbn [rbind] in Ec.
    assert (X := proj1 GS h ns None K Ht ltac:(discriminate)). rewrite Ec in X. destruct (IH B ltac:(apply Forall_app; auto) ltac:(constructor; assumption) Pa eq_refl g' bb eq_refl) as [L|(-> & C1 & C2 & C3)]; [left; exact L|].
    right. split; [reflexivity|]. split; [exact C1|]. split; [|intros o' I; apply C3; right; exact I]. intros t' I. apply in_app_or in I. destruct I as [I|[<-|I]]; [apply C2, in_or_app; left; exact I| |apply C2, in_or_app; right; exact I].
    exists ns. split; [exact Ea|]. apply (calm_call_of h ns o Ec). apply C3; left; reflexivity.
  - subst g. apply Forall_app in D. destruct D as [D1 D2]. inversion D2 as [|? ? Ho D3]; subst. destruct (take_back (single_results o) (single_good Q o Ho) h g2 (Ok b) K F Et) as [L|[So ->]].
    + left. assert (X := par_lost _ _ _ _ _ _ _ Ru B T ltac:(apply Forall_app; auto)). refine (X _ L). constructor; [exact (proj1 L)|]. apply Forall_forall. intros x I. rewrite (Pa x I). exact K.
    + destruct (IH B T ltac:(apply Forall_app; auto) ltac:(intros x [<-|I]; [reflexivity|apply Pa; exact I]) eq_refl g' bb eq_refl) as [L|(-> & C1 & C2 & C3)]; [left; exact L|].
      right. split; [reflexivity|]. split; [exact C1|]. split; [exact C2|]. intros o' I. apply in_app_or in I. destruct I as [I|[<-|I]]; [apply C3, in_or_app; left; exact I|exact (still_single o So)|apply C3, in_or_app; right; exact I].
Qed.
Lemma step_back P h g' a : (s_parallel s = true -> pool_runner no_hooks P) -> sk h -> full g0 h -> execute_step P no_hooks s false h = (g', Ok a) -> Lost g' \/ (g' = h /\ calm s h).
Proof.
  intros HP K F R. assert (GG := proj2 GS h K). unfold execute_step in R. destruct (s_parallel s) eqn:Par; cbn [negb andb] in GG.
  - assert (X := HP eq_refl s false h). unfold par_exec in X. rewrite R in X. destruct (par_back h _ _ _ _ _ _ _ ltac:(rewrite Par; reflexivity) K F X GG ltac:(constructor) ltac:(constructor) ltac:(intros x [<-|[]]; reflexivity) eq_refl g' a eq_refl) as [L|(-> & C & _)]; [left; exact L|right; split; [reflexivity|exact C]].
  - destruct (s_chunked s) eqn:Chu.
    + unfold bind, gget in R. destruct (blocks_back _ ltac:(rewrite Par, Chu; reflexivity) GG h g' a K F R) as [L|[C ->]]; [left; exact L|right; split; [reflexivity|exact C]].
    + unfold bind at 1, gget in R. unfold bind at 1 in R. assert (GR := gen_run_good sk E A false _ h K GG). destruct (gen_run (s_gen s h) h) as [es|x] eqn:Es; [|discriminate]. cbn [liftr] in R. unfold ret at 1 in R. rewrite Sy in R.
      unfold bind in R. assert (CG := collect_good sk E Q A s h es K (proj1 GS) GR [] (Forall_nil _)). destruct (collect s h es []) as [os|x] eqn:Co; [|discriminate]. cbn [liftr] in R. unfold ret at 1 in R.
      destruct (take_back os CG h g' (Ok a) K F R) as [L|[So ->]]; [left; exact L|]. right. split; [reflexivity|]. intros f I. apply (gen_run_back h _ ltac:(rewrite Par, Chu; reflexivity) es Es); [|exact I].
      intros e Ie. exact (collect_back h es [] os Co So e Ie).
Qed.

(* a dry run, for ApplyActionsTogether *)
Lemma items_dry l g : take_items true l g = (g, Ok l).
Proof. induction l as [|i l IH]; [reflexivity|]. cbn [take_items]. unfold bind. cbn [ret]. unfold ret. rewrite IH. reflexivity. Qed.
Lemma take_dry os g : exists a, take_action no_hooks true os g = (g, Ok a) /\ fst a = flat_map items_of os.
Proof.
  induction os as [|o os (a & E & Fa)]; [exists ([], []); auto|]. destruct o as [l|]; cbn [take_action flat_map items_of]; [|exists a; auto].
  exists (l ++ fst a, l ++ snd a). unfold bind at 1, gget. cbn [run_pre_hooks no_hooks pre_hooks rfold]. unfold bind at 1. rewrite items_dry. unfold bind. cbn. rewrite E, Fa. auto.
Qed.
Lemma flat_still os : Forall nothing (flat_map items_of os) -> forall o, In o os -> still o.
Proof. induction os as [|o os IH]; intros F o' I; [destruct I|]. cbn [flat_map] in F. apply Forall_app in F. destruct F as [F1 F2]. destruct I as [<-|I]; [exact F1|apply IH; assumption]. Qed.
Lemma chunks_dry es : forall g g' a, run_chunks no_hooks true s es g = (g', Ok a) -> g' = g /\ (Forall nothing (fst a) -> forall e, In e es -> calm_em true s g e).
Proof.
  induction es as [|e es IH]; intros g g' a R; [injection R as <- _; split; [reflexivity|intros _ e []]|]. cbn [run_chunks] in R. unfold bind at 1, gget in R. unfold bind at 1 in R.
  destruct (rmap (fun ns => call s g ns None) (as_chunk e)) as [os|x] eqn:RM; [|discriminate]. cbn [liftr] in R. unfold ret at 1 in R. unfold bind at 1 in R. destruct (take_dry os g) as (a1 & T & Fa). rewrite T in R.
  unfold bind in R. destruct (run_chunks no_hooks true s es g) as [g2 [c|x]] eqn:R2; [|discriminate]. injection R as <- <-. destruct (IH g g2 c R2) as [-> C]. split; [reflexivity|].
  cbn [plus2 fst]. intros Nn. apply Forall_app in Nn. destruct Nn as [N1 N2]. rewrite Fa in N1. intros e' [<-|I]; [exact (rmap_back g _ os RM (flat_still os N1))|apply C; assumption].
Qed.
Lemma blocks_dry bs : negb (s_parallel s) && s_chunked s = true -> forall g g' a, run_blocks no_hooks true s bs g = (g', Ok a) -> g' = g /\ (Forall nothing (fst a) -> forall f, In f bs -> calm_block s g f).
Proof.
  intros Ch. induction bs as [|f bs IH]; intros g g' a R; [injection R as <- _; split; [reflexivity|intros _ e []]|]. cbn [run_blocks] in R. unfold bind at 1, gget in R. unfold bind at 1 in R.
  destruct (f g) as [es|x] eqn:Ef; [|discriminate]. cbn [liftr] in R. unfold ret at 1 in R. unfold bind at 1 in R. destruct (run_chunks no_hooks true s es g) as [g1 [b|x]] eqn:R1; [|discriminate].
  destruct (chunks_dry es g g1 b R1) as [-> C1]. unfold bind in R. destruct (run_blocks no_hooks true s bs g) as [g2 [c|x]] eqn:R2; [|discriminate]. injection R as <- <-. destruct (IH g g2 c R2) as [-> C]. split; [reflexivity|].
  cbn [plus2 fst]. intros Nn. apply Forall_app in Nn. destruct Nn as [N1 N2]. intros f' [<-|I]; [exists es; rewrite Ch; auto|apply C; assumption].
Qed.
Lemma step_dry P h g' a : s_parallel s = false -> execute_step P no_hooks s true h = (g', Ok a) -> g' = h /\ (Forall nothing (fst a) -> calm s h).
Proof.
  intros Par R. unfold execute_step in R. rewrite Par in R. destruct (s_chunked s) eqn:Chu.
  - unfold bind, gget in R. destruct (blocks_dry _ ltac:(rewrite Par, Chu; reflexivity) h g' a R) as [-> C]. split; [reflexivity|exact C].
  - unfold bind at 1, gget in R. unfold bind at 1 in R. destruct (gen_run (s_gen s h) h) as [es|x] eqn:Es; [|discriminate]. cbn [liftr] in R. unfold ret at 1 in R. rewrite Sy in R.
    unfold bind in R. destruct (collect s h es []) as [os|x] eqn:Co; [|discriminate]. cbn [liftr] in R. unfold ret at 1 in R. destruct (take_dry os h) as (a1 & T & Fa). rewrite T in R. injection R as <- <-. split; [reflexivity|].
    intros Nn. rewrite Fa in Nn. intros f I. apply (gen_run_back h _ ltac:(rewrite Par, Chu; reflexivity) es Es); [|exact I]. intros e Ie. exact (collect_back h es [] os Co (flat_still os Nn) e Ie).
Qed.
End Back.
