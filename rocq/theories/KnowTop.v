(* The run of a pipeline with steps that tell directions between the collider detection and the rules. *)
From Verif Require Import Base PyDict PyDictFacts Graph GraphSpec GraphFacts GraphInv GraphQ PathSpec Actions ActionSpec Generators GenSpec GenFacts Rules IndepTests Pipeline Parallel
  PipeSpec PipeFacts PipeMain PipeMain2 Construct ConstructSpec ConstructFacts Dag DagFacts DagSep SkelSpec SkelFacts SkelStart SkelSteps SkelMain Schedules SkelMain2 SkelTop Serve OrientSpec OrientGraph LoopFacts OrientMain OrientTop ActionMain KnowSpec KnowGraph KnowMain.
Open Scope string_scope.
Open Scope list_scope.
Open Scope nat_scope.

Definition rules_last (so : list id -> list id) (N : numerics) : list pstep := [PLoop "Loop" exit_on_no_actions (orientation_steps so); PStep (effect_step N)].
Section Run.
Variables (g0 : graph) (D : list (id * id)) (so : list id -> list id) (P : runner) (K : id -> id -> Prop).
Hypothesis DG : dag_over (dkeys (nodes g0)) D.
Hypothesis SO : set_order so.
Hypothesis KS : forall x y, K x y -> edge_in D x y.
Notation E := (edge_in D).
Notation Ac := (do_acyclic _ _ DG).
Notation pre_k := (KnowMain.pre g0 D K).
Notation ori_k := (KnowMain.ori g0 D K).

Lemma ori_known g : OrientMain.ori g0 D g -> ori_k g.
Proof. intros [[P1 P2 P3 P4 P5 P6] V]. split; [|exact V]. split; auto. intros u v A L. apply oriented_is_known, P5; assumption. Qed.
Lemma known_mono (K1 K2 : id -> id -> Prop) : (forall x y, K1 x y -> known D K2 x y) -> forall x y, known D K1 x y -> known D K2 x y.
Proof.
  intros H x y. induction 1 as [x y HK|x z y V|x z y _ IH A N NA NV|x z y _ IH1 _ IH2 A|x y w z _ IH1 _ IH2 A1 A2 A3 N NA NV|x y w z _ IH1 _ IH2 A1 A2 A3 N NA NV].
  - exact (H _ _ HK).
  - exact (kn_v D K2 x z y V).
  - exact (kn_1 D K2 x z y IH A N NA NV).
  - exact (kn_2 D K2 x z y IH1 IH2 A).
  - exact (kn_3 D K2 x y w z IH1 IH2 A1 A2 A3 N NA NV).
  - exact (kn_4 D K2 x y w z IH1 IH2 A1 A2 A3 N NA NV).
Qed.
(* everything that points one way counts as known *)
Lemma shown_E g : pre_k g -> forall x y, one_way g x y -> E x y.
Proof. intros Pg x y H. apply (known_sound D K Ac KS). exact (one_known g0 D K g Pg x y H). Qed.
Lemma shown_ori g : ori_k g -> KnowMain.ori g0 D (one_way g) g.
Proof.
  intros [Pg V]. split; [|exact V]. assert (L := live_E g0 D DG K KS g Pg). destruct Pg as [P1 P2 P3 P4 P5 P6]. split; auto. intros u v A F. apply kn_told. unfold one_way, only_directed_edge_exists. rewrite F.
  destruct A as [A|A]; [rewrite (L _ _ A) in F; discriminate F|rewrite (L _ _ A); reflexivity].
Qed.
Lemma shown_told g : forall x y, one_way g x y -> directed_edge_exists g y x = false.
Proof. intros x y H. unfold one_way, only_directed_edge_exists in H. apply andb_true_iff in H. destruct H as [_ H]. apply negb_true_iff in H. exact H. Qed.

(* a step whose results are applied one by one *)
Lemma sync_serve (Inv T : graph -> Prop) (X : exn -> Prop) (Q win : tresult -> Prop) (A : list id -> Prop) s : (forall i, Q i -> keeps Inv X (apply_action i) (fun _ _ => True)) -> (forall i, Q i -> keeps (InvT Inv T) X (apply_action i) (fun _ _ => True)) ->
  (forall i g, Q i -> win i -> Inv g -> T (fst (apply_action i g))) -> good_calls Inv X Q A s -> forall es e ns, Forall (good_em X A false) es -> In e es -> as_args e = Ok ns -> wins_on Inv T win s ns ->
  forall g, Inv g -> tri Inv X (run_sync no_hooks false s es) g (fun a g => served T win false a g /\ good2 Q a).
Proof.
  intros HI HT HW C es e ns. assert (CT' := CT Inv T X Q A s C). induction es as [|e' es IH]; intros F He Hn W g I; [destruct He|]. inversion F as [|? ? Fe Fr]; subst. cbn [run_sync]. apply tri_gget.
  apply tri_liftr; [exact I|]. unfold good_em in Fe. destruct (as_args e') as [ns'|x] eqn:Ea; cbn [rbind]; [|exact Fe].
  assert (Y := C g ns' (Some []) I Fe ltac:(intros l Hl; injection Hl as <-; constructor)). destruct (call s g ns' (Some [])) as [o|x] eqn:Co; [|exact Y].
  assert (Fo : Forall (goodo Q) [o]) by (constructor; [exact Y|constructor]).
  assert (SI : forall g, Inv g -> tri Inv X (run_sync no_hooks false s es) g (fun a _ => good2 Q a)) by (intros g1 I1; exact (keeps_sync Inv X Q no_hooks (no_hooks_good _ _ _) false (fun _ => HI) A s es C Fr g1 I1)).
  destruct He as [->|He].
  - apply (then_serve Inv T X Q win false); [|exact SI|intros g1 I1 t1; exact (tri_T Inv T X _ _ g1 (keeps_sync (InvT Inv T) X Q no_hooks (no_hooks_good _ _ _) false (fun _ => HT) A s es CT' Fr) I1 t1)].
    rewrite Hn in Ea. injection Ea as <-. destruct (W g (Some []) I) as [t|Wc].
    + eapply tri_weaken; [apply (take_T Inv T X Q false (fun _ => HT) [o] g Fo I t)|]. intros a g1 _ [Ga t1]; split; [left|]; assumption.
    + destruct (Wc o Co) as (i & Hi & Wi). exact (take_serve Inv T X Q win false (fun _ => HI) (fun _ => HT) (fun _ => HW) [o] o i Fo (or_introl eq_refl) Hi Wi g I).
  - apply (serve_later Inv T X Q win false); [apply (take_I Inv X Q false (fun _ => HI)); assumption|]. intros g1 I1. apply IH; assumption.
Qed.
Lemma self_kinv g : ori_k g -> kinv g0 D K g g.
Proof. intros O. split; [exact O|]. apply shrinks_refl. exact (KnowMain.p_wf _ _ _ _ (proj1 O)). Qed.
Lemma stays_gone gr g x y : kinv g0 D K gr g -> directed_edge_exists gr y x = false -> directed_edge_exists g y x = false.
Proof. intros I F. destruct (directed_edge_exists g y x) eqn:L; [|reflexivity]. apply (proj2 I) in L. congruence. Qed.
Lemma tells_exec s g x y : ori_k g -> knowledge_step D K P g0 s -> tells D g0 s x y -> tri (kinv g0 D K g) noE (execute_step P no_hooks s false) g (fun _ g' => directed_edge_exists g' y x = false).
Proof.
  intros O Ks Ts. set (T := fun g' => directed_edge_exists g' y x = false). assert (I0 := self_kinv g O).
  assert (ST := fun gr => told_step g0 D DG K KS P gr s Ks).
  assert (Al : T g -> tri (kinv g0 D K g) noE (execute_step P no_hooks s false) g (fun _ g' => T g')).
  { intros t. destruct (ST g g I0) as [I1 R1]. split; [exact I1|]. destruct (snd _); [exact (stays_gone g _ x y I1 t)|exact R1]. }
  assert (see : forall g', kinv g0 D K g g' -> seen_late D g0 g') by (intros g' I; exact (pre_seen g0 D DG K KS g' (proj1 (proj1 I)))).
  destruct (Ts g (see g I0)) as [t|(f & Hf & Wf)]; [exact (Al t)|].
  assert (HI : forall i, known_result D K i -> keeps (kinv g0 D K g) noE (apply_action i) (fun _ _ => True)) by (intros i; apply told_act; assumption).
  assert (HT : forall i, known_result D K i -> keeps (InvT (kinv g0 D K g) T) noE (apply_action i) (fun _ _ => True)).
  { intros i Qi g' [I t]. destruct (HI i Qi g' I) as [I1 R1]. assert (X := told_act g0 D K g' i Qi g' (self_kinv g' (proj1 I))). destruct X as [I2 _]. split; [split; [exact I1|exact (stays_gone g' _ x y I2 t)]|exact R1]. }
  assert (HW : forall i g', known_result D K i -> removes x y i -> kinv g0 D K g g' -> T (fst (apply_action i g'))).
  { intros i g' Qi (W1 & W2 & W3) I. assert (A := after_item i g' (KnowMain.p_wf _ _ _ _ (proj1 (proj1 I))) (told_item D K i Qi)). unfold T. destruct (directed_edge_exists (fst (apply_action i g')) y x) eqn:L; [|reflexivity]. exfalso.
    apply (af_live _ _ _ A) in L. destruct L as [_ L]. apply L. repeat split; assumption. }
  destruct (told_good g0 D DG K KS P g s Ks) as (A & C & G).
  assert (HP : s_parallel s = true -> pool_runner no_hooks P) by (destruct Ks as (A' & _ & _ & H); exact H).
  assert (WO : forall ns, told_on D g0 s x y ns -> wins_on (kinv g0 D K g) T (removes x y) s ns).
  { intros ns To g' us I. destruct (To g' (if s_unapplied s then us else None) (see g' I)) as [t|(o & i & Eo & Hi & W)]; [left; exact t|right]. intros o' Co. unfold call in Co. rewrite Eo in Co. injection Co as <-. eauto. }
  assert (BW : block_wins (kinv g0 D K g) T (removes x y) s (negb (s_parallel s) && s_chunked s) f).
  { intros g' I. destruct (Wf g' (see g' I)) as [t|(es & e & ns & Ef & He & Hn & To)]; [left; exact t|right]. intros es' Ef'. rewrite Ef in Ef'. injection Ef' as <-. exists e, ns. auto. }
  unfold good_gen in G. unfold execute_step. destruct (s_parallel s) eqn:Par; cbn [negb andb] in *.
  - assert (R := HP eq_refl s false g). destruct (ST g g I0) as [I1 R1]. unfold execute_step in I1, R1. rewrite Par in I1, R1. split; [exact I1|].
    assert (X := par_serve (kinv g0 D K g) T noE (known_result D K) (removes x y) false A (fun _ => HI) (fun _ => HT) (fun _ => HW) s C _ _ _ _ _ _ _ R (G g I0) (Forall_nil _) (Forall_nil _) (Forall_cons _ I0 (Forall_nil _)) I0 (conj (Forall_nil _) (Forall_nil _))).
    destruct (P s false g) as [g' [a|e]]; cbn [fst snd] in *; [|exact R1]. destruct X as [t|[X _]]; [intros p [<-|[]] t; exact t|right; left; eauto|exact t|discriminate X].
  - destruct (s_chunked s) eqn:Ch.
    + apply tri_gget. eapply tri_weaken; [apply (blocks_serve (kinv g0 D K g) T noE (known_result D K) (removes x y) false A (fun _ => HI) (fun _ => HT) (fun _ => HW) s C (s_gen s g) f (G g I0) Hf BW g I0)|].
      intros a g' _ [[t|[X _]] _]; [exact t|discriminate X].
    + destruct (BW g I0) as [t|Wb]; [assert (Z := Al t); unfold execute_step in Z; rewrite Par, Ch in Z; exact Z|].
      assert (Gen : exists es, gen_run (s_gen s g) g = Ok es /\ Forall (good_em noE A false) es /\ (forall es', f g = Ok es' -> forall e, In e es' -> In e es)).
      { clear - G Hf I0. assert (Gg := G g I0). unfold gen_run. induction (s_gen s g) as [|f' l IH]; [destruct Hf|]. inversion Gg as [|? ? G1 G2]; subst. specialize (G1 g I0). cbn [rflat].
        assert (Rest : exists es, rflat (fun f => f g) l = Ok es /\ Forall (good_em noE A false) es).
        { clear - G2 I0. induction l as [|f2 l IH]; [exists []; split; [reflexivity|constructor]|]. inversion G2 as [|? ? G1 G3]; subst. specialize (G1 g I0). destruct (IH G3) as (es & E1 & F1). cbn [rflat]. destruct (f2 g) as [e2|]; [|destruct G1]. rewrite E1. cbn [rbind]. eexists. split; [reflexivity|apply Forall_app; auto]. }
        destruct (f' g) as [e1|] eqn:Ef1; [|destruct G1]. destruct Hf as [<-|Hf].
        - destruct Rest as (e2 & E2 & F2). rewrite E2. cbn [rbind]. exists (e1 ++ e2). split; [reflexivity|]. split; [apply Forall_app; auto|]. intros es' Ef e He. rewrite Ef1 in Ef. injection Ef as <-. apply in_app_iff; auto.
        - destruct (IH Hf G2) as (e2 & E2 & F2 & H2). rewrite E2. cbn [rbind]. exists (e1 ++ e2). split; [reflexivity|]. split; [apply Forall_app; auto|]. intros es' Ef e He. apply in_app_iff; right; eapply H2; eassumption. }
      destruct Gen as (es & Gen & GE & Gi). assert (Fg := G g I0). rewrite Forall_forall in Fg. specialize (Fg f Hf g I0). destruct (f g) as [es'|] eqn:Ef; [|destruct Fg]. destruct (Wb es' eq_refl) as (e & ns & He & Hn & Wn). assert (He' := Gi es' eq_refl e He).
      destruct (s_sync s) eqn:Sy.
      * apply tri_gget. apply tri_liftr; [exact I0|]. rewrite Gen. eapply tri_weaken; [apply (sync_serve (kinv g0 D K g) T noE (known_result D K) (removes x y) A s HI HT HW C es e ns GE He' Hn Wn g I0)|]. intros a g' _ [[t|[X _]] _]; [exact t|discriminate X].
      * assert (Pl : plain_step s) by (repeat split; assumption). destruct (bool_dec (directed_edge_exists g y x) false) as [t|Nt]; [assert (Z := Al t); unfold execute_step in Z; rewrite Par, Ch, Sy in Z; exact Z|].
        assert (Cg : good_calls (fun g' => g' = g) noE (known_result D K) A s) by (intros g' ns' us -> ; apply C; exact I0).
        assert (Z := collect_serve (kinv g0 D K g) T noE (known_result D K) (removes x y) false A (fun _ => HI) s Pl P g es Gen GE Cg I0 (fun _ => HT) (fun _ => HW) e ns He' Hn (fun us o Co => match Wn g us I0 with or_introl t => False_ind _ (Nt t) | or_intror W => W o Co end)).
        unfold execute_step in Z. rewrite Par, Ch, Sy in Z. eapply tri_weaken; [exact Z|]. intros a g' _ [[t|[X _]] _]; [exact t|discriminate X].
Qed.
Lemma tells_step s g x y fuel : ori_k g -> knowledge_step D K P g0 s -> tells D g0 s x y -> exists g', run_pstep fuel P no_hooks (PStep s) g = (g', Ok tt) /\ ori_k g' /\ directed_edge_exists g' y x = false.
Proof.
  intros O Ks Ts. destruct (run_pstep_ok fuel P s g (kinv g0 D K g) (fun g' => directed_edge_exists g' y x = false)) as (g' & R & I & t).
  - exact (tells_exec s g x y O Ks Ts).
  - intros g1 h. apply kinv_log; assumption.
  - intros g1 I. destruct (after_purge g1 (KnowMain.p_wf _ _ _ _ (proj1 (proj1 I)))) as [A E2]. destruct (purge_soft_deleted_edges g1) as [g2 r]. cbn [fst snd] in *. subst r. split; [exact (kinv_same g0 D K g g1 g2 I A)|exact Logic.I].
  - intros g1 h t. exact t.
  - intros g1 I t. destruct (after_purge g1 (KnowMain.p_wf _ _ _ _ (proj1 (proj1 I)))) as [A _]. exact (stays_gone g1 _ x y (kinv_same g0 D K g1 g1 _ (self_kinv g1 (proj1 I)) A) t).
  - exists g'. split; [exact R|]. split; [exact (proj1 I)|exact t].
Qed.
Lemma tells_run fuel ks g x y s g' : (forall s, In s ks -> knowledge_step D K P g0 s) -> ori_k g -> In s ks -> tells D g0 s x y -> execute_pipeline fuel P no_hooks (map PStep ks) g = (g', Ok tt) -> directed_edge_exists g' y x = false.
Proof.
  intros Hk O Hs T R. apply in_split in Hs. destruct Hs as (l1 & l2 & ->). rewrite map_app in R. cbn [map] in R. rewrite pipeline_app in R.
  destruct (told_steps g0 D DG K KS P g fuel l1 g) as (g1 & R1 & I1); [intros s' h; apply Hk, in_app_iff; auto|exact (self_kinv g O)|]. rewrite R1 in R.
  destruct (tells_step s g1 x y fuel (proj1 I1) (Hk s ltac:(apply in_app_iff; cbn; auto)) T) as (g2 & R2 & O2 & D2). rewrite (pipeline_cons _ _ _ _ _ _ _ R2) in R.
  destruct (told_steps g0 D DG K KS P g2 fuel l2 g2) as (g3 & R3 & I3); [intros s' h; apply Hk, in_app_iff; cbn; auto|exact (self_kinv g2 O2)|]. rewrite R3 in R. injection R as <-.
  destruct (directed_edge_exists g3 y x) eqn:L; [|reflexivity]. apply (proj2 I3) in L. congruence.
Qed.

Theorem know_run st c N fuel ks g : found g0 D c g -> (forall u v, directed_edge_is_soft_deleted g u v = false) -> List.length (nodes g0) * List.length (nodes g0) + 2 <= fuel ->
  (forall s, In s ks -> knowledge_step D K P g0 s) ->
  exists g1 g2 r, execute_pipeline fuel P no_hooks (PStep (collider_step st so) :: map PStep ks) g = (g1, Ok tt) /\
    execute_pipeline fuel P no_hooks (PStep (collider_step st so) :: map PStep ks ++ rules_last so N) g = (g2, r) /\ nodes g2 = nodes g0 /\
    (forall x y, one_way g1 x y -> known D K x y) /\ known_pattern D (one_way g1) g2 /\ (forall x y, oriented D x y -> known D (one_way g1) x y) /\
    ((forall x y, K x y -> exists s, In s ks /\ tells D g0 s x y) -> known_pattern D K g2) /\
    match r with Ok _ => True | Err e => eff_exn N e end.
Proof.
  intros F PG Fu Hk.
  assert (LG : forall g h, WF g -> after (fun _ _ => False) g (with_ahist g h)).
  { intros ga h W. split; auto; [apply WF_ahist; exact W|intros a b; split; [auto|tauto]|intros a H; exact H]. }
  assert (S1 : exists ga, run_pstep fuel P no_hooks (PStep (collider_step st so)) g = (ga, Ok tt) /\ OrientMain.ori g0 D ga).
  { destruct (coll_step g0 D so DG SO c st g F PG P) as (gb & a1 & R1 & O1). cbn [run_pstep]. unfold bind at 1. rewrite R1. unfold bind at 1, log_step at 1. cbn beta iota.
    set (g1' := with_ahist gb _). assert (O1' := OrientMain.ori_same g0 D gb g1' O1 (LG _ _ (OrientMain.p_wf _ _ _ (proj1 O1)))).
    destruct (after_purge g1' (OrientMain.p_wf _ _ _ (proj1 O1'))) as [A2 E2]. destruct (purge_soft_deleted_edges g1') as [g2 r2]. cbn [fst snd] in A2, E2. subst r2.
    exists g2. split; [reflexivity|]. exact (OrientMain.ori_same g0 D g1' g2 O1' A2). }
  destruct S1 as (ga & Ra & Oa). assert (Ok_a := ori_known ga Oa). destruct (told_steps g0 D DG K KS P ga fuel ks ga Hk (self_kinv ga Ok_a)) as (g1 & R1 & I1).
  assert (P1 := proj1 (proj1 I1)). assert (O1 := shown_ori g1 (proj1 I1)). assert (E1 := shown_E g1 P1).
  destruct (rules_run g0 D so DG SO (one_way g1) E1 N fuel P g1 O1 (shown_told g1) Fu) as (g2 & r & R2 & N2 & KP & Hr).
  exists g1, g2, r. rewrite !(pipeline_cons _ _ _ _ _ _ _ Ra). split; [exact R1|]. split; [rewrite pipeline_app, R1; exact R2|]. split; [exact N2|].
  assert (OK1 : forall x y, one_way g1 x y -> known D K x y) by (intros x y; apply (one_known g0 D K g1 P1)).
  split; [exact OK1|]. split; [exact KP|]. split; [intros x y; apply oriented_is_known|]. split; [|exact Hr].
  intros Ht x y. assert (Z := KP x y). assert (X : known D (one_way g1) y x <-> known D K y x); [|tauto]. split; [apply known_mono; exact OK1|]. apply known_mono. intros u v H. apply kn_told.
  destruct (Ht u v H) as (s & Hs & Ts). assert (Dv := tells_run fuel ks ga u v s g1 Hk Ok_a Hs Ts R1). unfold one_way, only_directed_edge_exists. rewrite Dv, (live_E g0 D DG K KS g1 P1 u v (KS _ _ H)). reflexivity.
Qed.
End Run.
