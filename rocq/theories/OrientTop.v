(* PC, PCClassic and ParallelPC under perfect tests: the graph they return, in the vocabulary of OrientSpec. *)
From Verif Require Import Base PyDict PyDictFacts Graph GraphSpec GraphFacts GraphInv GraphQ PathSpec Actions ActionSpec ActionFacts ActionMain Generators GenSpec GenFacts Rules IndepTests Pipeline Parallel
  PipeSpec PipeFacts PipeMain PipeMain2 Construct ConstructSpec ConstructFacts Dag DagFacts DagSep SkelSpec SkelFacts SkelStart SkelSteps SkelMatrix SkelMain Schedules SkelMain2 DsepDec Ideal SkelTop
  Serve OrientSpec OrientGraph LoopFacts OrientMain.
Open Scope list_scope.

(* ---- after a plain last step nothing is soft-deleted ---- *)
Definition par_ok (P : runner) (s : step) : Prop := s_parallel s = true -> pool_runner no_hooks P.
Lemma step_wf_par P s dry : par_ok P s -> step_keeps WF anyE P no_hooks anyQ dry s.
Proof. intros HP. apply (keeps_step WF anyE anyQ no_hooks (any_hooks _ _) dry (fun _ i _ => keeps_act_wf i) anyA P s HP (any_step _ s)). Qed.
Lemma pstep_wf_par fuel P p : Forall (par_ok P) (steps_of p) -> keeps WF anyE (run_pstep fuel P no_hooks p) (fun _ _ => True).
Proof.
  intros HP. destruct p as [s|name exit l|name l]; cbn [steps_of] in HP.
  - inversion HP; subst. eapply keeps_pstep_plain; [intros; apply WF_ahist; assumption|apply step_wf_par; assumption|apply keeps_purge_wf].
  - eapply keeps_pstep_loop; [intros; apply WF_ahist; assumption| |exact I|intros; exact I]. eapply Forall_impl; [|exact HP]. intros s Hs; apply step_wf_par; exact Hs.
  - eapply keeps_pstep_together with (Q := anyQ); [intros; apply WF_ahist; assumption|apply any_hooks|intros; apply keeps_act_wf|]. eapply Forall_impl; [|exact HP]. intros s Hs; apply step_wf_par; exact Hs.
Qed.
Lemma last_purged fuel P l s g g' : WF g -> Forall (fun p => Forall (par_ok P) (steps_of p)) (l ++ [PStep s]) ->
  execute_pipeline fuel P no_hooks (l ++ [PStep s]) g = (g', Ok tt) -> forall u v, directed_edge_is_soft_deleted g' u v = false.
Proof.
  intros W F E. apply Forall_app in F. destruct F as [F1 F2]. rewrite pipeline_app in E.
  assert (K : keeps WF anyE (execute_pipeline fuel P no_hooks l) (fun _ _ => True)).
  { apply keeps_pipeline. eapply Forall_impl; [|exact F1]. intros p Hp; apply pstep_wf_par; exact Hp. }
  destruct (K g W) as [W1 _]. destruct (execute_pipeline fuel P no_hooks l g) as [g1 [u|e]]; [|discriminate]. cbn [fst] in W1. cbn [execute_pipeline run_pstep] in E. unfold bind, log_step in E.
  inversion F2 as [|? ? Fs _]; subst. cbn [steps_of] in Fs. inversion Fs as [|? ? Fs' _]; subst. destruct (step_wf_par P s false Fs' g1 W1) as [W2 _].
  destruct (execute_step P no_hooks s false g1) as [g2 [a|e]]; [|discriminate]. cbn [fst] in W2.
  assert (W3 := WF_ahist g2 (ahist g2 ++ [HStep (s_name s) (fst a) (snd a) []]) W2).
  destruct (purge_spec _ W3) as (g3 & R3 & _ & _ & _ & _ & D). rewrite R3 in E. injection E as <-. exact D.
Qed.

(* every run of the pipeline ends with the pattern of D; it can only fail because effect estimation fails *)
Definition reaches_pattern (fuel : nat) (P : runner) (l : list pstep) (N : numerics) (g0 : graph) (D : list (id * id)) : Prop :=
  exists g r, execute_pipeline fuel P no_hooks l g0 = (g, r) /\ nodes g = nodes g0 /\ meek_pattern g D /\
    match r with Ok _ => True | Err e => exists xs zs ys, n_effect N xs zs ys = Err e end.

Section Run.
Variables (fuel : nat) (P : runner) (so : list id -> list id) (d : rawdata) (g0 : graph) (D : list (id * id)) (N : numerics) (c : id -> id -> Z).
Hypothesis S0 : start_graph d = Ok g0.
Hypothesis DG : dag_over (dkeys (nodes g0)) D.
Hypothesis PT : perfect_tests N (values_of g0) (dkeys (nodes g0)) D c.
Hypothesis SO : set_order so.
Hypothesis FU : (List.length (nodes g0) * List.length (nodes g0) + 2 <= fuel)%nat.
Lemma finish sk s g1 : execute_pipeline fuel P no_hooks (sk ++ [PStep s]) g0 = (g1, Ok tt) -> found g0 D c g1 -> Forall (fun p => Forall (par_ok P) (steps_of p)) (sk ++ [PStep s]) ->
  reaches_pattern fuel P ((sk ++ [PStep s]) ++ orientation_rules so ++ [PStep (effect_step N)]) N g0 D.
Proof.
  intros R F FP. unfold reaches_pattern. rewrite pipeline_app, R.
  assert (PG := last_purged fuel P sk s g0 g1 (cp_wf _ (complete_start d g0 S0)) FP R).
  exact (orient_run g0 D so DG SO c N fuel P g1 F PG FU).
Qed.
Lemma pc_pattern : reaches_pattern fuel P (pc so N) N g0 D.
Proof.
  destruct (pc_found g0 D N c so (complete_start d g0 S0) DG PT SO fuel P) as (g1 & R & F).
  apply (finish [PStep (calculate_pearson N); PStep (correlation_step N); PStep (partial_step false N)] (matrix_step so 4 N) g1 R F).
  repeat constructor; intros X; discriminate X.
Qed.
Lemma classic_pattern : reaches_pattern fuel P (pc_classic so N) N g0 D.
Proof.
  destruct (classic_found g0 D N c so (complete_start d g0 S0) DG PT SO fuel P) as (g1 & R & F).
  apply (finish [PStep (calculate_pearson N); PStep (correlation_step N)] (matrix_step so 3 N) g1 R F).
  repeat constructor; intros X; discriminate X.
Qed.
Lemma parallel_pattern sh sh' coin : is_shuffle (Some sh) -> is_shuffle (Some sh') -> pool_runner no_hooks P -> early_on (partial_step true N) P ->
  reaches_pattern fuel P (pc_parallel so sh sh' coin N) N g0 D.
Proof.
  intros SH SH' HP Ea. destruct (early_found g0 D N c so (complete_start d g0 S0) DG PT SO sh sh' coin SH SH' P HP Ea fuel) as (g1 & R & F).
  apply (finish [PStep (calculate_pearson N); PStep (correlation_step N); PStep (partial_step true N); PStep (matrix_step_sampled so sh coin N)] (matrix_step_parallel so sh' N) g1 R F).
  repeat constructor; intros _; exact HP.
Qed.
End Run.

(* ---- what the pattern tells ---- *)
Section Pattern.
Variable D : list (id * id).
Hypothesis Ac : acyclic (edge_in D).
Variable g : graph.
Hypothesis M : meek_pattern g D.
Notation E := (edge_in D).
Lemma mp_adj x y : adjacent E x y -> edge_exists g x y = true.
Proof.
  intros A. rewrite edge_exists_or, orb_true_iff. assert (X : forall a b, E a b -> directed_edge_exists g a b = true).
  { intros a b Eab. apply M. split; [left; exact Eab|]. intros O. apply (oriented_sound D Ac) in O. exact (no_two E Ac _ _ Eab O). }
  destruct A as [A|A]; apply X in A; auto.
Qed.
Lemma mp_ee x y : edge_exists g x y = true <-> adjacent E x y.
Proof. split; [|apply mp_adj]. rewrite edge_exists_or, orb_true_iff. intros [L|L]; apply M in L; [|apply adjacent_sym]; tauto. Qed.
Lemma mp_apart x y : apart g x y -> ~ adjacent E x y.
Proof. unfold apart. intros A H. apply mp_ee in H. congruence. Qed.
Lemma mp_one x y : one_way g x y -> ~ ~ oriented D x y.
Proof.
  unfold one_way, only_directed_edge_exists. rewrite andb_true_iff, negb_true_iff. intros [L N] H. apply M in L. assert (X : directed_edge_exists g y x = true) by (apply M; split; [apply adjacent_sym; tauto|exact H]). congruence.
Qed.
Lemma mp_two x y : two_way g x y -> adjacent E x y /\ ~ oriented D x y /\ ~ oriented D y x.
Proof. unfold two_way, undirected_edge_exists. rewrite andb_true_iff. intros [L1 L2]. apply M in L1, L2. tauto. Qed.
Lemma mp_one_E x y : one_way g x y -> E x y.
Proof. intros O. apply mp_one in O. destruct (edge_dec D x y) as [H|H]; [exact H|]. exfalso. apply O. intros Q. apply H, (oriented_sound D Ac), Q. Qed.
Lemma mp_oriented x y : oriented D x y -> one_way g x y.
Proof.
  intros O. unfold one_way, only_directed_edge_exists. assert (L : directed_edge_exists g x y = true).
  { apply M. split; [left; apply (oriented_sound D Ac); exact O|apply (oriented_asym D Ac); exact O]. }
  rewrite L. destruct (directed_edge_exists g y x) eqn:L2; [|reflexivity]. apply M in L2. tauto.
Qed.
Lemma mp_vs x z y : vstruct D x z y -> one_way g x z /\ one_way g y z /\ apart g x y.
Proof.
  intros V. split; [apply mp_oriented, (or_v D x z y V)|]. split; [apply mp_oriented, (or_v D y z x), vstruct_sym, V|]. unfold apart.
  destruct (edge_exists g x y) eqn:X; [|reflexivity]. apply mp_ee in X. destruct V as (_ & _ & _ & NA). contradiction.
Qed.
Lemma mp_acyclic : acyclic (one_way g).
Proof.
  assert (R : forall x y, reach (one_way g) x y -> reach E x y) by (induction 1 as [|x y z H _ IH]; [constructor|econstructor; [apply mp_one_E; exact H|exact IH]]).
  intros x (y & H & Ry). apply (Ac x). exists y. split; [apply mp_one_E; exact H|apply R; exact Ry].
Qed.
Lemma mp_no_new x z y : one_way g x z -> one_way g y z -> x <> y -> apart g x y -> vstruct D x z y.
Proof. intros H1 H2 N A. repeat split; try (apply mp_one_E; assumption); [exact N|apply mp_apart; exact A]. Qed.
Lemma two_no_vs x z y : two_way g z y -> ~ vstruct D x z y.
Proof. intros T V. apply mp_two in T. destruct T as (_ & _ & N). apply N. apply (or_v D y z x), vstruct_sym, V. Qed.
Lemma mp_closed : meek_closed g.
Proof.
  split.
  - intros x z y O T N A. apply (mp_one _ _ O). intros O'. assert (T' := mp_two _ _ T). destruct T' as (Ad & N1 & N2). apply N1. apply (or_1 D x z y O' Ad N (mp_apart _ _ A)). apply two_no_vs; exact T.
  - intros x z y O1 O2 T. apply (mp_one _ _ O1). intros O1'. apply (mp_one _ _ O2). intros O2'. apply mp_two in T. destruct T as (Ad & N1 & _). apply N1. exact (or_2 D x z y O1' O2' Ad).
  - intros x y w z O1 O2 N A T1 T2 T3. apply (mp_one _ _ O1). intros O1'. apply (mp_one _ _ O2). intros O2'.
    assert (NV := two_no_vs y x w T2). apply mp_two in T1, T2, T3. destruct T3 as (Ad & N1 & _). apply N1. apply (or_3 D x y w z); try tauto. exact (mp_apart _ _ A).
  - intros x y w z O1 O2 N A T1 Axw T2. apply (mp_one _ _ O1). intros O1'. apply (mp_one _ _ O2). intros O2'.
    assert (NV := two_no_vs y x z T2). apply mp_two in T1, T2. destruct T2 as (Ad & N1 & _). apply N1. apply (or_4 D x y w z); try tauto; [|exact (mp_apart _ _ A)].
    unfold apart in Axw. apply mp_ee. destruct (edge_exists g x w); congruence.
Qed.
End Pattern.
Lemma same_pattern g g' D : meek_pattern g D -> meek_pattern g' D -> forall x y, directed_edge_exists g x y = directed_edge_exists g' x y.
Proof. intros M M' x y. apply eq_true_iff_eq. rewrite (M x y), (M' x y). reflexivity. Qed.
Lemma pattern_equiv g D D' : equivalent D D' -> meek_pattern g D -> meek_pattern g D'.
Proof.
  intros Q M x y. rewrite (M x y), (proj1 Q x y). split; intros [A B]; (split; [exact A|]); intros O; apply B; [apply (oriented_equiv D' D)|apply (oriented_equiv D D')]; auto using equivalent_sym.
Qed.

(* ---- the loop on any graph ---- *)
Lemma take_idle : forall os g, (forall o i, In o os -> In i (items_of o) -> t_act i = DO_NOTHING) -> exists p, take_action no_hooks false os g = (g, Ok ([], p)).
Proof.
  assert (TI : forall l g, (forall i, In i l -> t_act i = DO_NOTHING) -> take_items false l g = (g, Ok [])).
  { induction l as [|i l IH]; intros g H; cbn [take_items]; [reflexivity|]. unfold bind at 1.
    assert (X : apply_action i g = (g, Ok false)) by (unfold apply_action, bind, gget; rewrite (H i (or_introl eq_refl)); reflexivity).
    rewrite X. unfold bind. rewrite (IH g (fun j h => H j (or_intror h))). reflexivity. }
  induction os as [|[items|] os IH]; intros g H; cbn [take_action].
  - exists []. reflexivity.
  - destruct (IH g (fun o i h => H o i (or_intror h))) as [p Hp]. unfold bind at 1, gget at 1. change (run_pre_hooks no_hooks g items) with (Ok items). cbn iota. unfold bind at 1.
    rewrite (TI items g (fun i h => H (Some items) i (or_introl eq_refl) h)). unfold bind at 1, gget at 1. change (run_post_hooks no_hooks g []) with (Ok tt). cbn iota. unfold bind at 1. rewrite Hp. eexists; reflexivity.
  - apply IH. intros o i h. apply (H o i (or_intror h)).
Qed.
Lemma quiet_idle P s g : rule_step s -> quiet s g -> exists p, execute_step P no_hooks s false g = (g, Ok ([], p)).
Proof.
  intros RS Qu. rewrite (rule_unfold s P false g RS).
  destruct (rmap_ok (fun ns => call s g ns None) (fun o => forall i, In i (items_of o) -> t_act i = DO_NOTHING) (pairs_of g) Qu) as (os & -> & F).
  apply take_idle. intros o i Ho. rewrite Forall_forall in F. exact (F o Ho i).
Qed.
Lemma c29_main fuel P so g : reached g -> (live_count g + 2 <= fuel)%nat -> snd (run_loop fuel P no_hooks exit_on_no_actions (orientation_steps so) 0 None g) <> Err OutOfFuel.
Proof.
  intros R Fu. destruct (run_loop fuel P no_hooks exit_on_no_actions (orientation_steps so) 0 None g) as [g' r] eqn:E.
  destruct (loop_run P _ (orientation_rules_ok so) fuel 0 None g g' r (reached_WF _ R) ltac:(lia) E) as [_ H]. cbn [snd]. destruct r as [hs|e]; [discriminate|]. intros X; injection X as ->. exact (H Fu eq_refl).
Qed.
Lemma c30_main fuel P so g g' hs : reached g -> run_loop fuel P no_hooks exit_on_no_actions (orientation_steps so) 0 None g = (g', Ok hs) ->
  forall s P', In s (orientation_steps so) -> exists p, execute_step P' no_hooks s false g' = (g', Ok ([], p)).
Proof.
  intros R E s P' Hs. destruct (loop_run P _ (orientation_rules_ok so) fuel 0 None g g' (Ok hs) (reached_WF _ R) ltac:(lia) E) as [_ H]. rewrite Forall_forall in H.
  apply quiet_idle; [|exact (H s Hs)]. assert (F := orientation_rules_ok so). rewrite Forall_forall in F. auto.
Qed.

(* ---- the shipped algorithms that find the exact skeleton ---- *)
Inductive exact_algorithm (P : runner) (so : list id -> list id) (N : numerics) : list pstep -> Prop :=
| ea_pc : exact_algorithm P so N (pc so N)
| ea_classic : exact_algorithm P so N (pc_classic so N)
| ea_parallel : forall sh sh' coin, is_shuffle (Some sh) -> is_shuffle (Some sh') -> pool_runner no_hooks P -> early_on (partial_step true N) P ->
    exact_algorithm P so N (pc_parallel so sh sh' coin N).
Record perfect_run (fuel : nat) (P : runner) (l : list pstep) (g0 : graph) (D : list (id * id)) (N : numerics) : Prop := {
  pr_start : exists d, start_graph d = Ok g0;
  pr_dag : dag_over (dkeys (nodes g0)) D;
  pr_tests : exists c, perfect_tests N (values_of g0) (dkeys (nodes g0)) D c;
  pr_alg : exists so, set_order so /\ exact_algorithm P so N l;
  pr_fuel : (List.length (nodes g0) * List.length (nodes g0) + 2 <= fuel)%nat }.
Lemma exact_pattern fuel P l g0 D N g r : perfect_run fuel P l g0 D N -> execute_pipeline fuel P no_hooks l g0 = (g, r) ->
  nodes g = nodes g0 /\ meek_pattern g D /\ match r with Ok _ => True | Err e => exists xs zs ys, n_effect N xs zs ys = Err e end.
Proof.
  intros [[d S0] DG [c PT] [so [SO A]] FU] R. assert (X : reaches_pattern fuel P l N g0 D).
  { destruct A as [| |sh sh' coin H1 H2 H3 H4].
    - exact (pc_pattern fuel P so d g0 D N c S0 DG PT SO FU).
    - exact (classic_pattern fuel P so d g0 D N c S0 DG PT SO FU).
    - exact (parallel_pattern fuel P so d g0 D N c S0 DG PT SO FU sh sh' coin H1 H2 H3 H4). }
  destruct X as (g' & r' & R' & H). rewrite R in R'. injection R' as <- <-. exact H.
Qed.
