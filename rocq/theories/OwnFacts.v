(* Arrangements of the orientation rules under perfect tests. *)
From Verif Require Import Base PyDict PyDictFacts Graph GraphSpec GraphFacts GraphInv GraphQ PathSpec Actions ActionSpec ActionFacts ActionMain Generators GenSpec GenFacts Rules IndepTests Pipeline Parallel
  PipeSpec PipeFacts PipeMain PipeMain2 Construct ConstructSpec ConstructFacts Dag DagFacts DagSep SkelSpec SkelFacts SkelStart SkelSteps SkelMatrix SkelMain Schedules SkelMain2 DsepDec Ideal SkelTop
  Serve RuleFacts OrientSpec OrientGraph LoopFacts OrientMain OrientTop OrientThree OwnSpec.
Open Scope list_scope.
Open Scope nat_scope.

Lemma only_rule_step so l : only_rules so l -> Forall rule_step l.
Proof. intros H. apply Forall_forall. intros s Hs. assert (F := orientation_rules_ok so). rewrite Forall_forall in F. exact (F s (H s Hs)). Qed.
Lemma after_log g h : WF g -> after (fun _ _ => False) g (with_ahist g h).
Proof. intros W. split; auto; [apply WF_ahist; exact W|intros a b; split; [auto|tauto]|intros a H; exact H]. Qed.

Section Own.
Variables (g0 : graph) (D : list (id * id)) (so : list id -> list id).
Hypothesis DG : dag_over (dkeys (nodes g0)) D.
Hypothesis SO : set_order so.
Let Ac : acyclic (edge_in D) := do_acyclic _ _ DG.
Notation ori := (ori g0 D).
Lemma only_sound l : only_rules so l -> Forall (sound_rule g0 D) l.
Proof. intros H. apply Forall_forall. intros s Hs. assert (F := rules_sound g0 D so DG SO). rewrite Forall_forall in F. exact (F s (H s Hs)). Qed.
Theorem three_quiet g : ori g -> quiet (non_collider_step so) g -> quiet triple_step g -> quiet (quadruple_step so) g -> meek_pattern g D.
Proof.
  intros O Q1 Q2 Q3 x y. apply (closed_three D Ac (fun x y => directed_edge_exists g x y = true)).
  - intros a b. destruct (directed_edge_exists g a b); [left|right]; congruence.
  - exact (p_adj _ _ _ (proj1 O)).
  - intros a b A N. apply (p_sound _ _ _ (proj1 O)); [exact A|]. destruct (directed_edge_exists g a b); congruence.
  - intros a z b V H. rewrite (proj2 O a z b V) in H. discriminate.
  - exact (cl_1 g0 D so DG SO g O Q1).
  - exact (cl_2 g0 D g O Q2).
  - exact (cl_3 g0 D so DG SO g O Q3).
Qed.
Lemma loop_ends fuel Pr name l g : ori g -> only_rules so l -> List.length (nodes g0) * List.length (nodes g0) + 2 <= fuel ->
  exists g', run_pstep fuel Pr no_hooks (PLoop name exit_on_no_actions l) g = (g', Ok tt) /\ ori g' /\ (has_three so l -> meek_pattern g' D).
Proof.
  intros O Hl Fu. assert (RS := only_rule_step so l Hl). destruct (loop_keeps g0 D Pr l RS (only_sound l Hl) fuel 0 None g O ltac:(lia)) as (g3 & r3 & R3 & O3 & H3).
  destruct (loop_run Pr l RS fuel 0 None g g3 r3 (p_wf _ _ _ (proj1 O)) ltac:(lia) R3) as [_ L3]. cbn [run_pstep]. unfold bind at 1. rewrite R3.
  destruct H3 as [->|[hs ->]].
  - exfalso. apply L3; [|reflexivity]. unfold need. assert (B := live_count_bound g). rewrite (p_nodes _ _ _ (proj1 O)) in B. lia.
  - eexists. split; [reflexivity|]. split; [exact (ori_same g0 D g3 _ O3 (after_log _ _ (p_wf _ _ _ (proj1 O3))))|].
    intros (H1 & H2 & H3). rewrite Forall_forall in L3. exact (three_quiet g3 O3 (L3 _ H1) (L3 _ H2) (L3 _ H3)).
Qed.
Lemma inner_dry_sound Pr l g : ori g -> only_rules so l -> exists a, run_inner Pr no_hooks true l g = (g, Ok a) /\ Forall (justified D) (snd a).
Proof.
  intros O Hl. assert (RS := only_rule_step so l Hl). assert (SR := only_sound l Hl). clear Hl. induction l as [|s l IH]; cbn [run_inner].
  - eexists. split; [reflexivity|constructor].
  - inversion RS; inversion SR; subst. destruct IH as (b & Rb & Fb); auto. unfold bind. rewrite (rule_unfold s Pr true g) by assumption.
    destruct (rmap_ok (fun ns => call s g ns None) (fun o => Forall (justified D) (items_of o)) (LoopFacts.pairs_of g)) as (os & Eo & Fo).
    { intros ns Hns. match goal with H : sound_rule _ _ s |- _ => apply H; [exact O|] end. exact (pairs_ok g0 g (p_wf _ _ _ (proj1 O)) (p_nodes _ _ _ (proj1 O)) ns Hns). }
    rewrite Eo, take_action_dry, Rb. eexists. split; [reflexivity|]. cbn [fst snd]. apply Forall_app. split; [|exact Fb].
    apply Forall_forall. intros i Hi. apply in_flat_map in Hi. destruct Hi as (o & Ho & Hi). rewrite Forall_forall in Fo. specialize (Fo o Ho). rewrite Forall_forall in Fo. exact (Fo i Hi).
Qed.
Lemma arranged_keeps fuel Pr p g : ori g -> arranged so p -> List.length (nodes g0) * List.length (nodes g0) + 2 <= fuel ->
  exists g', run_pstep fuel Pr no_hooks p g = (g', Ok tt) /\ ori g'.
Proof.
  intros O A Fu. destruct A as [s Hs|name l Hl|name l Hl].
  - assert (Hl : only_rules so [s]) by (intros t [<-|[]]; exact Hs). assert (RS := only_rule_step so _ Hl). assert (SR := only_sound _ Hl). inversion RS; inversion SR; subst.
    destruct (rule_keeps g0 D s Pr g) as (g1 & a & R1 & O1); auto. cbn [run_pstep]. unfold bind at 1. rewrite R1. unfold bind at 1, log_step at 1. cbn beta iota.
    set (g1' := with_ahist g1 _). assert (O1' := ori_same g0 D g1 g1' O1 (after_log _ _ (p_wf _ _ _ (proj1 O1)))).
    destruct (after_purge g1' (p_wf _ _ _ (proj1 O1'))) as [A2 E2]. destruct (purge_soft_deleted_edges g1') as [g2 r2]. cbn [fst snd] in A2, E2. subst r2.
    exists g2. split; [reflexivity|]. exact (ori_same g0 D g1' g2 O1' A2).
  - destruct (loop_ends fuel Pr name l g O Hl Fu) as (g' & R & O' & _). eauto.
  - destruct (inner_dry_sound Pr l g O Hl) as (a & Ra & Fa). cbn [run_pstep]. unfold run_together, bind at 1. unfold bind at 1. rewrite Ra. unfold bind at 1.
    destruct (justified_take g0 D (map (fun i => Some [i]) (snd a)) g (proj1 O)) as (g1 & b & R1 & P1 & A1).
    { apply Forall_forall. intros o Ho. apply in_map_iff in Ho. destruct Ho as (i & <- & Hi). rewrite Forall_forall in Fa. cbn [items_of]. constructor; [exact (Fa i Hi)|constructor]. }
    rewrite R1. cbn. eexists. split; [reflexivity|]. assert (O1 : ori g1) by (split; [exact P1|exact (vs_shrinks D g g1 (after_shrinks _ _ _ A1) (proj2 O))]).
    exact (ori_same g0 D g1 _ O1 (after_log _ _ (p_wf _ _ _ (proj1 O1)))).
Qed.
Lemma arranged_all fuel Pr l g : ori g -> Forall (arranged so) l -> List.length (nodes g0) * List.length (nodes g0) + 2 <= fuel ->
  exists g', execute_pipeline fuel Pr no_hooks l g = (g', Ok tt) /\ ori g'.
Proof.
  intros O F Fu. revert g O. induction F as [|p l A F IH]; intros g O; cbn [execute_pipeline]; [eexists; split; [reflexivity|exact O]|].
  destruct (arranged_keeps fuel Pr p g O A Fu) as (g1 & R1 & O1). destruct (IH g1 O1) as (g2 & R2 & O2). unfold bind. rewrite R1, R2. eauto.
Qed.
Lemma collider_ori c st fuel Pr g : found g0 D c g -> (forall u v, directed_edge_is_soft_deleted g u v = false) ->
  exists g2, run_pstep fuel Pr no_hooks (PStep (collider_step st so)) g = (g2, Ok tt) /\ ori g2.
Proof.
  intros F PG. destruct (coll_step g0 D so DG SO c st g F PG Pr) as (g1 & a1 & R1 & O1). cbn [run_pstep]. unfold bind at 1. rewrite R1. unfold bind at 1, log_step at 1. cbn beta iota.
  set (g1' := with_ahist g1 _). assert (O1' := ori_same g0 D g1 g1' O1 (after_log _ _ (p_wf _ _ _ (proj1 O1)))).
  destruct (after_purge g1' (p_wf _ _ _ (proj1 O1'))) as [A2 E2]. destruct (purge_soft_deleted_edges g1') as [g2 r2]. cbn [fst snd] in A2, E2. subst r2.
  exists g2. split; [reflexivity|]. exact (ori_same g0 D g1' g2 O1' A2).
Qed.
Theorem own_orient c N st first name l last fuel Pr g : found g0 D c g -> (forall u v, directed_edge_is_soft_deleted g u v = false) ->
  Forall (arranged so) first -> only_rules so l -> has_three so l -> (last = [] \/ last = [PStep (effect_step N)]) -> List.length (nodes g0) * List.length (nodes g0) + 2 <= fuel ->
  exists g' r, execute_pipeline fuel Pr no_hooks (PStep (collider_step st so) :: first ++ PLoop name exit_on_no_actions l :: last) g = (g', r) /\
    nodes g' = nodes g0 /\ meek_pattern g' D /\ match r with Ok _ => True | Err e => exists xs zs ys, n_effect N xs zs ys = Err e end.
Proof.
  intros F PG Ff Hl H3 La Fu. destruct (collider_ori c st fuel Pr g F PG) as (g2 & R2 & O2). rewrite (pipeline_cons _ _ _ _ _ _ _ R2).
  destruct (arranged_all fuel Pr first g2 O2 Ff Fu) as (g3 & R3 & O3). rewrite pipeline_app, R3.
  destruct (loop_ends fuel Pr name l g3 O3 Hl Fu) as (g4 & R4 & O4 & MP). rewrite (pipeline_cons _ _ _ _ _ _ _ R4). specialize (MP H3). destruct La as [->| ->].
  - exists g4, (Ok tt). split; [reflexivity|]. split; [exact (p_nodes _ _ _ (proj1 O4))|auto].
  - destruct (eff_run g0 D N g4 (proj1 O4) fuel Pr) as (g5 & r5 & R5 & (W5 & N5 & L5 & _) & H5). cbn [execute_pipeline]. unfold bind at 1. rewrite R5. exists g5.
    assert (MP5 : meek_pattern g5 D) by (intros x y; rewrite L5; apply MP). destruct r5 as [u|e]; eexists; (split; [reflexivity|auto]).
Qed.
End Own.

Theorem own_pattern fuel P so d g0 D N c l : start_graph d = Ok g0 -> dag_over (dkeys (nodes g0)) D -> perfect_tests N (values_of g0) (dkeys (nodes g0)) D c -> set_order so ->
  List.length (nodes g0) * List.length (nodes g0) + 2 <= fuel -> own_algorithm P so N l -> reaches_pattern fuel P l N g0 D.
Proof.
  intros S0 DG PT SO FU [sk st first name l' last SK Ff Hl H3 La]. unfold reaches_pattern.
  assert (X : exists g1, execute_pipeline fuel P no_hooks sk g0 = (g1, Ok tt) /\ found g0 D c g1 /\ forall u v, directed_edge_is_soft_deleted g1 u v = false).
  { assert (W0 := cp_wf _ (complete_start d g0 S0)). destruct SK as [| |sh sh' coin SH SH' HP Ea].
    - destruct (pc_found g0 D N c so (complete_start d g0 S0) DG PT SO fuel P) as (g1 & R & F). exists g1. split; [exact R|]. split; [exact F|].
      refine (last_purged fuel P [PStep (calculate_pearson N); PStep (correlation_step N); PStep (partial_step false N)] (matrix_step so 4 N) g0 g1 W0 _ R). repeat constructor; intros X; discriminate X.
    - destruct (classic_found g0 D N c so (complete_start d g0 S0) DG PT SO fuel P) as (g1 & R & F). exists g1. split; [exact R|]. split; [exact F|].
      refine (last_purged fuel P [PStep (calculate_pearson N); PStep (correlation_step N)] (matrix_step so 3 N) g0 g1 W0 _ R). repeat constructor; intros X; discriminate X.
    - destruct (early_found g0 D N c so (complete_start d g0 S0) DG PT SO sh sh' coin SH SH' P HP Ea fuel) as (g1 & R & F). exists g1. split; [exact R|]. split; [exact F|].
      refine (last_purged fuel P [PStep (calculate_pearson N); PStep (correlation_step N); PStep (partial_step true N); PStep (matrix_step_sampled so sh coin N)] (matrix_step_parallel so sh' N) g0 g1 W0 _ R).
      repeat constructor; intros _; exact HP. }
  destruct X as (g1 & R & F & PG). rewrite pipeline_app, R. exact (own_orient g0 D so DG SO c N st first name l' last fuel P g1 F PG Ff Hl H3 La FU).
Qed.
