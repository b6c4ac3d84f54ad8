(* A step that tells a direction, inside the loop of the rules: C132. *)
From Verif Require Import Base PyDict PyDictFacts Graph GraphSpec GraphFacts GraphInv GraphQ PathSpec Actions ActionSpec Generators GenSpec GenFacts Rules IndepTests Pipeline Parallel
  PipeSpec PipeFacts PipeMain PipeMain2 GraphCheck Construct ConstructSpec ConstructFacts Dag DagFacts DagSep SkelSpec SkelFacts SkelStart SkelSteps SkelMain Schedules SkelMain2 SkelTop Serve Toy DsepDec Ideal OrientSpec OrientGraph LoopFacts OrientMain OrientTop ActionMain
  ArrangeSpec ArrangeExact PropsArrange ExtendSpec PropsExtend KnowSpec KnowGraph KnowMain KnowTop PropsKnow PropsTiers.
Open Scope string_scope.
Open Scope list_scope.
Open Scope nat_scope.

Section Run.
Variables (g0 : graph) (D : list (id * id)) (so : list id -> list id) (P : runner) (K : id -> id -> Prop).
Hypothesis DG : dag_over (dkeys (nodes g0)) D.
Hypothesis SO : set_order so.
Hypothesis KS : forall x y, K x y -> edge_in D x y.
Notation ori_k := (KnowMain.ori g0 D K).

Lemma one_taken i g : take_action no_hooks false [Some [i]] g = match apply_action i g with (g', Ok b) => (g', Ok ((if b : bool then [i] else []) ++ [], [i])) | (g', Err e) => (g', Err e) end.
Proof. cbn [take_action take_items]. unfold bind, gget, ret, run_pre_hooks, run_post_hooks. cbn - [apply_action]. unfold bind, ret. destruct (apply_action i g) as [g1 [[|]|e]]; reflexivity. Qed.
Lemma told_again g x y : ori_k g -> K x y -> exists g' a, execute_step P no_hooks (tell (remove_directed y x [])) false g = (g', Ok a) /\ ori_k g' /\ fst a <> [].
Proof.
  intros O Kx. assert (Z := told_step g0 D DG K KS P g _ (tell_knowledge P g0 D K x y Kx) g (self_kinv g0 D K g O)).
  assert (Ex : execute_step P no_hooks (tell (remove_directed y x [])) false g = take_action no_hooks false [Some [remove_directed y x []]] g) by reflexivity.
  rewrite Ex in *. clear Ex. destruct (take_action no_hooks false [Some [remove_directed y x []]] g) as [g' [a|e]] eqn:T; [|destruct Z as [_ []]].
  exists g', a. split; [reflexivity|]. destruct Z as [I _]. split; [exact (proj1 I)|]. intros Ea.
  assert (EE : edge_exists g y x = true) by (apply (ee_adj g0 D DG K KS g (proj1 O)); right; exact (KS x y Kx)).
  rewrite one_taken in T. destruct (apply_action (remove_directed y x []) g) as [g1 [b|e]] eqn:A; [|discriminate T].
  injection T as _ <-. cbn [fst] in Ea. revert A. unfold apply_action. cbn [t_act t_u t_v remove_directed]. unfold bind at 1, gget at 1. rewrite EE, andb_false_r.
  cbn [negb]. unfold bind, ret, gget. destruct (remove_directed_edge y x true g) as [g2 [u|e]]; [|discriminate].
  destruct (edge_exists g2 x y); [destruct (update_directed_edge x y None (Some TDirected) g2) as [g3 [u3|e]]; [|discriminate]|].
  all: match goal with |- context [add_edge_history ?a ?b ?i ?h] => destruct (add_edge_history a b i h) as [g4 [u4|e]]; [|discriminate] end.
  all: intros X; injection X as _ <-; discriminate Ea.
Qed.

Definition busy (s : step) : Prop := forall g g' a, ori_k g -> execute_step P no_hooks s false g = (g', Ok a) -> fst a <> [].
Lemma tell_busy x y : K x y -> busy (tell (remove_directed y x [])).
Proof. intros Kx g g' a O R. destruct (told_again g x y O Kx) as (g3 & a3 & R3 & _ & N3). rewrite R in R3. injection R3 as _ <-. exact N3. Qed.
Lemma inner_again b : busy b -> forall l g, (forall s, In s l -> In s (orientation_steps so) \/ knowledge_step D K P g0 s) -> ori_k g ->
  exists g' a, run_inner P no_hooks false l g = (g', Ok a) /\ ori_k g' /\ (In b l -> snd a <> []).
Proof.
  intros Bu.
  assert (One : forall s g, In s (orientation_steps so) \/ knowledge_step D K P g0 s -> ori_k g -> exists g' a, execute_step P no_hooks s false g = (g', Ok a) /\ ori_k g').
  { intros s g [Hs|Hs] O.
    - apply (rule_keeps g0 D K s P g); [|  |exact O].
      + assert (F := orientation_rules_ok so). rewrite Forall_forall in F. auto.
      + assert (F := rules_sound g0 D so DG SO K KS). rewrite Forall_forall in F. auto.
    - assert (Z := told_step g0 D DG K KS P g s Hs g (self_kinv g0 D K g O)). destruct (execute_step P no_hooks s false g) as [g' [a|e]]; [|destruct Z as [_ []]].
      exists g', a. split; [reflexivity|]. exact (proj1 (proj1 Z)). }
  induction l as [|s l IH]; intros g Hl O; cbn [run_inner].
  - eexists _, _. split; [reflexivity|]. split; [exact O|intros []].
  - destruct (One s g (Hl s (or_introl eq_refl)) O) as (g1 & a & R1 & O1). destruct (IH g1 (fun s' h => Hl s' (or_intror h)) O1) as (g2 & c & R2 & O2 & B2).
    unfold bind. rewrite R1, R2. eexists _, _. split; [reflexivity|]. split; [exact O2|]. cbn [snd]. intros [->|H] X; apply app_eq_nil in X; destruct X as [X1 X2]; [|exact (B2 H X2)].
    exact (Bu g g1 a O R1 X1).
Qed.
Lemma loop_again b l : busy b -> (forall s, In s l -> In s (orientation_steps so) \/ knowledge_step D K P g0 s) -> In b l ->
  forall fuel n last g, ori_k g -> (n = 0 \/ exists t, last = Some t /\ t <> []) -> exists g', run_loop fuel P no_hooks exit_on_no_actions l n last g = (g', Err OutOfFuel).
Proof.
  intros Bu Hl Ht. induction fuel as [|f IH]; intros n last g O Hn; cbn [run_loop]; [exists g; reflexivity|].
  assert (X : exit_on_no_actions n last = Ok false).
  { unfold exit_on_no_actions. destruct Hn as [->|(t & -> & Nt)]; [reflexivity|]. destruct (Nat.ltb 0 n); [|reflexivity]. destruct t; [contradiction|reflexivity]. }
  unfold bind at 1. rewrite X. cbn [liftr]. unfold ret at 1. destruct (inner_again b Bu l g Hl O) as (g1 & a & R1 & O1 & N1). unfold bind at 1. rewrite R1.
  destruct (IH (S n) (Some (snd a)) g1 O1) as (g2 & R2); [right; eauto|]. unfold bind. rewrite R2. exists g2. reflexivity.
Qed.
Theorem again_run st c fuel b l name rest g : found g0 D c g -> (forall u v, directed_edge_is_soft_deleted g u v = false) -> busy b -> (forall s, In s l -> In s (orientation_steps so) \/ knowledge_step D K P g0 s) -> In b l ->
  exists g', execute_pipeline fuel P no_hooks (PStep (collider_step st so) :: PLoop name exit_on_no_actions l :: rest) g = (g', Err OutOfFuel).
Proof.
  intros F PG Bu Hl Ht.
  assert (LG : forall g h, WF g -> after (fun _ _ => False) g (with_ahist g h)).
  { intros ga h W. split; auto; [apply WF_ahist; exact W|intros u v; split; [auto|tauto]|intros a H; exact H]. }
  assert (S1 : exists ga, run_pstep fuel P no_hooks (PStep (collider_step st so)) g = (ga, Ok tt) /\ OrientMain.ori g0 D ga).
  { destruct (coll_step g0 D so DG SO c st g F PG P) as (gb & a1 & R1 & O1). cbn [run_pstep]. unfold bind at 1. rewrite R1. unfold bind at 1, log_step at 1. cbn beta iota.
    set (g1' := with_ahist gb _). assert (O1' := OrientMain.ori_same g0 D gb g1' O1 (LG _ _ (OrientMain.p_wf _ _ _ (proj1 O1)))).
    destruct (after_purge g1' (OrientMain.p_wf _ _ _ (proj1 O1'))) as [A2 E2]. destruct (purge_soft_deleted_edges g1') as [g2 r2]. cbn [fst snd] in A2, E2. subst r2.
    exists g2. split; [reflexivity|]. exact (OrientMain.ori_same g0 D g1' g2 O1' A2). }
  destruct S1 as (ga & Ra & Oa). rewrite (pipeline_cons _ _ _ _ _ _ _ Ra). destruct (loop_again b l Bu Hl Ht fuel 0 None ga (ori_known g0 D K ga Oa) (or_introl eq_refl)) as (g2 & R2).
  exists g2. cbn [execute_pipeline run_pstep]. unfold bind. rewrite R2. reflexivity.
Qed.
End Run.

(* C132: a step that tells a true direction of an edge, put among the rules inside the loop, keeps the loop from ever ending: whatever the bound on its rounds,
   the rounds do not suffice. *)
Theorem C132_endless : forall fuel P so N d g0 D c (K : id -> id -> Prop) st x y l name rest, start_graph d = Ok g0 -> dag_over (dkeys (nodes g0)) D -> perfect_tests N (values_of g0) (dkeys (nodes g0)) D c -> set_order so ->
  (forall u v, K u v -> edge_in D u v) -> K x y -> (forall s, In s l -> In s (orientation_steps so) \/ knowledge_step D K P g0 s) -> In (tell (remove_directed y x [])) l ->
  exists g, execute_pipeline fuel P no_hooks ([PStep (calculate_pearson N); PStep (correlation_step N); PStep (partial_step false N); PStep (matrix_step so 4 N); PStep (collider_step st so)] ++
    PLoop name exit_on_no_actions l :: rest) g0 = (g, Err OutOfFuel).
Proof.
  intros fuel P so N d g0 D c K st x y l name rest S0 DG PT SO KS Kx Hl Ht.
  destruct (pc_found g0 D N c so (complete_start d g0 S0) DG PT SO fuel P) as (ga & R & F).
  assert (FP : Forall (fun p => Forall (par_ok P) (steps_of p)) ([PStep (calculate_pearson N); PStep (correlation_step N); PStep (partial_step false N)] ++ [PStep (matrix_step so 4 N)])) by (repeat constructor; intros X; discriminate X).
  assert (PG := last_purged fuel P [PStep (calculate_pearson N); PStep (correlation_step N); PStep (partial_step false N)] (matrix_step so 4 N) g0 ga (cp_wf _ (complete_start d g0 S0)) FP R).
  destruct (again_run g0 D so P K DG SO KS st c fuel _ l name rest ga F PG (tell_busy g0 D P K DG KS x y Kx) Hl Ht) as (g & Rg). exists g.
  change ([PStep (calculate_pearson N); PStep (correlation_step N); PStep (partial_step false N); PStep (matrix_step so 4 N); PStep (collider_step st so)] ++ PLoop name exit_on_no_actions l :: rest)
    with (([PStep (calculate_pearson N); PStep (correlation_step N); PStep (partial_step false N); PStep (matrix_step so 4 N)]) ++ (PStep (collider_step st so) :: PLoop name exit_on_no_actions l :: rest)).
  rewrite pipeline_app. setoid_rewrite R. exact Rg.
Qed.
Print Assumptions C132_endless.

(* a -> b -> c: told a -> b before the loop, PC ends and finds both directions; told inside the loop, it does not end *)
Definition told_inside : list pstep := [PStep (calculate_pearson line_tests); PStep (correlation_step line_tests); PStep (partial_step false line_tests); PStep (matrix_step dedup 4 line_tests); PStep (collider_step KEEP_FIRST dedup);
  PLoop "Loop" exit_on_no_actions (tell (remove_directed "b" "a" []) :: orientation_steps dedup); PStep (effect_step line_tests)].
Example C132_nonvacuous : exists g0 g, start_graph (ideal_data line_names) = Ok g0 /\ dag_over (dkeys (nodes g0)) line_dag /\ perfect_tests line_tests (values_of g0) (dkeys (nodes g0)) line_dag (ideal_corr line_names) /\ set_order dedup /\
  execute_pipeline 18 (batch_runner no_hooks) no_hooks (pc_told [] [PStep (tell (remove_directed "b" "a" []))]) g0 = (g, Ok tt) /\ one_way g "a" "b" /\ one_way g "b" "c" /\
  (forall fuel, exists g', execute_pipeline fuel (batch_runner no_hooks) no_hooks told_inside g0 = (g', Err OutOfFuel)).
Proof.
  destruct (ideal_exists line_names line_dag line_nodup line_is_dag) as (g0 & S0 & PE & DG & PT). assert (G0 := S0). vm_compute in G0. injection G0 as G0.
  exists g0. eexists. split; [exact S0|]. split; [exact DG|]. split; [exact PT|]. split; [exact dedup_order|]. split; [rewrite <- G0; vm_compute; reflexivity|]. split; [vm_compute; reflexivity|]. split; [vm_compute; reflexivity|].
  intros fuel. apply (C132_endless fuel (batch_runner no_hooks) dedup line_tests (ideal_data line_names) g0 line_dag (ideal_corr line_names) (fun x y => x = "a" /\ y = "b") KEEP_FIRST "a" "b" (tell (remove_directed "b" "a" []) :: orientation_steps dedup) "Loop" [PStep (effect_step line_tests)] S0 DG PT dedup_order).
  - intros u v [-> ->]. left; reflexivity.
  - auto.
  - intros s [<-|H]; [right; apply tell_knowledge; auto|left; exact H].
  - left; reflexivity.
Qed.

(* A step for tiers that looks first: a user's step over all pairs (interfaces.py:344-389, generators.py:29-54) that removes a direction from a later tier to an
   earlier one only while it is there. *)
Definition tier_look (tier : id -> nat) : step := mkStep "Tiers" (gen_all (mkCS 2 2)) false false false false
  (fun g ns _ => match ns with
     | [x; y] => if (tier x <? tier y) && directed_edge_exists g y x then Ok (Some [remove_directed y x []]) else if (tier y <? tier x) && directed_edge_exists g x y then Ok (Some [remove_directed x y []]) else Ok None
     | _ => Ok None end).
Lemma look_rule tier : rule_step (tier_look tier).
Proof.
  constructor; [repeat split|reflexivity|reflexivity| |].
  - intros g ns o i C Hi. unfold call in C. cbn [tier_look s_unapplied s_proc] in C. destruct ns as [|x [|y [|z l]]]; try (injection C as <-; destruct Hi).
    destruct ((tier x <? tier y) && directed_edge_exists g y x) eqn:B1; [injection C as <-; destruct Hi as [<-|[]]; right; split; [reflexivity|]; apply andb_true_iff in B1; exact (proj2 B1)|].
    destruct ((tier y <? tier x) && directed_edge_exists g x y) eqn:B2; [injection C as <-; destruct Hi as [<-|[]]; right; split; [reflexivity|]; apply andb_true_iff in B2; exact (proj2 B2)|]. injection C as <-. destruct Hi.
  - intros g ns e C. unfold call in C. cbn [tier_look s_unapplied s_proc] in C. destruct ns as [|x [|y [|z l]]]; try discriminate C. destruct (_ && _); [discriminate C|]. destruct (_ && _); discriminate C.
Qed.
Section Look.
Variables (g0 : graph) (D : list (id * id)) (so : list id -> list id) (P : runner) (tier : id -> nat).
Hypothesis DG : dag_over (dkeys (nodes g0)) D.
Hypothesis SO : set_order so.
Hypothesis TI : forall x y, edge_in D x y -> tier x <= tier y.
Notation K := (across D tier).
Notation ori_k := (KnowMain.ori g0 D K).
Lemma across_in x y : K x y -> edge_in D x y.
Proof. intros [H _]. exact H. Qed.
Lemma look_sound : sound_rule g0 D K (tier_look tier).
Proof.
  intros g ns O (x & y & -> & Hx & Hy & Ne). unfold call. cbn [tier_look s_unapplied s_proc].
  assert (J : forall a b, (tier a <? tier b) && directed_edge_exists g b a = true -> known D K a b).
  { intros a b B. apply andb_true_iff in B. destruct B as [B1 B2]. apply Nat.ltb_lt in B1. apply kn_told. split; [|exact B1].
    assert (A : adjacent (edge_in D) a b) by (apply (ee_adj g0 D DG K across_in g (proj1 O)); rewrite edge_exists_or, B2; apply orb_true_r). destruct A as [A|A]; [exact A|]. specialize (TI _ _ A). lia. }
  destruct ((tier x <? tier y) && directed_edge_exists g y x) eqn:B1; [eexists; split; [reflexivity|]; constructor; [right; split; [reflexivity|exact (J x y B1)]|constructor]|].
  destruct ((tier y <? tier x) && directed_edge_exists g x y) eqn:B2; [eexists; split; [reflexivity|]; constructor; [right; split; [reflexivity|exact (J y x B2)]|constructor]|].
  eexists. split; [reflexivity|constructor].
Qed.
Lemma look_quiet g x y : ori_k g -> quiet (tier_look tier) g -> K x y -> directed_edge_exists g y x = false.
Proof.
  intros O Q [A L]. destruct (directed_edge_exists g y x) eqn:Lv; [|reflexivity]. exfalso. destruct (live_nodes g0 D K g (proj1 O) _ _ Lv) as (Hy & Hx & Ne).
  destruct (quiet_call g0 D K (tier_look tier) g x y (proj1 O) Q Hx Hy (fun e => Ne (eq_sym e))) as (a & b & o & Hab & C & N). unfold call in C. cbn [tier_look s_unapplied s_proc] in C. apply Nat.ltb_lt in L.
  assert (L' : (tier y <? tier x) = false) by (apply Nat.ltb_lt in L; apply Nat.ltb_ge; lia).
  destruct Hab as [[-> ->]|[-> ->]]; rewrite L, ?L', Lv in C; cbn [andb] in C; injection C as <-; specialize (N _ (or_introl eq_refl)); discriminate N.
Qed.
Theorem look_run st c N fuel l name g : found g0 D c g -> (forall u v, directed_edge_is_soft_deleted g u v = false) -> List.length (nodes g0) * List.length (nodes g0) + 2 <= fuel ->
  (forall s, In s l <-> s = tier_look tier \/ In s (orientation_steps so)) ->
  exists g' r, execute_pipeline fuel P no_hooks (PStep (collider_step st so) :: [PLoop name exit_on_no_actions l; PStep (effect_step N)]) g = (g', r) /\ nodes g' = nodes g0 /\ known_pattern D K g' /\ match r with Ok _ => True | Err e => eff_exn N e end.
Proof.
  intros F PG Fu Hl.
  assert (LG : forall g h, WF g -> after (fun _ _ => False) g (with_ahist g h)).
  { intros ga h W. split; auto; [apply WF_ahist; exact W|intros a b; split; [auto|tauto]|intros a H; exact H]. }
  assert (S1 : exists ga, run_pstep fuel P no_hooks (PStep (collider_step st so)) g = (ga, Ok tt) /\ OrientMain.ori g0 D ga).
  { destruct (coll_step g0 D so DG SO c st g F PG P) as (gb & a1 & R1 & O1). cbn [run_pstep]. unfold bind at 1. rewrite R1. unfold bind at 1, log_step at 1. cbn beta iota.
    set (g1' := with_ahist gb _). assert (O1' := OrientMain.ori_same g0 D gb g1' O1 (LG _ _ (OrientMain.p_wf _ _ _ (proj1 O1)))).
    destruct (after_purge g1' (OrientMain.p_wf _ _ _ (proj1 O1'))) as [A2 E2]. destruct (purge_soft_deleted_edges g1') as [g2 r2]. cbn [fst snd] in A2, E2. subst r2.
    exists g2. split; [reflexivity|]. exact (OrientMain.ori_same g0 D g1' g2 O1' A2). }
  destruct S1 as (ga & Ra & Oa). rewrite (pipeline_cons _ _ _ _ _ _ _ Ra). assert (O2 := ori_known g0 D K ga Oa).
  assert (FR : Forall rule_step l). { apply Forall_forall. intros s Hs. apply Hl in Hs. destruct Hs as [->|Hs]; [apply look_rule|]. assert (Z := orientation_rules_ok so). rewrite Forall_forall in Z. auto. }
  assert (FS : Forall (sound_rule g0 D K) l). { apply Forall_forall. intros s Hs. apply Hl in Hs. destruct Hs as [->|Hs]; [apply look_sound|]. assert (Z := rules_sound g0 D so DG SO K across_in). rewrite Forall_forall in Z. auto. }
  assert (S2 : exists g3, run_pstep fuel P no_hooks (PLoop name exit_on_no_actions l) ga = (g3, Ok tt) /\ ori_k g3 /\ known_pattern D K g3).
  { destruct (loop_keeps g0 D K P l FR FS fuel 0 None ga O2 ltac:(lia)) as (g3 & r3 & R3 & O3 & H3).
    destruct (loop_run P _ FR fuel 0 None ga g3 r3 (KnowMain.p_wf _ _ _ _ (proj1 O2)) ltac:(lia) R3) as [Sh L3]. cbn [run_pstep]. unfold bind at 1. rewrite R3.
    destruct H3 as [->|[hs ->]].
    - exfalso. apply L3; [|reflexivity]. unfold need. assert (B := live_count_bound ga). rewrite (KnowMain.p_nodes _ _ _ _ (proj1 O2)) in B. lia.
    - rewrite Forall_forall in L3. eexists. split; [reflexivity|]. split; [exact (proj1 (kinv_log g0 D K ga g3 _ (conj O3 Sh)))|]. apply (quiet_pattern g0 D so DG SO K across_in g3 O3).
      + intros x y H. apply (look_quiet g3 x y O3); [apply L3, Hl; auto|exact H].
      + apply Forall_forall. intros s Hs. apply L3, Hl. auto. }
  destruct S2 as (g3 & R3 & O3 & MP). rewrite (pipeline_cons _ _ _ _ _ _ _ R3).
  destruct (eff_run g0 D K N g3 (proj1 O3) fuel P) as (g4 & r4 & R4 & (W4 & N4 & L4 & _) & H4). cbn [execute_pipeline]. unfold bind at 1. rewrite R4. exists g4.
  assert (MP4 : known_pattern D K g4) by (intros x y; rewrite L4; apply MP).
  destruct r4 as [u|e]; eexists; (split; [reflexivity|auto]).
Qed.
End Look.

(* C132: a step for tiers that looks first can be put anywhere among the rules in the loop: the loop ends, and the result is that of telling the tiers before it (C130) *)
Theorem C132_look : forall fuel P so N d g0 D c st tier l name, start_graph d = Ok g0 -> dag_over (dkeys (nodes g0)) D -> perfect_tests N (values_of g0) (dkeys (nodes g0)) D c -> set_order so ->
  List.length (nodes g0) * List.length (nodes g0) + 2 <= fuel -> (forall x y, edge_in D x y -> tier x <= tier y) -> (forall s, In s l <-> s = tier_look tier \/ In s (orientation_steps so)) ->
  exists g r, execute_pipeline fuel P no_hooks ([PStep (calculate_pearson N); PStep (correlation_step N); PStep (partial_step false N); PStep (matrix_step so 4 N); PStep (collider_step st so)] ++
    [PLoop name exit_on_no_actions l; PStep (effect_step N)]) g0 = (g, r) /\
    (forall x y, edge_exists g x y = true <-> adjacent (edge_in D) x y) /\ (forall x y, edge_in D x y -> tier x < tier y -> one_way g x y) /\ (forall x y, one_way g x y -> edge_in D x y) /\ known_pattern D (across D tier) g /\ match r with Ok _ => True | Err e => exists xs zs ys, n_effect N xs zs ys = Err e end.
Proof.
  intros fuel P so N d g0 D c st tier l name S0 DG PT SO FU TI Hl. assert (Ac := do_acyclic _ _ DG).
  destruct (pc_found g0 D N c so (complete_start d g0 S0) DG PT SO fuel P) as (ga & R & F).
  assert (FP : Forall (fun p => Forall (par_ok P) (steps_of p)) ([PStep (calculate_pearson N); PStep (correlation_step N); PStep (partial_step false N)] ++ [PStep (matrix_step so 4 N)])) by (repeat constructor; intros X; discriminate X).
  assert (PG := last_purged fuel P [PStep (calculate_pearson N); PStep (correlation_step N); PStep (partial_step false N)] (matrix_step so 4 N) g0 ga (cp_wf _ (complete_start d g0 S0)) FP R).
  destruct (look_run g0 D so P tier DG SO TI st c N fuel l name ga F PG FU Hl) as (g & r & Rg & Nn & M & He). exists g, r. assert (KS := across_in D tier).
  split.
  { change ([PStep (calculate_pearson N); PStep (correlation_step N); PStep (partial_step false N); PStep (matrix_step so 4 N); PStep (collider_step st so)] ++ [PLoop name exit_on_no_actions l; PStep (effect_step N)])
      with (([PStep (calculate_pearson N); PStep (correlation_step N); PStep (partial_step false N); PStep (matrix_step so 4 N)]) ++ (PStep (collider_step st so) :: [PLoop name exit_on_no_actions l; PStep (effect_step N)])).
    rewrite pipeline_app. setoid_rewrite R. exact Rg. }
  split; [exact (kp_adj D _ g Ac KS M)|].
  split; [intros x y A L; apply (kp_known D _ g Ac KS M), kn_told; split; assumption|]. split; [exact (kp_true D _ g Ac KS M)|split; [exact M|exact He]].
Qed.
Print Assumptions C132_look.

(* a -> b -> c with a before the others, the tiers told by the last step of the loop *)
Definition first_a (x : id) : nat := if String.eqb x "a" then 0 else 1.
Definition looked_inside : list pstep := [PStep (calculate_pearson line_tests); PStep (correlation_step line_tests); PStep (partial_step false line_tests); PStep (matrix_step dedup 4 line_tests); PStep (collider_step KEEP_FIRST dedup)] ++
  [PLoop "Loop" exit_on_no_actions (orientation_steps dedup ++ [tier_look first_a]); PStep (effect_step line_tests)].
Example C132_look_nonvacuous : exists g0 g, start_graph (ideal_data line_names) = Ok g0 /\ dag_over (dkeys (nodes g0)) line_dag /\ perfect_tests line_tests (values_of g0) (dkeys (nodes g0)) line_dag (ideal_corr line_names) /\ set_order dedup /\
  List.length (nodes g0) * List.length (nodes g0) + 2 <= 18 /\ (forall x y, edge_in line_dag x y -> first_a x <= first_a y) /\ (forall s, In s (orientation_steps dedup ++ [tier_look first_a]) <-> s = tier_look first_a \/ In s (orientation_steps dedup)) /\
  execute_pipeline 18 (batch_runner no_hooks) no_hooks looked_inside g0 = (g, Ok tt) /\ one_way g "a" "b" /\ one_way g "b" "c".
Proof.
  destruct (ideal_exists line_names line_dag line_nodup line_is_dag) as (g0 & S0 & PE & DG & PT). assert (G0 := S0). vm_compute in G0. injection G0 as G0.
  exists g0. eexists. split; [exact S0|]. split; [exact DG|]. split; [exact PT|]. split; [exact dedup_order|]. split; [rewrite <- G0; vm_compute; lia|].
  split; [intros x y H; cbn in H; destruct H as [H|[H|[]]]; injection H as <- <-; vm_compute; lia|].
  split; [intros s; rewrite in_app_iff; cbn [In]; split; [intros [H|[H|[]]]; auto|intros [H|H]; auto]|].
  split; [rewrite <- G0; vm_compute; reflexivity|]. split; vm_compute; reflexivity.
Qed.

(* C132: nor does the loop end with the step for tiers of C130 in it, if some edge is between two tiers *)
Lemma tier_busy d g0 D P tier x y : start_graph d = Ok g0 -> dag_over (dkeys (nodes g0)) D -> (forall u v, edge_in D u v -> tier u <= tier v) -> across D tier x y -> busy g0 D P (across D tier) (tier_step false false false tier).
Proof.
  intros S0 DG TI [A L] g g' a O R Z. assert (W := cp_wf _ (complete_start d g0 S0)). assert (Pg := proj1 O). destruct (do_nodes _ _ DG _ _ A) as [Hx Hy].
  assert (Gen : gen_run (s_gen (tier_step false false false tier) g) g = Ok (map Generators.One (pairs_of g))) by (cbn; rewrite app_nil_r; reflexivity).
  assert (Pl : plain_step (tier_step false false false tier)) by (repeat split).
  rewrite (plain_unfold false _ Pl P g _ Gen), (collect_from (tier_step false false false tier) g eq_refl) in R. unfold bind in R.
  destruct (rmap (fun ns => call (tier_step false false false tier) g ns None) (pairs_of g)) as [os|e] eqn:Ro; [|discriminate R]. cbn [rbind app liftr] in R.
  destruct (rmap_each _ _ _ Ro) as [R1 R2].
  assert (F : Forall (fun o => Forall orient_item (items_of o)) os).
  { apply Forall_forall. intros o Ho. destruct (R2 o Ho) as (ns & _ & C). unfold call in C. cbn [tier_step s_unapplied s_proc] in C. destruct ns as [|u [|v [|w l]]]; try (injection C as <-; constructor).
    destruct (tier u <? tier v); [injection C as <-; constructor; [right; reflexivity|constructor]|]. destruct (tier v <? tier u); [injection C as <-; constructor; [right; reflexivity|constructor]|]. injection C as <-. constructor. }
  assert (R' : take_action no_hooks false os g = (g', Ok a)) by exact R.
  destruct (orient_take os g g' (Ok a) (KnowMain.p_wf _ _ _ _ Pg) F R') as (_ & a' & Ea & _ & Hn). injection Ea as <-. destruct (Hn Z) as [_ Q].
  assert (EE : edge_exists g y x = true) by (apply (ee_adj g0 D DG (across D tier) (across_in D tier) g Pg); right; exact A).
  assert (Ne : x <> y) by (intros ->; lia). apply dmem_In in Hx, Hy.
  assert (X : exists o, In o os /\ In (remove_directed y x []) (items_of o)).
  { destruct (pairs_In g0 g x y (KnowMain.p_wf _ _ _ _ Pg) (KnowMain.p_nodes _ _ _ _ Pg) Hx Hy Ne) as [H|H]; destruct (R1 _ H) as (o & C & Ho); exists o; (split; [exact Ho|]); unfold call in C; cbn [tier_step s_unapplied s_proc] in C.
    - destruct (Nat.ltb_spec (tier x) (tier y)); [|lia]. injection C as <-. left; reflexivity.
    - destruct (Nat.ltb_spec (tier y) (tier x)); [lia|]. destruct (Nat.ltb_spec (tier x) (tier y)); [|lia]. injection C as <-. left; reflexivity. }
  destruct X as (o & Ho & Hi). specialize (Q o _ Ho Hi eq_refl). cbn [t_u t_v remove_directed] in Q. congruence.
Qed.
Theorem C132_tiers : forall fuel P so N d g0 D c st tier x y l name rest, start_graph d = Ok g0 -> dag_over (dkeys (nodes g0)) D -> perfect_tests N (values_of g0) (dkeys (nodes g0)) D c -> set_order so ->
  (forall u v, edge_in D u v -> tier u <= tier v) -> edge_in D x y -> tier x < tier y -> (forall s, In s l <-> s = tier_step false false false tier \/ In s (orientation_steps so)) ->
  exists g, execute_pipeline fuel P no_hooks ([PStep (calculate_pearson N); PStep (correlation_step N); PStep (partial_step false N); PStep (matrix_step so 4 N); PStep (collider_step st so)] ++
    PLoop name exit_on_no_actions l :: rest) g0 = (g, Err OutOfFuel).
Proof.
  intros fuel P so N d g0 D c st tier x y l name rest S0 DG PT SO TI A L Hl.
  destruct (pc_found g0 D N c so (complete_start d g0 S0) DG PT SO fuel P) as (ga & R & F).
  assert (FP : Forall (fun p => Forall (par_ok P) (steps_of p)) ([PStep (calculate_pearson N); PStep (correlation_step N); PStep (partial_step false N)] ++ [PStep (matrix_step so 4 N)])) by (repeat constructor; intros X; discriminate X).
  assert (PG := last_purged fuel P [PStep (calculate_pearson N); PStep (correlation_step N); PStep (partial_step false N)] (matrix_step so 4 N) g0 ga (cp_wf _ (complete_start d g0 S0)) FP R).
  destruct (again_run g0 D so P (across D tier) DG SO (across_in D tier) st c fuel _ l name rest ga F PG (tier_busy d g0 D P tier x y S0 DG TI (conj A L))) as (g & Rg).
  - intros s Hs. apply Hl in Hs. destruct Hs as [->|Hs]; [right; apply tier_knowledge; [exact TI|discriminate]|left; exact Hs].
  - apply Hl. auto.
  - exists g.
    change ([PStep (calculate_pearson N); PStep (correlation_step N); PStep (partial_step false N); PStep (matrix_step so 4 N); PStep (collider_step st so)] ++ PLoop name exit_on_no_actions l :: rest)
      with (([PStep (calculate_pearson N); PStep (correlation_step N); PStep (partial_step false N); PStep (matrix_step so 4 N)]) ++ (PStep (collider_step st so) :: PLoop name exit_on_no_actions l :: rest)).
    rewrite pipeline_app. setoid_rewrite R. exact Rg.
Qed.
Print Assumptions C132_tiers.
(* a -> b -> c with a before the others *)
Example C132_tiers_nonvacuous : exists g0, start_graph (ideal_data line_names) = Ok g0 /\ edge_in line_dag "a" "b" /\ first_a "a" < first_a "b" /\ forall fuel, exists g', execute_pipeline fuel (batch_runner no_hooks) no_hooks
  ([PStep (calculate_pearson line_tests); PStep (correlation_step line_tests); PStep (partial_step false line_tests); PStep (matrix_step dedup 4 line_tests); PStep (collider_step KEEP_FIRST dedup)] ++
   [PLoop "Loop" exit_on_no_actions (orientation_steps dedup ++ [tier_step false false false first_a]); PStep (effect_step line_tests)]) g0 = (g', Err OutOfFuel).
Proof.
  destruct (ideal_exists line_names line_dag line_nodup line_is_dag) as (g0 & S0 & PE & DG & PT). exists g0. split; [exact S0|]. split; [left; reflexivity|]. split; [vm_compute; lia|]. intros fuel.
  apply (C132_tiers fuel (batch_runner no_hooks) dedup line_tests (ideal_data line_names) g0 line_dag (ideal_corr line_names) KEEP_FIRST first_a "a" "b" _ "Loop" [PStep (effect_step line_tests)] S0 DG PT dedup_order).
  - intros x y H; cbn in H; destruct H as [H|[H|[]]]; injection H as <- <-; vm_compute; lia.
  - left; reflexivity.
  - vm_compute; lia.
  - intros s; rewrite in_app_iff; cbn [In]; split; [intros [H|[H|[]]]; auto|intros [H|H]; auto].
Qed.
