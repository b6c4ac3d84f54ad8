(* Pipelines put together from the shipped tests, under perfect tests, for C126. *)
From Verif Require Import Base PyDict PyDictFacts Graph GraphSpec GraphFacts GraphInv GraphInv2 GraphQ PathSpec Actions ActionSpec ActionFacts ActionMain Generators GenSpec GenFacts Rules RuleFacts IndepTests Pipeline Parallel
  PipeSpec PipeFacts PipeMain PipeMain2 Construct ConstructSpec Dag SkelSpec Rows Serve SkelFacts SkelStart SkelSteps SkelMatrix SkelMain SkelMain2 SkelTop ArrangeSpec.
Open Scope string_scope.
Open Scope list_scope.
Open Scope nat_scope.

Section Exact.
Variables (fuel : nat) (P : runner) (so : list id -> list id) (N : numerics) (g0 : graph) (D : list (id * id)) (c : id -> id -> Z).
Hypothesis CP : complete g0.
Hypothesis DG : dag_over (dkeys (nodes g0)) D.
Hypothesis PT : perfect_tests N (values_of g0) (dkeys (nodes g0)) D c.
Hypothesis SO : set_order so.
Notation sk := (skel g0 D c (good_sep g0 D)).
Notation Q := (proposal g0 (good_sep g0 D)).

Lemma exact_pool s : conditional_test P so N s -> s_parallel s = true -> pool_runner no_hooks P.
Proof. intros T. destruct T as [|HP|min Hm|sh coin Hs HP|sh Hs HP]; cbn; intros Hd; try discriminate Hd; assumption. Qed.
Lemma partial_good b : good_step sk noE Q (triple_ok g0) (partial_step b N).
Proof.
  split; [apply (partial_calls g0 D N c PT)|]. intros g1 K1. constructor; [|constructor]. intros g2 _.
  apply Forall_forall. intros e H. apply in_map_iff in H. destruct H as (ns & <- & H). destruct b; cbn; exact (triples_ok g0 D c g1 K1 ns H).
Qed.
Lemma exact_good s : conditional_test P so N s -> exists A, good_step sk noE Q A s.
Proof.
  intros T. destruct T as [|HP|min Hm|sh coin Hs HP|sh Hs HP]; eexists.
  - apply (partial_good false).
  - apply (partial_good true).
  - apply (matrix_goodstep g0 D N c so PT SO min Hm).
  - apply (sampled_good g0 D N c so PT SO sh coin Hs).
  - apply (parallel_good g0 D N c so PT SO sh Hs).
Qed.

(* steps that ask only for removals of separated pairs *)
Section Tests.
Variable T : step -> Prop.
Hypothesis TP : forall s, T s -> s_parallel s = true -> pool_runner no_hooks P.
Hypothesis TG : forall s, T s -> exists A, good_step sk noE Q A s.
Definition part_of (p : pstep) : Prop := match p with PStep s => T s | PTogether _ l => forall s, In s l -> T s | PLoop _ _ _ => False end.
Definition first_of (p : pstep) : Prop := match p with PStep s => s = correlation_step N | PTogether _ l => forall s, In s l -> s = correlation_step N \/ T s | PLoop _ _ _ => False end.

(* what is gone stays gone, whatever test comes next *)
Section Kept.
Variable B : nat -> Prop.
Definition kept (g : graph) : Prop := sk g /\ upto g0 D B g.
Lemma kept_act i : Q i -> keeps kept noE (apply_action i) (fun _ _ => True).
Proof.
  intros Qi g [K U]. destruct (act_sk g0 D c DG i Qi g K) as [K' R]. split; [|exact R]. split; [exact K'|].
  intros x y Hh HB. destruct (act_go g0 D c DG x y i Qi g (conj K (U x y Hh HB))) as [[_ G] _]. exact G.
Qed.
Lemma kept_step s dry : T s -> step_keeps kept noE P no_hooks Q dry s.
Proof.
  intros Ts. destruct (TG s Ts) as (A & C & G). apply (keeps_step kept noE Q no_hooks (no_hooks_good _ _ _) dry (fun _ => kept_act) A P s (TP s Ts)).
  split; [intros g ns us [K _]; exact (C g ns us K)|]. intros g [K _]. eapply Forall_impl; [|exact (G g K)]. intros f Hf g2 [K2 _]. exact (Hf g2 K2).
Qed.
Lemma kept_log g h : kept g -> kept (with_ahist g h).
Proof. intros [K U]. split; [apply skel_log; exact K|exact (upto_log g0 D B g h U)]. Qed.
Lemma kept_purge : keeps kept noE purge_soft_deleted_edges (fun _ _ => True).
Proof.
  intros g [K U]. destruct (purge_ok g (sk_wf _ _ _ _ _ K)) as (g' & R & _). destruct (skel_purge g0 D c (good_sep g0 D) g K) as [K' _]. assert (U' := upto_purge g0 D c B _ g K U).
  split; [split; assumption|]. rewrite R. exact Logic.I.
Qed.
Lemma kept_part p : part_of p -> keeps kept noE (run_pstep fuel P no_hooks p) (fun _ _ => True).
Proof.
  intros Tp. destruct p as [s|name e l|name l]; [| destruct Tp |].
  - apply (keeps_pstep_plain kept noE P no_hooks kept_log fuel Q s); [apply kept_step; exact Tp|exact kept_purge].
  - apply (keeps_pstep_together kept noE P no_hooks kept_log fuel Q name l); [apply no_hooks_good|exact kept_act|]. apply Forall_forall. intros s Hs. apply kept_step; auto.
Qed.
Lemma kept_parts l g : (forall p, In p l -> part_of p) -> kept g -> exists g', execute_pipeline fuel P no_hooks l g = (g', Ok tt) /\ kept g'.
Proof.
  intros H K. destruct (keeps_pipeline kept noE P no_hooks fuel l ltac:(apply Forall_forall; intros p Hp; apply kept_part; auto) g K) as [K' R].
  destruct (execute_pipeline fuel P no_hooks l g) as [g' [[]|e]]; cbn [fst snd] in *; [eauto|destruct R].
Qed.
End Kept.

Lemma kept_none g : sk g -> kept (fun _ => False) g.
Proof. intros K. split; [exact K|]. intros x y _ []. Qed.
(* the first test, on the complete graph *)
Lemma first_sound f g : first_of f -> sk g -> all_live_nodes g0 g -> exists g', run_pstep fuel P no_hooks f g = (g', Ok tt) /\ sk g'.
Proof.
  intros Tf K L. destruct f as [s|name e l|name l]; [| destruct Tf |].
  - cbn in Tf. subst s. destruct (run_pstep_ok fuel P (correlation_step N) g sk (fun _ => True)) as (g' & R & K' & _); auto.
    + eapply tri_weaken; [apply (corr_step g0 D N c PT (good_sep g0 D) (fun x y h => empty_good g0 D x y [] (conj eq_refl h)) false P g K L sk K)|auto].
      * intros _. apply (act_sk g0 D c DG).
      * intros _. apply (act_go g0 D c DG).
      * intros _. apply (act_rm g0 D c DG).
    + intros; apply skel_log; assumption.
    + apply skel_purge.
    + eauto.
  - assert (F : Forall (step_keeps (fun g' => g' = g) noE P no_hooks Q true) l).
    { apply Forall_forall. intros s Hs. destruct (Tf s Hs) as [->|C].
      - intros g1 ->. destruct (corr_step g0 D N c PT (good_sep g0 D) (fun x y h => empty_good g0 D x y [] (conj eq_refl h)) true P g K L (fun g' => g' = g) eq_refl ltac:(discriminate) ltac:(discriminate) ltac:(discriminate)) as [X1 X2].
        split; [exact X1|]. destruct (snd (execute_step P no_hooks (correlation_step N) true g)); [exact (proj1 X2)|exact X2].
      - destruct (TG s C) as (A & Ca & G). intros g1 ->. apply (keeps_step (fun g' => g' = g) noE Q no_hooks (no_hooks_good _ _ _) true ltac:(discriminate) A P s (TP s C)); [|reflexivity].
        split; [intros g2 ns us ->; exact (Ca g ns us K)|]. intros g2 ->. eapply Forall_impl; [|exact (G g K)]. intros f Hf g2 ->. exact (Hf g K). }
    destruct (keeps_inner (fun g' => g' = g) noE P no_hooks Q true l F g eq_refl) as [S1 S2]. cbn [run_pstep]. unfold run_together, bind.
    destruct (run_inner P no_hooks true l g) as [g1 [a|e]]; cbn [fst snd] in *; [|destruct S2]. subst g1.
    assert (F' : Forall (PipeFacts.goodo Q) (map (fun i => Some [i]) (snd a))).
    { apply Forall_forall. intros o H. apply in_map_iff in H. destruct H as (i & <- & Hi). rewrite Forall_forall in S2. constructor; [auto|constructor]. }
    destruct (keeps_take sk noE Q no_hooks (no_hooks_good _ _ _) false (fun _ => act_sk g0 D c DG) _ F' g K) as [K2 T2].
    destruct (take_action no_hooks false (map (fun i => Some [i]) (snd a)) g) as [g2 [b|e]]; cbn [fst snd] in *; [|destruct T2]. unfold ret, log_step. eexists. split; [reflexivity|]. apply skel_log; exact K2.
Qed.

(* any tests in any order: no true adjacency is lost and what is recorded separates *)
Theorem tests_sound fs ts : (fs = [] \/ exists f, fs = [f] /\ first_of f) -> (forall t, In t ts -> part_of t) ->
  exists g, execute_pipeline fuel P no_hooks (PStep (calculate_pearson N) :: fs ++ ts) g0 = (g, Ok tt) /\ sk g.
Proof.
  intros Hf Ht. destruct (pearson_run g0 D N c CP DG PT P fuel (good_sep g0 D)) as (g1 & R1 & K1 & L1). rewrite (pipeline_cons _ _ _ _ _ _ _ R1).
  destruct Hf as [->|(f & -> & F)].
  - destruct (kept_parts _ ts g1 Ht (kept_none g1 K1)) as (g & R & K & _). eauto.
  - destruct (first_sound f g1 F K1 L1) as (g2 & R2 & K2). cbn [app]. rewrite (pipeline_cons _ _ _ _ _ _ _ R2).
    destruct (kept_parts _ ts g2 Ht (kept_none g2 K2)) as (g & R & K & _). eauto.
Qed.

(* with the correlation test and a test with every number of conditioning variables among them, the skeleton is exact *)
Theorem tests_exact ts : (forall t, In t ts -> part_of t) -> In (PStep (matrix_step so 3 N)) ts ->
  exists g, execute_pipeline fuel P no_hooks (PStep (calculate_pearson N) :: PStep (correlation_step N) :: ts) g0 = (g, Ok tt) /\ found g0 D c g.
Proof.
  intros Ht Hm. apply in_split in Hm. destruct Hm as (t1 & t2 & ->).
  destruct (pearson_run g0 D N c CP DG PT P fuel (empty_sep D)) as (g1 & R1 & K1 & L1).
  destruct (corr_run g0 D N c DG PT P fuel g1 K1 L1) as (g2 & R2 & K2 & C2). rewrite (pipeline_cons _ _ _ _ _ _ _ R1), (pipeline_cons _ _ _ _ _ _ _ R2).
  destruct (kept_parts _ t1 g2 (fun p h => Ht p (proj2 (in_app_iff _ _ _) (or_introl h))) (conj K2 (corr_upto g0 D DG g2 C2))) as (g3 & R3 & K3 & U3).
  destruct (matrix_seq g0 D N c so DG PT SO P fuel 3 g3 _ ltac:(lia) K3 U3) as (g4 & R4 & K4 & U4).
  assert (U5 : upto g0 D (fun _ => True) g4) by (intros x y Hh _; apply (U4 x y Hh); cbn; lia).
  destruct (kept_parts _ t2 g4 (fun p h => Ht p (proj2 (in_app_iff t1 (_ :: t2) p) (or_intror (or_intror h)))) (conj K4 U5)) as (g5 & R5 & K5 & U6).
  exists g5. split; [|split; assumption]. rewrite pipeline_app, R3. rewrite (pipeline_cons _ _ _ _ _ _ _ R4). exact R5.
Qed.
(* ... and with the two tests of PC, if nothing comes before the one with a single conditioning variable *)
Theorem tests_pc ts : (forall t, In t ts -> part_of t) -> In (PStep (matrix_step so 4 N)) ts ->
  exists g, execute_pipeline fuel P no_hooks (PStep (calculate_pearson N) :: PStep (correlation_step N) :: PStep (partial_step false N) :: ts) g0 = (g, Ok tt) /\ found g0 D c g.
Proof.
  intros Ht Hm. apply in_split in Hm. destruct Hm as (t1 & t2 & ->).
  destruct (pearson_run g0 D N c CP DG PT P fuel (empty_sep D)) as (g1 & R1 & K1 & L1).
  destruct (corr_run g0 D N c DG PT P fuel g1 K1 L1) as (g2 & R2 & K2 & C2). destruct (partial_run g0 D N c DG PT P fuel g2 K2 C2) as (g2' & R2' & K2' & U2).
  rewrite (pipeline_cons _ _ _ _ _ _ _ R1), (pipeline_cons _ _ _ _ _ _ _ R2), (pipeline_cons _ _ _ _ _ _ _ R2').
  destruct (kept_parts _ t1 g2' (fun p h => Ht p (proj2 (in_app_iff _ _ _) (or_introl h))) (conj K2' U2)) as (g3 & R3 & K3 & U3).
  destruct (matrix_seq g0 D N c so DG PT SO P fuel 4 g3 _ ltac:(lia) K3 U3) as (g4 & R4 & K4 & U4).
  assert (U5 : upto g0 D (fun _ => True) g4) by (intros x y Hh _; apply (U4 x y Hh); cbn; lia).
  destruct (kept_parts _ t2 g4 (fun p h => Ht p (proj2 (in_app_iff t1 (_ :: t2) p) (or_intror (or_intror h)))) (conj K4 U5)) as (g5 & R5 & K5 & U6).
  exists g5. split; [|split; assumption]. rewrite pipeline_app, R3. rewrite (pipeline_cons _ _ _ _ _ _ _ R4). exact R5.
Qed.
End Tests.
Lemma shipped_part p : test_part P so N p -> part_of (conditional_test P so N) p.
Proof. intros H. destruct H as [s H|name l H]; exact H. Qed.
Lemma shipped_first p : first_part P so N p -> first_of (conditional_test P so N) p.
Proof. intros H. destruct H as [|name l H]; [reflexivity|exact H]. Qed.
End Exact.
