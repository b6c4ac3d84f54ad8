(* Proofs of C98, the part about runs: a run of a skeleton phase that ends well has called the correlation test for every
   pair, and the test answered. *)
From Verif Require Import Base PyDict PyDictFacts Graph GraphSpec GraphFacts GraphInv GraphInv2 GraphInv3 GraphQ GraphMain
  GraphPaths PathSpec Actions ActionSpec ActionFacts ActionMain Generators GenSpec GenFacts Rules IndepTests Pipeline Parallel PipeSpec PipeFacts RuleFacts
  Construct ConstructSpec ConstructFacts Dag DagFacts DagSep SkelSpec Rows Serve SkelFacts SkelStart SkelSteps SkelMatrix SkelMain Schedules SkelMain2
  OrientSpec OrientGraph LoopFacts OrientMain OrientTop TotalSpec TotalFacts TotalMain TestedSpec TestedFacts TestedMain.
Open Scope string_scope.
Open Scope list_scope.

Lemma rmap_all {A B} (f : A -> res B) l bs : rmap f l = Ok bs -> forall a, In a l -> exists b, f a = Ok b.
Proof.
  revert bs. induction l as [|a l IH]; intros bs; cbn [rmap]; [intros _ x []|]. destruct (f a) as [b|e'] eqn:F; cbn [rbind]; [|discriminate].
  destruct (rmap f l) as [cs|e''] eqn:R; cbn [rbind]; [|discriminate]. intros _ x [<-|Hx]; [exists b; exact F|exact (IH cs eq_refl x Hx)].
Qed.
Lemma rmap_same {A B} (f h : A -> res B) l : (forall a, In a l -> f a = h a) -> rmap f l = rmap h l.
Proof.
  induction l as [|a l IH]; intros H; cbn [rmap]; [reflexivity|]. rewrite (H a (or_introl eq_refl)), IH; [reflexivity|]. intros x Hx; apply H; right; exact Hx.
Qed.

(* the routines N with some answer in place of every exception *)
Definition hush_res {A} (d : A) (r : res A) : res A := match r with Ok a => Ok a | Err _ => Ok d end.
Definition hush (N : numerics) : numerics := mkNum (fun a b => hush_res 0%Z (n_pearson N a b)) (fun n z => hush_res false (n_corr_test N n z))
  (fun n k a b c => hush_res None (n_partial N n k a b c)) (fun l => hush_res None (n_matrix N l)) (fun a b c => hush_res false (n_regress N a b c)) (fun a b c => hush_res 0%Z (n_effect N a b c)).
Lemma hush_quiet N e : raised (hush N) e -> False.
Proof.
  intros [xs ys H|n c H|n k a b c H|l H|xs zs ys H]; cbn in H.
  - destruct (n_pearson N xs ys); discriminate H.
  - destruct (n_corr_test N n c); discriminate H.
  - destruct (n_partial N n k a b c); discriminate H.
  - destruct (n_matrix N l); discriminate H.
  - destruct (n_effect N xs zs ys); discriminate H.
Qed.

Lemma wp_ok {A} E (m : ST A) g R g' a : wp E m g R -> m g = (g', Ok a) -> R g'.
Proof. unfold wp. intros W H. rewrite H in W. exact W. Qed.
Lemma wp_quiet {A} (E : exn -> Prop) (m : ST A) g R : (forall e, E e -> False) -> wp E m g R -> exists a, m g = (fst (m g), Ok a).
Proof. unfold wp. intros Q W. destruct (m g) as [g' [a|e]]; cbn in *; [exists a; reflexivity|destruct (Q e W)]. Qed.

Section Run.
Variable g0 : graph.
Hypothesis CP : complete g0.
Notation node := (SkelFacts.node g0).
Notation ord := (ord g0).
Notation sk N := (skel g0 [] (corr g0 N) (Sep N g0 true)).

Definition corr_ans (N : numerics) (x y : id) : res bool := n_corr_test N (List.length (values_of g0 x)) (corr g0 N x y).
Definition col_ans (N : numerics) (x y : id) : res Z := n_pearson N (values_of g0 x) (values_of g0 y).
Lemma combs_ord ns : In ns (all_combinations (mkCS 2 2) g0) -> exists x y, ns = [x; y] /\ ord x y.
Proof. intros H. destruct (pairs_ok g0 g0 (cp_wf _ CP) eq_refl ns H) as (x & y & -> & _). exists x, y. auto. Qed.
Lemma corr_unfold N P dry g : nodes g = nodes g0 -> execute_step P no_hooks (correlation_step N) dry g =
  match rmap (fun ns => call (correlation_step N) g ns None) (all_combinations (mkCS 2 2) g0) with Ok os => take_action no_hooks dry os g | Err e => (g, Err e) end.
Proof.
  intros Hn. assert (Gen : gen_run (s_gen (correlation_step N) g) g = Ok (map Generators.One (all_combinations (mkCS 2 2) g0) ++ [])) by (rewrite <- (same_combs g0 (mkCS 2 2) g Hn); reflexivity).
  rewrite (plain_unfold dry (correlation_step N) ltac:(repeat split) P g _ Gen), app_nil_r. rewrite collect_from by reflexivity. unfold bind. destruct (rmap _ _); reflexivity.
Qed.
Lemma pearson_unfold N P dry : execute_step P no_hooks (calculate_pearson N) dry g0 =
  match rmap (fun ns => call (calculate_pearson N) g0 ns None) (all_combinations (mkCS 2 2) g0) with Ok os => take_action no_hooks dry os g0 | Err e => (g0, Err e) end.
Proof.
  assert (Gen : gen_run (s_gen (calculate_pearson N) g0) g0 = Ok (map Generators.One (all_combinations (mkCS 2 2) g0) ++ [])) by reflexivity.
  rewrite (plain_unfold dry (calculate_pearson N) ltac:(repeat split) P g0 _ Gen), app_nil_r. rewrite collect_from by reflexivity. unfold bind. destruct (rmap _ _); reflexivity.
Qed.
Lemma num_hush r : num (hush_res 0%Z r) = num r.
Proof. destruct r; reflexivity. Qed.
Lemma corr_hush N x y : corr g0 (hush N) x y = corr g0 N x y.
Proof. unfold corr, pc_corr. cbn [hush n_pearson]. rewrite !num_hush. reflexivity. Qed.
Lemma pearson_hush N P dry : (forall x y, ord x y -> exists z, col_ans N x y = Ok z) ->
  execute_step P no_hooks (calculate_pearson N) dry g0 = execute_step P no_hooks (calculate_pearson (hush N)) dry g0.
Proof.
  intros H. rewrite !pearson_unfold. erewrite rmap_same; [reflexivity|]. intros ns Hn. destruct (combs_ord ns Hn) as (x & y & -> & O). destruct (H x y O) as (z & Hz). unfold col_ans in Hz.
  destruct (pearson_call g0 N CP x y None O) as [(e & Ee & _)|(_ & ->)]; [congruence|]. destruct (pearson_call g0 (hush N) CP x y None O) as [(e & Ee & _)|(_ & ->)]; [cbn in Ee; rewrite Hz in Ee; discriminate|].
  unfold cmeta. rewrite corr_hush. reflexivity.
Qed.
Lemma corr_step_hush N P dry g : sk N g -> sk (hush N) g -> full g0 g -> (forall x y, ord x y -> exists b, corr_ans N x y = Ok b) ->
  execute_step P no_hooks (correlation_step N) dry g = execute_step P no_hooks (correlation_step (hush N)) dry g.
Proof.
  intros K K' F H. rewrite !corr_unfold by (apply (sk_nodes _ _ _ _ _ K)). erewrite rmap_same; [reflexivity|]. intros ns Hn. destruct (combs_ord ns Hn) as (x & y & -> & O). destruct (H x y O) as (b & Hb). unfold corr_ans in Hb.
  rewrite (corr_call g0 N CP _ g K F x y None O), (corr_call g0 (hush N) CP _ g K' F x y None O), corr_hush. cbn [hush n_corr_test]. rewrite Hb. reflexivity.
Qed.
(* a correlation step that ends well has an answer for every pair *)
Lemma corr_step_all N P dry g g' a : sk N g -> full g0 g -> execute_step P no_hooks (correlation_step N) dry g = (g', Ok a) -> forall x y, ord x y -> exists b, corr_ans N x y = Ok b.
Proof.
  intros K F R x y O. rewrite corr_unfold in R by (apply (sk_nodes _ _ _ _ _ K)). destruct (rmap _ _) as [os|e] eqn:M; [|discriminate].
  destruct (rmap_all _ _ _ M [x; y] O) as (o & Ho). rewrite (corr_call g0 N CP _ g K F x y None O) in Ho. unfold corr_ans. destruct (n_corr_test N _ _) as [b|e]; [exists b; reflexivity|discriminate].
Qed.
Lemma corr_step_cases N P dry g : sk N g -> full g0 g -> (forall x y, ord x y -> exists b, corr_ans N x y = Ok b) \/
  exists x y e, ord x y /\ corr_ans N x y = Err e /\ execute_step P no_hooks (correlation_step N) dry g = (g, Err e).
Proof.
  intros K F. assert (U := corr_unfold N P dry g (sk_nodes _ _ _ _ _ K)). destruct (rmap _ _) as [os|e] eqn:M in U.
  - left. intros x y O. destruct (rmap_all _ _ _ M [x; y] O) as (o & Ho). rewrite (corr_call g0 N CP _ g K F x y None O) in Ho. unfold corr_ans. destruct (n_corr_test N _ _) as [b|e]; [exists b; reflexivity|discriminate].
  - right. destruct (rmap_err _ _ _ M) as (ns & Hn & Hc). destruct (combs_ord ns Hn) as (x & y & -> & O). rewrite (corr_call g0 N CP _ g K F x y None O) in Hc. exists x, y, e. split; [exact O|]. split; [|exact U]. unfold corr_ans.
    destruct (n_corr_test N _ _) as [b|e']; [discriminate|]. injection Hc as ->. reflexivity.
Qed.

Variables (fuel : nat) (P : runner) (so : list id -> list id) (N : numerics).
Definition first_two : list pstep := [PStep (calculate_pearson N); PStep (correlation_step N)].
Lemma first_step : (forall x y, ord x y -> exists z, col_ans N x y = Ok z) ->
  exists g, run_pstep fuel P no_hooks (PStep (calculate_pearson N)) g0 = (g, Ok tt) /\ sk N g /\ sk (hush N) g /\ full g0 g.
Proof.
  intros H. assert (W := pearson_first fuel P N g0 CP true). assert (W' := pearson_first fuel P (hush N) g0 CP true).
  assert (EQ : run_pstep fuel P no_hooks (PStep (calculate_pearson N)) g0 = run_pstep fuel P no_hooks (PStep (calculate_pearson (hush N))) g0).
  { cbn [run_pstep]. unfold bind. rewrite (pearson_hush N P false H). reflexivity. }
  destruct (wp_quiet _ _ _ _ (hush_quiet N) W') as ([] & R). set (g := fst _) in R. exists g. assert (R' := R). rewrite <- EQ in R'.
  destruct (wp_ok _ _ _ _ _ _ W' R) as [A B]. destruct (wp_ok _ _ _ _ _ _ W R') as [A' _]. auto.
Qed.
Lemma both_ok : (forall x y, ord x y -> exists z, col_ans N x y = Ok z) -> (forall x y, ord x y -> exists b, corr_ans N x y = Ok b) ->
  exists g, execute_pipeline fuel P no_hooks first_two g0 = (g, Ok tt).
Proof.
  intros H1 H2. destruct (first_step H1) as (g & R & K & K' & F).
  assert (PF : forall a b, ord a b -> n_pearson (hush N) (values_of g0 a) (values_of g0 b) = Ok (corr g0 (hush N) a b)).
  { intros a b O. destruct (pearson_call g0 (hush N) CP a b None O) as [(e & Ee & _)|(Eo & _)]; [|exact Eo]. cbn in Ee. destruct (n_pearson N _ _); discriminate Ee. }
  assert (W := corr_phase_done g0 (hush N) CP _ (Ssym (hush N) g0 true) (Scorr (hush N) g0 CP PF true) fuel P g K' F).
  assert (EQ : run_pstep fuel P no_hooks (PStep (correlation_step N)) g = run_pstep fuel P no_hooks (PStep (correlation_step (hush N))) g).
  { cbn [run_pstep]. unfold bind. rewrite (corr_step_hush N P false g K K' F H2). reflexivity. }
  destruct (wp_quiet _ _ _ _ (hush_quiet N) W) as ([] & R2). rewrite <- EQ in R2 at 1. eexists. unfold first_two. cbn [execute_pipeline]. unfold bind. rewrite R, R2. reflexivity.
Qed.
Lemma first_cases : (forall x y, ord x y -> exists z, col_ans N x y = Ok z) ->
  ((forall x y, ord x y -> exists b, corr_ans N x y = Ok b) /\ exists g, execute_pipeline fuel P no_hooks first_two g0 = (g, Ok tt)) \/
  exists x y e g, ord x y /\ corr_ans N x y = Err e /\ execute_pipeline fuel P no_hooks first_two g0 = (g, Err e).
Proof.
  intros H1. destruct (first_step H1) as (g & R & K & _ & F). destruct (corr_step_cases N P false g K F) as [H|(x & y & e & O & He & R2)].
  - left. split; [exact H|exact (both_ok H1 H)].
  - right. exists x, y, e, g. split; [exact O|]. split; [exact He|]. unfold first_two. cbn [execute_pipeline run_pstep]. unfold bind. cbn [run_pstep] in R. unfold bind in R. rewrite R, R2. reflexivity.
Qed.
Lemma skeleton_all b sks g : skeleton_of P so N b sks -> execute_pipeline fuel P no_hooks sks g0 = (g, Ok tt) ->
  (forall x y, ord x y -> exists z, col_ans N x y = Ok z) /\ (forall x y, ord x y -> exists b, corr_ans N x y = Ok b).
Proof.
  intros A R.
  assert (X : exists r, sks = PStep (calculate_pearson N) :: r) by (destruct A; eexists; reflexivity). destruct X as (r & X). rewrite X in R. cbn [execute_pipeline] in R. unfold bind in R.
  assert (W := pearson_first fuel P N g0 CP true). assert (D := pearson_done fuel P N g0 CP). unfold wp in W, D.
  destruct (run_pstep fuel P no_hooks (PStep (calculate_pearson N)) g0) as [g1 [[]|e]]; [|discriminate]. cbn [fst snd] in W, D. destruct W as [K F]. split.
  { intros x y O. exists (corr g0 N x y). exact (proj2 D x y O). }
  assert (Y : exists s r', (s = PStep (correlation_step N) \/ exists l nm, s = PTogether nm (correlation_step N :: l)) /\ r = s :: r').
  { destruct A; injection X as <-; eexists; eexists; (split; [|reflexivity]); [left; reflexivity|left; reflexivity|right; do 2 eexists; reflexivity|left; reflexivity]. }
  destruct Y as (s & r' & Hs & ->). cbn [execute_pipeline] in R. unfold bind in R. destruct (run_pstep fuel P no_hooks s g1) as [g2 [[]|e]] eqn:R2; [|discriminate].
  destruct Hs as [Hs|(l & nm & Hs)]; rewrite Hs in R2; cbn [run_pstep] in R2.
  - unfold bind in R2. destruct (execute_step P no_hooks (correlation_step N) false g1) as [g3 [a|e]] eqn:R3; [|discriminate]. exact (corr_step_all N P false g1 g3 a K F R3).
  - unfold bind in R2. destruct (run_together P no_hooks (correlation_step N :: l) g1) as [g3 [a|e]] eqn:R3; [|discriminate].
    unfold run_together in R3. cbn [run_inner] in R3. unfold bind in R3. destruct (execute_step P no_hooks (correlation_step N) true g1) as [g4 [a'|e]] eqn:R4; [|discriminate].
    exact (corr_step_all N P true g1 g4 a' K F R4).
Qed.
End Run.
