(* The skeleton phases of PC, PCClassic, PCStable and ParallelPC under perfect tests. *)
From Verif Require Import Base PyDict PyDictFacts Graph GraphSpec GraphFacts GraphInv GraphInv2 GraphInv3 GraphQ GraphMain
  GraphPaths PathSpec Actions ActionSpec ActionFacts ActionMain Generators GenSpec GenFacts Rules IndepTests Pipeline Parallel PipeFacts RuleFacts PipeMain2
  Construct ConstructSpec ConstructFacts Dag DagFacts DagSep SkelSpec Rows Serve SkelFacts SkelStart SkelSteps SkelMatrix SkelMain Schedules.
Open Scope string_scope.
Open Scope list_scope.

Section Main.
Variable g0 : graph.
Variable D : list (id * id).
Variable N : numerics.
Variable c : id -> id -> Z.
Variable so : list id -> list id.
Hypothesis CP : complete g0.
Hypothesis DG : dag_over (dkeys (nodes g0)) D.
Hypothesis PT : perfect_tests N (values_of g0) (dkeys (nodes g0)) D c.
Hypothesis SO : set_order so.
Notation node := (SkelFacts.node g0).
Notation E := (edge_in D).
Notation good_sep := (good_sep g0 D).
Notation sk := (skel g0 D c good_sep).
Notation Q := (proposal g0 good_sep).
Notation hard := (hard g0 D).
Notation upto := (upto g0 D).
Notation pars := (pars D).

Definition found (g : graph) : Prop := sk g /\ upto (fun _ => True) g.

Lemma upto_weaken (B B' : nat -> Prop) g : (forall k, B' k -> B k) -> upto B g -> upto B' g.
Proof. intros H U x y Hh HB. apply U; auto. Qed.

Theorem pc_found fuel P : exists g', execute_pipeline fuel P no_hooks (pc_skeleton so N) g0 = (g', Ok tt) /\ found g'.
Proof.
  destruct (pearson_run g0 D N c CP DG PT P fuel (empty_sep D)) as (g1 & R1 & K1 & L1).
  destruct (corr_run g0 D N c DG PT P fuel g1 K1 L1) as (g2 & R2 & K2 & C2).
  destruct (partial_run g0 D N c DG PT P fuel g2 K2 C2) as (g3 & R3 & K3 & U3).
  destruct (matrix_seq g0 D N c so DG PT SO P fuel 4 g3 _ ltac:(lia) K3 U3) as (g4 & R4 & K4 & U4).
  exists g4. split.
  - unfold pc_skeleton. rewrite (pipeline_cons _ _ _ _ _ _ _ R1), (pipeline_cons _ _ _ _ _ _ _ R2), (pipeline_cons _ _ _ _ _ _ _ R3), (pipeline_cons _ _ _ _ _ _ _ R4). reflexivity.
  - split; [exact K4|]. eapply upto_weaken; [|exact U4]. cbn. intros k _. lia.
Qed.

Theorem classic_found fuel P : exists g', execute_pipeline fuel P no_hooks (pc_classic_skeleton so N) g0 = (g', Ok tt) /\ found g'.
Proof.
  destruct (pearson_run g0 D N c CP DG PT P fuel (empty_sep D)) as (g1 & R1 & K1 & L1).
  destruct (corr_run g0 D N c DG PT P fuel g1 K1 L1) as (g2 & R2 & K2 & C2).
  destruct (matrix_seq g0 D N c so DG PT SO P fuel 3 g2 _ ltac:(lia) K2 (corr_upto g0 D DG g2 C2)) as (g4 & R4 & K4 & U4).
  exists g4. split.
  - unfold pc_classic_skeleton. rewrite (pipeline_cons _ _ _ _ _ _ _ R1), (pipeline_cons _ _ _ _ _ _ _ R2), (pipeline_cons _ _ _ _ _ _ _ R4). reflexivity.
  - split; [exact K4|]. eapply upto_weaken; [|exact U4]. cbn. intros k _. lia.
Qed.

(* ---- PCStable: nothing is removed before all tests have been made ---- *)
Section Stable.
Variable P : runner.
Variable g1 : graph.
Hypothesis K1 : sk g1.
Hypothesis L1 : all_live_nodes g0 g1.
Notation Inv1 := (fun g' : graph => g' = g1).
Lemma dry_HI : true = false -> forall i, Q i -> keeps Inv1 noE (apply_action i) (fun _ _ => True). Proof. discriminate. Qed.

Definition found_by (a : list tresult) (x y : id) : Prop := exists i, In i a /\ removes x y i.
Lemma dry_served a x y : hard x y -> served (gone x y) (removes x y) true a g1 -> found_by (fst a) x y.
Proof.
  intros (Hx & Hy & Ne & _) [T|(_ & i & Hi & W)]; [|exists i; auto]. unfold gone in T. rewrite (L1 x y Hx Hy Ne) in T. discriminate.
Qed.

Lemma stable_inner : tri Inv1 noE (run_inner P no_hooks true [correlation_step N; partial_step false N; matrix_step so 4 N]) g1
  (fun a _ => Forall Q (snd a) /\ forall x y, hard x y -> found_by (snd a) x y).
Proof.
  assert (S1 := corr_step g0 D N c PT good_sep (fun x y h => empty_good g0 D x y [] (conj eq_refl h)) true P g1 K1 L1 Inv1 eq_refl
    ltac:(discriminate) ltac:(discriminate) ltac:(discriminate)).
  assert (S2 := partial_step_spec g0 D N c PT true P g1 K1 Inv1 eq_refl ltac:(discriminate) ltac:(discriminate) ltac:(discriminate) false eq_refl).
  assert (S3 := matrix_serve g0 D N c so DG PT SO P true Inv1 ltac:(intros g ->; exact K1) ltac:(discriminate) ltac:(discriminate) ltac:(discriminate) 4 g1 ltac:(lia) eq_refl).
  cbn [run_inner].
  eapply tri_bind; [exact S1|]. intros a1 g -> [[Ga1 _] F1].
  eapply (tri_bind Inv1 noE _ _ g1 (fun b _ => Forall Q (snd b) /\ (forall x y, hard x y -> List.length (pars x) <> 0 -> found_by (snd b) x y))).
  - eapply tri_bind; [exact S2|]. intros a2 g -> [[Ga2 _] F2].
    eapply (tri_bind Inv1 noE _ _ g1 (fun b _ => Forall Q (snd b) /\ (forall x y, hard x y -> 2 <= List.length (pars x) -> found_by (snd b) x y))).
    + eapply tri_bind; [exact S3|]. intros a3 g -> [[Ga3 _] F3]. apply tri_bind with (P := fun b _ => snd b = []); [apply tri_ret; reflexivity|].
      intros b g -> Eb. apply tri_ret; [reflexivity|]. cbn [snd]. rewrite Eb, app_nil_r. split; [exact Ga3|].
      intros x y Hh Hk. apply (dry_served a3 x y Hh). apply F3; [exact Hh|lia].
    + intros b g -> [Gb Fb]. apply tri_ret; [reflexivity|]. cbn [snd]. split; [apply Forall_app; auto|]. intros x y Hh Hk.
      assert (Hk' : 2 <= List.length (pars x) \/ List.length (pars x) = 1) by lia. destruct Hk' as [H2|H1].
      * destruct (Fb x y Hh H2) as (i & Hi & W). exists i. split; [apply in_app_iff; auto|exact W].
      * assert (Hh' := Hh). destruct Hh' as (Hx & Hy & Ne & NA & NR). destruct (pars x) as [|z [|? ?]] eqn:Pz; try discriminate.
        assert (Ez : E z x) by (apply (pars_In D); rewrite Pz; left; reflexivity).
        assert (Hz : node z) by apply (edge_nodes g0 D DG z x Ez). assert (ND := pars_NoDup g0 D DG x y Hh). rewrite Pz in ND.
        assert (Ds := pars_sep g0 D DG x y Hh). rewrite Pz in Ds. destruct (three x y z ND) as (N1 & N2 & N3).
        destruct (dry_served a2 x y Hh (F2 x y z Hx Hy Hz ND (conj (L1 x y Hx Hy N1) (conj (L1 x z Hx Hz N2) (L1 y z Hy Hz N3))) Ds)) as (i & Hi & W).
        exists i. split; [apply in_app_iff; auto|exact W].
  - intros b g -> [Gb Fb]. apply tri_ret; [reflexivity|]. cbn [snd]. split; [apply Forall_app; auto|]. intros x y Hh.
    destruct (Nat.eq_dec (List.length (pars x)) 0) as [H0|Hk].
    + assert (Hh' := Hh). destruct Hh' as (Hx & Hy & Ne & NA & NR). apply length_zero_iff_nil in H0.
      assert (Ds := pars_sep g0 D DG x y Hh). rewrite H0 in Ds.
      destruct (dry_served a1 x y Hh (F1 x y (conj Hx (conj Hy (conj Ne Ds))))) as (i & Hi & W). exists i. split; [apply in_app_iff; auto|exact W].
    + destruct (Fb x y Hh Hk) as (i & Hi & W). exists i. split; [apply in_app_iff; auto|exact W].
Qed.
End Stable.

Lemma singles_good l : Forall Q l -> Forall (goodo Q) (map (fun i => Some [i]) l).
Proof. intros F. apply Forall_forall. intros o H. apply in_map_iff in H. destruct H as (i & <- & Hi). rewrite Forall_forall in F. constructor; [auto|constructor]. Qed.

(* actions taken together *)
Lemma take_all l g : Forall Q l -> sk g -> tri sk noE (take_action no_hooks false (map (fun i => Some [i]) l)) g
  (fun _ g' => forall x y, found_by l x y -> gone x y g').
Proof.
  intros F K. assert (ST := take_I sk noE Q false (fun _ => act_sk g0 D c DG) _ g (singles_good l F) K).
  assert (X := tri_all (K := id * id) sk noE (take_action no_hooks false (map (fun i => Some [i]) l)) g
    (fun p => found_by l (fst p) (snd p)) (fun p _ g => gone (fst p) (snd p) g)).
  destruct X as [X1 X2]; [eapply tri_weaken; [exact ST|auto]| |].
  - intros [x y] (i & Hi & W). cbn [fst snd] in *.
    eapply tri_weaken; [apply (take_serve sk (gone x y) noE Q (removes x y) false (fun _ => act_sk g0 D c DG) (fun _ => act_go g0 D c DG x y) (fun _ => act_rm g0 D c DG x y)
      _ (Some [i]) i (singles_good l F))|].
    + apply in_map_iff. exists i; auto.
    + left; reflexivity.
    + exact W.
    + exact K.
    + intros a g' _ [[T|[Fd _]] _]; [exact T|discriminate].
  - split; [exact X1|]. destruct (snd _); [|exact X2]. intros x y H. exact (X2 (x, y) H).
Qed.

Theorem stable_found fuel P : exists g', execute_pipeline fuel P no_hooks (pc_stable_skeleton so N) g0 = (g', Ok tt) /\ found g'.
Proof.
  destruct (pearson_run g0 D N c CP DG PT P fuel good_sep) as (g1 & R1 & K1 & L1).
  assert (X : tri sk noE (run_pstep fuel P no_hooks (PTogether "ApplyActionsTogether" [correlation_step N; partial_step false N; matrix_step so 4 N])) g1 (fun _ g => upto (fun _ => True) g)).
  { unfold run_pstep, run_together. apply (tri_bind sk noE _ _ g1 (fun _ g => upto (fun _ => True) g)).
    - assert (SI := stable_inner P g1 K1 L1).
      apply (tri_bind sk noE _ _ g1 (fun a g => Forall Q (snd a) /\ forall x y, hard x y -> found_by (snd a) x y)).
      { destruct SI as [SI1 SI2]. split; [rewrite SI1; exact K1|exact SI2]. }
      intros a g K [Fa Fd]. eapply tri_bind; [apply (take_all (snd a) g Fa K)|]. intros u0 g' K' G. apply tri_ret; [exact K'|]. intros x y Hh _. apply G, Fd, Hh.
    - intros hs g K U. split; [|]; cbn; [apply skel_log; exact K|apply upto_log; exact U]. }
  destruct X as [X1 X2]. destruct (run_pstep fuel P no_hooks (PTogether "ApplyActionsTogether" _) g1) as [g2 [[]|e]] eqn:R2; cbn in X1, X2; [|destruct X2].
  exists g2. split; [|split; assumption]. unfold pc_stable_skeleton. rewrite (pipeline_cons _ _ _ _ _ _ _ R1), (pipeline_cons _ _ _ _ _ _ _ R2). reflexivity.
Qed.

(* ---- ParallelPC ---- *)
Section Par.
Variables sh sh' : nat * id * id -> list (list id) -> list (list id).
Variable coin : nat -> nat -> bool.
Hypothesis SH : is_shuffle (Some sh).
Hypothesis SH' : is_shuffle (Some sh').
Variable P : runner.
Hypothesis HP : pool_runner no_hooks P.

Lemma par_run_step fuel s A g (B : nat -> Prop) (Post : graph -> Prop) : s_parallel s = true -> good_step sk noE Q A s -> sk g -> upto B g ->
  tri sk noE (execute_step P no_hooks s false) g (fun _ g' => Post g') ->
  (forall g h, Post g -> Post (with_ahist g h)) -> (forall g, sk g -> Post g -> Post (fst (purge_soft_deleted_edges g))) ->
  exists g', run_pstep fuel P no_hooks (PStep s) g = (g', Ok tt) /\ sk g' /\ upto B g' /\ Post g'.
Proof.
  intros Par GS K U TP PL PP. destruct (run_pstep_ok fuel P s g sk (fun g' => upto B g' /\ Post g')) as (g' & R & K' & U' & P').
  - eapply tri_weaken; [apply tri_and; [exact (step_keeps_gone g0 D c DG P s A (fun _ => HP) GS g K)|exact TP]|].
    intros a g' _ [[_ KB] HPst]. split; [|exact HPst]. intros x y Hh HB. apply KB. exact (U x y Hh HB).
  - intros; apply skel_log; assumption.
  - apply skel_purge.
  - intros g1 h [H1 H2]. split; [apply upto_log; exact H1|apply PL; exact H2].
  - intros g1 K1 [H1 H2]. split; [apply (upto_purge g0 D c _ good_sep); [exact K1|exact H1]|apply PP; assumption].
  - exists g'. auto.
Qed.
Lemma goodstep_I s A g : s_parallel s = true -> good_step sk noE Q A s -> sk g -> tri sk noE (execute_step P no_hooks s false) g (fun _ _ => True).
Proof.
  intros Par GS K. eapply tri_weaken; [exact (keeps_step sk noE Q no_hooks (no_hooks_good _ _ _) false (fun _ => act_sk g0 D c DG) A P s (fun _ => HP) GS g K)|auto].
Qed.

Lemma sampled_good : good_step sk noE Q (test_ok g0) (matrix_step_sampled so sh coin N).
Proof.
  split; [apply (matrix_calls g0 D N c so PT SO); split; reflexivity|]. intros g K. cbn.
  apply (sample_good g0 D c). exact (neigh_good g0 D c so SO (Some sh) SH false 4 g ltac:(lia) K).
Qed.
Lemma parallel_good : good_step sk noE Q (test_ok g0) (matrix_step_parallel so sh' N).
Proof.
  split; [apply (matrix_calls g0 D N c so PT SO); split; reflexivity|]. intros g K. cbn.
  exact (neigh_good g0 D c so SO (Some sh') SH' false 4 g ltac:(lia) K).
Qed.
Lemma ppartial_good : good_step sk noE Q (triple_ok g0) (partial_step true N).
Proof.
  split; [apply (partial_calls g0 D N c PT)|]. intros g1 K1. constructor; [|constructor]. intros g2 _.
  apply Forall_forall. intros e H. apply in_map_iff in H. destruct H as (ns & <- & H). cbn. exact (triples_ok g0 D c g1 K1 ns H).
Qed.

Lemma parallel_serves g : sk g -> tri sk noE (execute_step P no_hooks (matrix_step_parallel so sh' N) false) g
  (fun _ g' => upto (fun k => 2 <= k) g').
Proof.
  intros K. destruct parallel_good as [C G]. assert (Gg := G g K). cbn [matrix_step_parallel s_parallel s_chunked negb andb] in Gg.
  assert (ST := goodstep_I (matrix_step_parallel so sh' N) _ g eq_refl parallel_good K).
  assert (X := tri_all (K := id * id) sk noE (execute_step P no_hooks (matrix_step_parallel so sh' N) false) g
    (fun p => hard (fst p) (snd p) /\ 2 <= List.length (pars (fst p))) (fun p _ g => gone (fst p) (snd p) g)).
  destruct X as [X1 X2]; [eapply tri_weaken; [exact ST|auto]| |].
  - intros [x y] [Hh Hk]. cbn [fst snd] in *. split; [exact (proj1 ST)|]. destruct ST as [_ ST].
    unfold execute_step in *. cbn [matrix_step_parallel s_parallel] in *.
    assert (PR := HP (matrix_step_parallel so sh' N) false g). unfold par_exec in PR.
    assert (Y := par_serve sk (gone x y) noE Q (removes x y) false (test_ok g0) (fun _ => act_sk g0 D c DG) (fun _ => act_go g0 D c DG x y) (fun _ => act_rm g0 D c DG x y)
      (matrix_step_parallel so sh' N) C _ _ _ _ _ _ _ PR Gg (Forall_nil _) (Forall_nil _) (Forall_cons _ K (Forall_nil _)) K (conj (Forall_nil _) (Forall_nil _))).
    fold (matrix_step_parallel so sh' N). destruct (snd (P (matrix_step_parallel so sh' N) false g)) as [a|e]; [|destruct ST].
    assert (Z : served (gone x y) (removes x y) false a (fst (P (matrix_step_parallel so sh' N) false g))).
    { apply Y; [intros p [<-|[]]; auto|]. destruct (directed_edge_exists g x y) eqn:L; [|left; exact L]. right; left.
      exact (neigh_serves g0 D N c so PT SO (Some sh') SH' (matrix_step_parallel so sh' N) false 4 g x y (pars x) (conj eq_refl eq_refl) ltac:(lia) K L
        (pars_NoDup g0 D DG x y Hh) (fun z => pars_nodes g0 D DG x y z Hh) ltac:(lia) (fun z => proj1 (pars_In D x z)) (pars_sep g0 D DG x y Hh)). }
    destruct Z as [T|[F _]]; [exact T|discriminate].
  - split; [exact X1|]. destruct (snd _); [|exact X2]. intros x y Hh Hk. exact (X2 (x, y) (conj Hh Hk)).
Qed.

Lemma parallel_tail fuel g B : sk g -> upto B g -> exists g',
  execute_pipeline fuel P no_hooks [PStep (matrix_step_sampled so sh coin N); PStep (matrix_step_parallel so sh' N)] g = (g', Ok tt) /\ sk g' /\ upto (fun k => B k \/ 2 <= k) g'.
Proof.
  intros K U.
  destruct (par_run_step fuel (matrix_step_sampled so sh coin N) _ g B (fun _ => True) eq_refl sampled_good K U (goodstep_I (matrix_step_sampled so sh coin N) _ g eq_refl sampled_good K) ltac:(auto) ltac:(auto)) as (g1 & R1 & K1 & U1 & _).
  destruct (par_run_step fuel (matrix_step_parallel so sh' N) _ g1 B (upto (fun k => 2 <= k)) eq_refl parallel_good K1 U1 (parallel_serves g1 K1)) as (g2 & R2 & K2 & U2 & V2).
  - intros; apply upto_log; assumption.
  - intros g2 K2. apply (upto_purge g0 D c _ good_sep); exact K2.
  - exists g2. rewrite (pipeline_cons _ _ _ _ _ _ _ R1), (pipeline_cons _ _ _ _ _ _ _ R2). split; [reflexivity|]. split; [exact K2|].
    intros x y Hh [HB|HB]; [exact (U2 x y Hh HB)|exact (V2 x y Hh HB)].
Qed.

(* whatever the schedule *)
Theorem parallel_found fuel : exists g', execute_pipeline fuel P no_hooks (pc_parallel_skeleton so sh sh' coin N) g0 = (g', Ok tt) /\ sk g' /\ upto (fun k => k <> 1) g'.
Proof.
  destruct (pearson_run g0 D N c CP DG PT P fuel (empty_sep D)) as (g1 & R1 & K1 & L1).
  destruct (corr_run g0 D N c DG PT P fuel g1 K1 L1) as (g2 & R2 & K2 & C2).
  destruct (par_run_step fuel (partial_step true N) _ g2 (fun k => k = 0) (fun _ => True) eq_refl ppartial_good K2 (corr_upto g0 D DG g2 C2) (goodstep_I (partial_step true N) _ g2 eq_refl ppartial_good K2) ltac:(auto) ltac:(auto)) as (g3 & R3 & K3 & U3 & _).
  destruct (parallel_tail fuel g3 _ K3 U3) as (g4 & R4 & K4 & U4). exists g4. split; [|split; [exact K4|]].
  - unfold pc_parallel_skeleton. rewrite (pipeline_cons _ _ _ _ _ _ _ R1), (pipeline_cons _ _ _ _ _ _ _ R2), (pipeline_cons _ _ _ _ _ _ _ R3). exact R4.
  - eapply upto_weaken; [|exact U4]. cbn. intros k Hk. lia.
Qed.

(* partial correlation results all computed on the start graph of the step *)
Hypothesis Early : early_on (partial_step true N) P.
Lemma each_T x y : forall os a g, Forall (goodo Q) os -> sk g -> gone x y g -> gone x y (fst (take_each no_hooks false os a g)).
Proof.
  induction os as [|o os IH]; intros a g F K G; [exact G|]. inversion F as [|? ? Fo Fr]; subst. cbn [take_each]. unfold bind.
  assert (Y := take_T sk (gone x y) noE Q false (fun _ => act_go g0 D c DG x y) _ g (single_good Q o Fo) K G).
  unfold tri in Y. destruct (take_action no_hooks false (single_results o) g) as [g' [b|e]]; cbn [fst snd] in *; [|destruct Y as [_ []]].
  apply IH; tauto.
Qed.
Lemma each_W x y o i : In i (items_of o) -> removes x y i -> forall os a g, In o os -> Forall (goodo Q) os -> sk g -> gone x y (fst (take_each no_hooks false os a g)).
Proof.
  intros Hi W. induction os as [|o' os IH]; intros a g Ho F K; [destruct Ho|]. inversion F as [|? ? Fo Fr]; subst. cbn [take_each]. unfold bind.
  assert (SG := single_good Q o' Fo). destruct Ho as [->|Ho].
  - assert (X : exists o1, In o1 (single_results o) /\ In i (items_of o1)).
    { destruct o as [l|]; [|destruct Hi]. exists (Some [i]). split; [cbn; apply in_map_iff; exists i; auto|left; reflexivity]. }
    destruct X as (o1 & Ho1 & Hi1).
    assert (Y := take_serve sk (gone x y) noE Q (removes x y) false (fun _ => act_sk g0 D c DG) (fun _ => act_go g0 D c DG x y) (fun _ => act_rm g0 D c DG x y) _ o1 i SG Ho1 Hi1 W g K).
    unfold tri in Y. destruct (take_action no_hooks false (single_results o) g) as [g' [b|e]]; cbn [fst snd] in *; [|destruct Y as [_ []]].
    destruct Y as (K' & [T|[Fd _]] & _); [|discriminate]. apply each_T; assumption.
  - assert (Y := take_I sk noE Q false (fun _ => act_sk g0 D c DG) _ g SG K).
    unfold tri in Y. destruct (take_action no_hooks false (single_results o') g) as [g' [b|e]]; cbn [fst snd] in *; [|destruct Y as [_ []]].
    apply IH; tauto.
Qed.

Lemma perm_cases (p q r x y z : id) : Permutation [p; q; r] [x; y; z] -> NoDup [p; q; r] ->
  (z = p /\ ((x = q /\ y = r) \/ (x = r /\ y = q))) \/ (z = q /\ ((x = p /\ y = r) \/ (x = r /\ y = p))) \/ (z = r /\ ((x = p /\ y = q) \/ (x = q /\ y = p))).
Proof.
  intros Pm ND. destruct (three p q r ND) as (A & B & C). assert (ND' := Permutation_NoDup Pm ND). destruct (three x y z ND') as (A' & B' & C').
  assert (Ix : In x [p; q; r]) by (eapply Permutation_in; [apply Permutation_sym; exact Pm|cbn; auto]).
  assert (Iy : In y [p; q; r]) by (eapply Permutation_in; [apply Permutation_sym; exact Pm|cbn; auto]).
  assert (Iz : In z [p; q; r]) by (eapply Permutation_in; [apply Permutation_sym; exact Pm|cbn; auto]).
  cbn in Ix, Iy, Iz. intuition congruence.
Qed.

Lemma early_partial g : sk g -> corr_done g0 D g -> tri sk noE (execute_step P no_hooks (partial_step true N) false) g (fun _ g' => upto (fun k => k = 1) g').
Proof.
  intros K C. assert (ST := goodstep_I (partial_step true N) _ g eq_refl ppartial_good K). split; [exact (proj1 ST)|]. destruct ST as [_ ST].
  unfold execute_step in *. change (s_parallel (partial_step true N)) with true in *. cbn iota in *.
  set (s := partial_step true N) in *. set (es := map One (all_combinations (mkCS 3 3) g) ++ []).
  assert (Gen : gen_run (s_gen s g) g = Ok es) by reflexivity.
  assert (Cl : exists os, rmap (fun e => rbind (as_args e) (fun ns => call s g ns None)) es = Ok os /\ Forall (goodo Q) os).
  { assert (Z : forall l, (forall ns, In ns l -> triple_ok g0 ns) -> exists os, rmap (fun e => rbind (as_args e) (fun ns => call s g ns None)) (map One l) = Ok os /\ Forall (goodo Q) os).
    { induction l as [|ns l IH]; intros Hl; cbn [map rmap]; [exists []; auto|]. destruct (IH (fun n h => Hl n (or_intror h))) as (os & -> & Fo).
      assert (X := partial_calls g0 D N c PT true g ns None K (Hl ns (or_introl eq_refl)) ltac:(discriminate)). fold s in X. cbn [as_args rbind].
      destruct (call s g ns None) as [o|e]; [|destruct X]. exists (o :: os). cbn [rbind]. auto. }
    unfold es. rewrite app_nil_r. apply Z. intros ns Hn. exact (triples_ok g0 D c g K ns Hn). }
  destruct Cl as (os & RM & Fo). destruct (Early false g es os Gen RM) as (os' & Pm & ER).
  assert (Fo' : Forall (goodo Q) os') by (apply Forall_forall; intros o Ho; rewrite Forall_forall in Fo; apply Fo; eapply Permutation_in; eassumption).
  rewrite ER in ST |- *. destruct (snd (take_each no_hooks false os' ([], []) g)); [|exact ST]. intros x y Hh Hk.
  assert (Hh' := Hh). destruct Hh' as (Hx & Hy & Ne & NA & NR).
  destruct (one_parent g0 D c DG g x y K (fun u v Hu Hv Huv => proj1 (C u v Hu Hv Huv)) Hh Hk) as [Ds|(z & Hz & ND & (L1 & L2 & L3) & Ds)].
  - apply each_T; [exact Fo'|exact K|]. apply C; assumption.
  - destruct (triples_In g0 D c g K x y z Hx Hy Hz ND) as (p & q & r & HIn & Pm3).
    destruct (triples_ok g0 D c g K _ HIn) as (p' & q' & r' & Epqr & Hp & Hq & Hr & ND'). injection Epqr as <- <- <-.
    assert (HE : In (One [p; q; r]) es) by (unfold es; apply in_app_iff; left; apply in_map; exact HIn).
    destruct (rmap_In _ _ _ _ RM HE) as (o & Co & Ho). cbn [as_args rbind] in Co. unfold s in Co. rewrite (partial_call g0 D N c true g p q r None K Hp Hq Hr) in Co.
    assert (L1' := sk_sym _ _ _ _ _ K _ _ L1). assert (L2' := sk_sym _ _ _ _ _ K _ _ L2). assert (L3' := sk_sym _ _ _ _ _ K _ _ L3).
    assert (Cs := perm_cases p q r x y z Pm3 ND').
    assert (LL : directed_edge_exists g p q = true /\ directed_edge_exists g p r = true /\ directed_edge_exists g q r = true).
    { destruct Cs as [(-> & [[-> ->]|[-> ->]])|[(-> & [[-> ->]|[-> ->]])|(-> & [[-> ->]|[-> ->]])]]; auto. }
    destruct LL as (M1 & M2 & M3). destruct (partial_all g0 D N c PT g p q r K Hp Hq Hr ND' M1 M2 M3) as (b1 & b2 & b3 & F & S1 & S2 & S3).
    rewrite F in Co. injection Co as <-.
    assert (Ds' : dsep D y x [z]) by (apply d_separated_sym; exact Ds).
    assert (Sy : forall (b : bool) a d, says b (dsep D a d [z]) -> (x = a /\ y = d) \/ (x = d /\ y = a) -> removes x y (if b then separated a d [z] else not_separated a d [z])).
    { intros b a1 d Sa [[<- <-]|[<- <-]]; (destruct b; [exists [z]; auto|]); destruct Sa as [_ Sa]; [specialize (Sa Ds)|specialize (Sa Ds')]; discriminate. }
    assert (Ho' : In (Some [if b1 then separated q r [p] else not_separated q r [p]; if b2 then separated p r [q] else not_separated p r [q];
       if b3 then separated p q [r] else not_separated p q [r]]) os') by (eapply Permutation_in; [apply Permutation_sym; exact Pm|exact Ho]).
    destruct Cs as [(-> & Cs)|[(-> & Cs)|(-> & Cs)]].
    + refine (each_W x y _ _ _ (Sy b1 q r S1 Cs) _ _ _ Ho' Fo' K). cbn. auto.
    + refine (each_W x y _ _ _ (Sy b2 p r S2 Cs) _ _ _ Ho' Fo' K). cbn. auto.
    + refine (each_W x y _ _ _ (Sy b3 p q S3 Cs) _ _ _ Ho' Fo' K). cbn. auto.
Qed.

Theorem early_found fuel : exists g', execute_pipeline fuel P no_hooks (pc_parallel_skeleton so sh sh' coin N) g0 = (g', Ok tt) /\ found g'.
Proof.
  destruct (pearson_run g0 D N c CP DG PT P fuel (empty_sep D)) as (g1 & R1 & K1 & L1).
  destruct (corr_run g0 D N c DG PT P fuel g1 K1 L1) as (g2 & R2 & K2 & C2).
  destruct (par_run_step fuel (partial_step true N) _ g2 (fun k => k = 0) (upto (fun k => k = 1)) eq_refl ppartial_good K2 (corr_upto g0 D DG g2 C2) (early_partial g2 K2 C2)) as (g3 & R3 & K3 & U3 & V3).
  { intros; apply upto_log; assumption. }
  { intros g3 K3. apply (upto_purge g0 D c _ good_sep); exact K3. }
  destruct (parallel_tail fuel g3 (fun k => k = 0 \/ k = 1) K3) as (g4 & R4 & K4 & U4).
  { intros x y Hh [HB|HB]; [exact (U3 x y Hh HB)|exact (V3 x y Hh HB)]. }
  exists g4. split; [|split; [exact K4|]].
  - unfold pc_parallel_skeleton. rewrite (pipeline_cons _ _ _ _ _ _ _ R1), (pipeline_cons _ _ _ _ _ _ _ R2), (pipeline_cons _ _ _ _ _ _ _ R3). exact R4.
  - eapply upto_weaken; [|exact U4]. cbn. intros k Hk. lia.
Qed.
End Par.

(* ---- what a found skeleton means ---- *)
Lemma adj_dec x y : adjacent E x y \/ ~ adjacent E x y.
Proof.
  assert (dec : forall e : id * id, In e D \/ ~ In e D).
  { intros e. destruct (in_dec (fun a b : id * id => match eqb_spec a b with ReflectT _ h => left h | ReflectF _ h => right h end) e D); auto. }
  unfold adjacent, edge_in. destruct (dec (x, y)), (dec (y, x)); tauto.
Qed.
Lemma found_adjacent g : found g -> forall x y, directed_edge_exists g x y = true <-> adjacent E x y.
Proof.
  intros [K U] x y. split; [|apply (sk_adj _ _ _ _ _ K)]. intros L. destruct (adj_dec x y) as [A|NA]; [exact A|]. exfalso.
  destruct (skel_dee_nodes g0 D c good_sep g x y K L) as (Hx & Hy & Ne).
  assert (R1 : ~ ~ reach E x y) by (intros R; assert (G := U x y (conj Hx (conj Hy (conj Ne (conj NA R)))) Logic.I); unfold gone in G; congruence).
  assert (R2 : ~ ~ reach E y x).
  { intros R. assert (G := U y x (conj Hy (conj Hx (conj (fun h => Ne (eq_sym h)) (conj (fun h => NA (adjacent_sym E y x h)) R)))) Logic.I).
    unfold gone in G. rewrite (skel_sym_eq g0 D c good_sep g y x K) in G. congruence. }
  apply R1; intros R1'. apply R2; intros R2'. apply Ne. exact (reach_antisym E (do_acyclic _ _ DG) x y R1' R2').
Qed.
Lemma skel_separator g x y : sk g -> node x -> node y -> x <> y -> directed_edge_exists g x y = false ->
  exists S, recorded_separator g x y S /\ good_sep x y S.
Proof.
  intros K Hx Hy Ne G. destruct (sk_gone _ _ _ _ _ K x y Hx Hy Ne G) as (a & b & S & H & _ & Sp). exists S. split; [|exact Sp].
  exists (separated a b S), [("separatedBy", MNodes S); ("triple", MTriple a b S)]. split; [|split; reflexivity].
  unfold retrieve_edge_history. unfold removals, history in H. destruct (dget (ehist g) (x, y)) as [l|]; [|discriminate]. rewrite H. reflexivity.
Qed.
End Main.
