(* Proofs of C120: if the tests of the table answer, the run ends well. *)
From Verif Require Import Base PyDict PyDictFacts Graph GraphSpec GraphFacts GraphInv GraphInv2 GraphInv3 GraphQ GraphMain
  GraphPaths PathSpec Actions ActionSpec ActionFacts ActionMain Generators GenSpec GenFacts Rules IndepTests Pipeline Parallel PipeSpec PipeFacts RuleFacts
  Construct ConstructSpec ConstructFacts Dag DagFacts DagSep SkelSpec Rows Serve SkelFacts SkelStart SkelSteps SkelMatrix SkelMain Schedules SkelMain2
  OrientSpec OrientGraph LoopFacts OrientMain OrientTop TotalSpec TotalFacts TotalMain TestedSpec TestedFacts TestedMain NanFacts PlaneRun.
Open Scope string_scope.
Open Scope list_scope.

Section End.
Variables (g0 : graph) (N : numerics) (so : list id -> list id) (fuel : nat) (P : runner).
Hypothesis CP : complete g0.
Hypothesis SO : set_order so.
Hypothesis Fu : List.length (nodes g0) * List.length (nodes g0) + 2 <= fuel.
Notation node := (SkelFacts.node g0).
Notation ord := (ord g0).
Notation any := (good_sep g0 []).
(* the matrix test answers on the columns of the table, the regression always does *)
Hypothesis HM : forall l, NoDup l -> (forall z, In z l -> node z) -> 3 <= List.length l -> exists o, n_matrix N (map (values_of g0) l) = Ok o.
Hypothesis HF : forall xs zs ys e, n_effect N xs zs ys <> Err e.

(* no routine raises, the effects are those of N *)
Definition calm : numerics := mkNum (n_pearson (hush N)) (n_corr_test (hush N)) (n_partial (hush N)) (n_matrix (hush N)) (n_regress (hush N)) (n_effect N).
Notation E := (raised calm).
Notation sk := (skel g0 [] (corr g0 calm) any).
Notation Q := (proposal g0 any).
Lemma calm_quiet e : E e -> False.
Proof.
  intros [xs ys H|n c H|n k a b c H|l H|xs zs ys H]; [| | | |exact (HF _ _ _ _ H)]; apply (hush_quiet N e);
    [eapply raised_pearson; exact H|eapply raised_corr; exact H|eapply raised_partial; exact H|eapply raised_matrix; exact H].
Qed.
Lemma calm_values g x : sk g -> values_of g x = values_of g0 x.
Proof. intros K. unfold values_of. rewrite (sk_nodes _ _ _ _ _ K). reflexivity. Qed.

Lemma matrix_calls s : matrix_like N so s -> good_calls sk E Q (test_ok g0) s.
Proof.
  intros [M1 M2] g ns us K (x & y & S & -> & ND & Hn & Ne) _. unfold call. rewrite M1, M2. unfold matrix_test.
  rewrite (node_at_ok g0 [] _ any g (x :: y :: S) 0 x K eq_refl (Hn x (or_introl eq_refl))), (node_at_ok g0 [] _ any g (x :: y :: S) 1 y K eq_refl (Hn y (or_intror (or_introl eq_refl)))).
  cbn [rbind]. rewrite (skel_ee g0 [] _ any g x y K). destruct (directed_edge_exists g x y) eqn:L; cbn [negb]; [|constructor].
  assert (Nxy : x <> y) by (inversion ND as [|? ? N1 _]; subst; intros ->; apply N1; left; reflexivity).
  assert (R := sk_rows _ _ _ _ _ K x y (Hn x (or_introl eq_refl)) (Hn y (or_intror (or_introl eq_refl))) Nxy).
  unfold row_of. unfold dmem in R. destruct (dget (edges g) x) as [row|] eqn:Rw; [|discriminate]. cbn [rbind].
  assert (NB : mem y (filter (fun k => directed_edge_exists g k x) (dkeys row)) = true).
  { assert (Lz := sk_sym _ _ _ _ _ K x y L). apply mem_In, filter_In. split; [|exact Lz].
    destruct (live_entry _ _ _ (sk_wf _ _ _ _ _ K) L) as (e & Eg & _). unfold eget, dget2 in Eg. rewrite Rw in Eg. eapply dmem_In. unfold dmem. rewrite Eg. reflexivity. }
  rewrite NB. cbn [negb]. destruct (forallb _ (skipn 2 (x :: y :: S))); cbn [negb]; [|constructor].
  assert (NF : forallb (dmem (nodes g)) (x :: y :: S) = true).
  { apply forallb_forall. intros z Hz. rewrite (sk_nodes _ _ _ _ _ K). apply (Hn z Hz). }
  rewrite NF. cbn [negb].
  assert (VE : map (values_of g) (x :: y :: S) = map (values_of g0) (x :: y :: S)) by (apply map_ext; intros z; apply calm_values; exact K). rewrite VE.
  destruct (HM (x :: y :: S) ND Hn) as (o & T); [destruct S as [|s0 S]; [congruence|cbn; lia]|]. rewrite T. destruct o as [b|]; cbn [rbind]; [|constructor].
  constructor; [|constructor]. destruct b; [|left; reflexivity]. right. eexists x, y, _. split; [reflexivity|].
  split; [apply Hn; left; reflexivity|]. split; [apply Hn; right; left; reflexivity|]. split; [exact Nxy|].
  assert (ZS := zs_same so SO x y S ND). inversion ND as [|? ? N1 ND2]; subst. inversion ND2 as [|? ? N2 _]; subst.
  apply any_sep; [exact Nxy|intros z Hz; apply ZS in Hz; apply Hn; right; right; exact Hz|rewrite ZS; intros H; apply N1; right; exact H|rewrite ZS; exact N2].
Qed.
Lemma matrix_fine min : 3 <= min -> good_step sk E Q (test_ok g0) (matrix_step so min N).
Proof.
  intros Hm. split; [apply matrix_calls; split; reflexivity|]. intros g K. cbn. eapply Forall_impl; [|exact (neigh_good g0 [] _ so SO None Logic.I true min g Hm K)].
  intros f. apply block_E. intros e [].
Qed.
Lemma sampled_fine sh coin : is_shuffle (Some sh) -> good_step sk E Q (test_ok g0) (matrix_step_sampled so sh coin N).
Proof.
  intros SH. split; [apply matrix_calls; split; reflexivity|]. intros g K. cbn. eapply Forall_impl; [intros f; apply (block_E _ noE); intros e []|].
  apply (sample_good g0 [] (corr g0 calm)). exact (neigh_good g0 [] _ so SO (Some sh) SH false 4 g ltac:(lia) K).
Qed.
Lemma parallel_fine sh : is_shuffle (Some sh) -> good_step sk E Q (test_ok g0) (matrix_step_parallel so sh N).
Proof.
  intros SH. split; [apply matrix_calls; split; reflexivity|]. intros g K. cbn. eapply Forall_impl; [intros f; apply (block_E _ noE); intros e []|].
  exact (neigh_good g0 [] _ so SO (Some sh) SH false 4 g ltac:(lia) K).
Qed.

(* what follows the skeleton *)
Definition tail : list pstep := orientation_rules so ++ [PStep (effect_step N)].
Lemma tail_ends g : sk g -> exists g', execute_pipeline fuel P no_hooks tail g = (g', Ok tt).
Proof. intros K. destruct (wp_quiet _ _ _ _ calm_quiet (tail_total g0 calm so SO fuel P g Fu K)) as ([] & R). eexists. exact R. Qed.
Lemma end_of g l r : wp E (execute_pipeline fuel P no_hooks l) g sk -> execute_pipeline fuel P no_hooks r g0 = (g, Ok tt) ->
  exists g', execute_pipeline fuel P no_hooks (r ++ l ++ tail) g0 = (g', Ok tt).
Proof.
  intros W R. destruct (wp_quiet _ _ _ _ calm_quiet W) as ([] & R1). assert (K := wp_ok _ _ _ _ _ _ W R1). destruct (tail_ends _ K) as (g' & R2).
  exists g'. rewrite PipeMain.pipeline_app, R, PipeMain.pipeline_app, R1. exact R2.
Qed.

Hypothesis H1 : forall x y, ord x y -> exists z, col_ans g0 N x y = Ok z.
Hypothesis H2 : forall x y, ord x y -> exists b, corr_ans g0 N x y = Ok b.
Lemma classic_ends : exists g, execute_pipeline fuel P no_hooks (pc_classic so N) g0 = (g, Ok tt).
Proof.
  destruct (two_steps g0 CP fuel P N H1 H2) as (g & R & _ & K & _). assert (K' : sk g) by exact (skel_weaken g0 [] _ _ any g (CAny g0 (hush N)) K).
  apply (end_of g [PStep (matrix_step so 3 N)] (first_two N)); [|exact R].
  eapply wp_cons; [apply (plain_phase fuel P calm g0 (matrix_step so 3 N) (test_ok g0) g ltac:(discriminate) (matrix_fine 3 ltac:(lia)) K')|]. intros g4 K4. exact K4.
Qed.
(* after the first three steps of PC *)
Lemma three_ok : (forall p q r, In [p; q; r] (all_combinations (mkCS 3 3) g0) -> all_dependent g0 N p q r -> exists o, chain g0 N p q r = Ok o) ->
  exists g, execute_pipeline fuel P no_hooks (first_two N ++ [PStep (partial_step false N)]) g0 = (g, Ok tt) /\ sk g.
Proof.
  intros H3. destruct (two_steps g0 CP fuel P N H1 H2) as (g & R & K & K' & D). assert (Ka := skel_weaken g0 [] _ _ any g (CAny g0 N) K). assert (Ka' := skel_weaken g0 [] _ _ any g (CAny g0 (hush N)) K').
  assert (All : forall p q r, In [p; q; r] (all_combinations (mkCS 3 3) g0) -> alive g p q r = true -> exists o, chain g0 N p q r = Ok o).
  { intros p q r Hc L. apply (H3 p q r Hc). destruct (triples_ord g0 _ Hc) as (p' & q' & r' & Ep & O1 & O2 & O3). injection Ep as <- <- <-. unfold alive in L. rewrite !andb_true_iff in L. unfold all_dependent.
    rewrite (live_iff g0 CP N g p q K D O1 H2), (live_iff g0 CP N g p r K D O2 H2), (live_iff g0 CP N g q r K D O3 H2) in L. tauto. }
  rewrite PipeMain.pipeline_app, R.
  assert (W := phase g0 (hush N) any (any_sym g0) fuel P (partial_step false (hush N)) (triple_ord g0) (fun _ => False) (fun _ => False) g ltac:(discriminate)
    (partial_goods g0 (hush N) CP any (fun _ _ _ h => h) (any_part g0 (hush N)) false) Ka' ltac:(intros l []) ltac:(intros l [])).
  destruct (wp_quiet _ _ _ _ (hush_quiet N) W) as ([] & X). assert (K2 := proj1 (wp_ok _ _ _ _ _ _ W X)).
  assert (EQ : run_pstep fuel P no_hooks (PStep (partial_step false N)) g = run_pstep fuel P no_hooks (PStep (partial_step false (hush N))) g).
  { cbn [run_pstep]. unfold bind. rewrite (part_step_hush g0 CP N P false g Ka Ka' All). reflexivity. }
  set (g2 := fst _) in X, K2. rewrite <- EQ in X. exists g2. split; [cbn [execute_pipeline]; unfold bind; rewrite X; reflexivity|exact K2].
Qed.
Lemma pc_ends : (forall p q r, In [p; q; r] (all_combinations (mkCS 3 3) g0) -> all_dependent g0 N p q r -> exists o, chain g0 N p q r = Ok o) ->
  exists g, execute_pipeline fuel P no_hooks (pc so N) g0 = (g, Ok tt).
Proof.
  intros H3. destruct (three_ok H3) as (g & R & K). apply (end_of g [PStep (matrix_step so 4 N)] (first_two N ++ [PStep (partial_step false N)])); [|exact R].
  eapply wp_cons; [apply (plain_phase fuel P calm g0 (matrix_step so 4 N) (test_ok g0) g ltac:(discriminate) (matrix_fine 4 ltac:(lia)) K)|]. intros g4 K4. exact K4.
Qed.

(* the partial correlation test answers for every triple *)
Section All.
Hypothesis H3 : forall x y z, node x -> node y -> node z -> NoDup [x; y; z] -> exists o, n_partial N (List.length (values_of g0 x)) 1 (corr g0 N x y) (corr g0 N x z) (corr g0 N y z) = Ok o.
Lemma partial_answers g ns : sk g -> List.length ns = 3 -> forall l deleted acc, Forall Q acc ->
  (forall z, In z l -> exists x y rest, filter (fun n => negb (eqb n z)) ns = x :: y :: rest /\ node x /\ node y /\ node z /\ NoDup [x; y; z]) ->
  match partial_loop N g ns l deleted acc with Ok o => goodo Q o | Err e => E e end.
Proof.
  intros K Ln. induction l as [|z l IH]; intros deleted acc Fa Hl; [exact Fa|].
  destruct (Hl z (or_introl eq_refl)) as (x & y & rest & F & Hx & Hy & Hz & ND). rewrite (partial_round g0 [] N _ g ns z x y rest l deleted acc K Ln Hx Hy Hz ND F).
  assert (Hl' : forall z, In z l -> exists x y rest, filter (fun n => negb (eqb n z)) ns = x :: y :: rest /\ node x /\ node y /\ node z /\ NoDup [x; y; z]) by (intros w Hw; apply Hl; right; exact Hw).
  destruct (negb (directed_edge_exists g x y) || mem (y, x) deleted); [apply IH; assumption|].
  destruct (negb (_ && _)); [constructor|]. destruct (H3 x y z Hx Hy Hz ND) as (o & T).
  change (corr g0 calm x y) with (corr g0 (hush N) x y). change (corr g0 calm x z) with (corr g0 (hush N) x z). change (corr g0 calm y z) with (corr g0 (hush N) y z). rewrite !corr_hush, T.
  destruct o as [[|]|]; [| |constructor]; apply IH; try exact Hl'.
  - destruct (three x y z ND) as (N1 & N2 & N3). apply Forall_app; split; [exact Fa|constructor; [|constructor]]. right. exists x, y, [z]. split; [reflexivity|]. split; [exact Hx|]. split; [exact Hy|].
    split; [exact N1|]. apply any_sep; [exact N1|intros w [<-|[]]; exact Hz|intros [->|[]]; congruence|intros [->|[]]; congruence].
  - apply Forall_app; split; [exact Fa|constructor; [left; reflexivity|constructor]].
Qed.
Lemma partial_fine par : good_step sk E Q (triple_ok g0) (partial_step par N).
Proof.
  split.
  - intros g ns us K (p & q & r & -> & Hp & Hq & Hr & ND) _. rewrite (partial_call g0 [] N _ par g p q r us K Hp Hq Hr).
    apply (partial_answers g [p; q; r] K eq_refl [p; q; r] [] [] (Forall_nil _)). apply partial_rounds; assumption.
  - intros g1 K1. constructor; [|constructor]. intros g2 _. apply Forall_forall. intros e H. apply in_map_iff in H. destruct H as (ns & <- & H).
    assert (T := triples_ok g0 [] _ g1 K1 ns H). destruct par; exact T.
Qed.
Lemma parallel_ends sh sh' coin : is_shuffle (Some sh) -> is_shuffle (Some sh') -> pool_runner no_hooks P ->
  exists g, execute_pipeline fuel P no_hooks (pc_parallel so sh sh' coin N) g0 = (g, Ok tt).
Proof.
  intros S1 S2 HP. destruct (two_steps g0 CP fuel P N H1 H2) as (g & R & _ & K & _). assert (K' : sk g) by exact (skel_weaken g0 [] _ _ any g (CAny g0 (hush N)) K).
  apply (end_of g [PStep (partial_step true N); PStep (matrix_step_sampled so sh coin N); PStep (matrix_step_parallel so sh' N)] (first_two N)); [|exact R].
  eapply wp_cons; [apply (plain_phase fuel P calm g0 _ _ _ (fun _ => HP) (partial_fine true) K')|intros g3 K3].
  eapply wp_cons; [apply (plain_phase fuel P calm g0 _ _ _ (fun _ => HP) (sampled_fine sh coin S1) K3)|intros g4 K4].
  eapply wp_cons; [apply (plain_phase fuel P calm g0 _ _ _ (fun _ => HP) (parallel_fine sh' S2) K4)|]. intros g5 K5. exact K5.
Qed.
Lemma stable_run g : skel g0 [] (corr g0 N) (Sep N g0 true) g -> skel g0 [] (corr g0 (hush N)) (Sep (hush N) g0 true) g -> full g0 g ->
  wp E (run_pstep fuel P no_hooks (PTogether "ApplyActionsTogether" [correlation_step N; partial_step false N; matrix_step so 4 N])) g sk.
Proof.
  intros Kn Kh L. assert (K : sk g) by exact (skel_full g0 (hush N) _ g Kh L any). set (Inv1 := fun g' : graph => g' = g).
  assert (SI : keeps Inv1 E (run_inner P no_hooks true [correlation_step N; partial_step false N; matrix_step so 4 N]) (fun a _ => Forall Q (snd a))).
  { apply (keeps_inner Inv1 E P no_hooks Q true). constructor; [|constructor; [|constructor; [|constructor]]].
    - intros g1 ->. assert (T := corr_total g0 calm true P g K L Inv1 eq_refl ltac:(discriminate)). unfold tri in *. rewrite (corr_step_hush g0 CP N P true g Kn Kh L H2). exact T.
    - intros g1 ->. destruct (partial_fine false) as [C G]. apply (keeps_step Inv1 E Q no_hooks (no_hooks_good _ _ _) true ltac:(discriminate) (triple_ok g0) P); [discriminate| |reflexivity].
      split; [intros g2 ns us ->; exact (C g ns us K)|]. intros g2 ->. eapply Forall_impl; [|exact (G g K)]. intros f Hf g2 ->. exact (Hf g K).
    - intros g1 ->. destruct (matrix_fine 4 ltac:(lia)) as [C G]. apply (keeps_step Inv1 E Q no_hooks (no_hooks_good _ _ _) true ltac:(discriminate) (test_ok g0) P); [discriminate| |reflexivity].
      split; [intros g2 ns us ->; exact (C g ns us K)|]. intros g2 ->. eapply Forall_impl; [|exact (G g K)]. intros f Hf g2 ->. exact (Hf g K). }
  destruct (SI g eq_refl) as [S1 S2]. unfold wp. cbn [run_pstep]. unfold run_together, bind.
  destruct (run_inner P no_hooks true [correlation_step N; partial_step false N; matrix_step so 4 N] g) as [g1 [a|e]]; cbn [fst snd] in *; [|exact S2]. red in S1. subst g1.
  assert (F : Forall (goodo Q) (map (fun i => Some [i]) (snd a))).
  { apply Forall_forall. intros o H. apply in_map_iff in H. destruct H as (i & <- & Hi). rewrite Forall_forall in S2. constructor; [auto|constructor]. }
  destruct (keeps_take sk E Q no_hooks (no_hooks_good _ _ _) false (fun _ => t_act g0 calm) _ F g K) as [K2 T2].
  destruct (take_action no_hooks false (map (fun i => Some [i]) (snd a)) g) as [g2 [b|e]]; cbn [fst snd] in *; [|exact T2]. unfold ret, log_step. cbn. apply skel_log; exact K2.
Qed.
Lemma stable_ends : exists g, execute_pipeline fuel P no_hooks (pc_stable so N) g0 = (g, Ok tt).
Proof.
  destruct (first_step g0 CP fuel P N H1) as (g & R & K & K' & F).
  apply (end_of g [PTogether "ApplyActionsTogether" [correlation_step N; partial_step false N; matrix_step so 4 N]] [PStep (calculate_pearson N)]).
  - eapply wp_cons; [exact (stable_run g K K' F)|]. intros g4 K4. exact K4.
  - cbn [execute_pipeline]. unfold bind. rewrite R. reflexivity.
Qed.
End All.
End End.
