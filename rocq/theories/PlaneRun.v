(* Proofs of C104, the part about runs: which partial correlation tests a run asks, and that it ends well only if they all
   answer. *)
From Verif Require Import Base PyDict PyDictFacts Graph GraphSpec GraphFacts GraphInv GraphInv2 GraphInv3 GraphQ GraphMain
  GraphPaths PathSpec Actions ActionSpec ActionFacts ActionMain Generators GenSpec GenFacts Rules IndepTests Pipeline Parallel PipeSpec PipeFacts RuleFacts
  Construct ConstructSpec ConstructFacts Dag DagFacts DagSep SkelSpec Rows Serve SkelFacts SkelStart SkelSteps SkelMatrix SkelMain Schedules SkelMain2
  OrientSpec OrientGraph LoopFacts OrientMain OrientTop TotalSpec TotalFacts TotalMain TestedSpec TestedFacts TestedMain NanFacts.
Open Scope string_scope.
Open Scope list_scope.

Section Run.
Variable g0 : graph.
Hypothesis CP : complete g0.
Notation node := (SkelFacts.node g0).
Notation ord := (ord g0).
Notation any := (good_sep g0 []).
Notation corr_ans := (corr_ans g0).
Notation col_ans := (col_ans g0).

(* only the correlation test has removed edges *)
Definition CSep (N : numerics) (x y : id) (S : list id) : Prop := any x y S /\ ((ord x y /\ corr_ans N x y = Ok true) \/ (ord y x /\ corr_ans N y x = Ok true)).
Lemma CSym N x y S : CSep N x y S -> CSep N y x S.
Proof. intros [(A & B & C & D) H]. split; [|tauto]. split; [exact A|]. split; [exact C|]. split; [exact B|]. apply d_separated_sym; exact D. Qed.
Lemma CAny N x y S : CSep N x y S -> any x y S. Proof. intros [H _]; exact H. Qed.
Lemma CCorr N x y : ord x y -> n_corr_test N (List.length (values_of g0 x)) (corr g0 N x y) = Ok true -> CSep N x y [].
Proof.
  intros O T. destruct (ord_ok g0 CP x y O) as (Hx & Hy & Ne). split; [|left; split; [exact O|exact T]]. split; [intros z []|]. split; [intros []|]. split; [intros []|apply any_dsep; exact Ne].
Qed.
Lemma any_sym x y S : any x y S -> any y x S.
Proof. intros (A & B & C & D). split; [exact A|]. split; [exact C|]. split; [exact B|]. apply d_separated_sym; exact D. Qed.
Lemma any_part N x y z : ord x y -> node z -> NoDup [x; y; z] -> n_partial N (List.length (values_of g0 x)) 1 (corr g0 N x y) (corr g0 N x z) (corr g0 N y z) = Ok (Some true) -> any x y [z].
Proof.
  intros O Hz ND _. destruct (three x y z ND) as (N1 & N2 & N3). split; [intros w [<-|[]]; exact Hz|]. split; [intros [E|[]]; congruence|]. split; [intros [E|[]]; congruence|]. apply any_dsep; exact N1.
Qed.
Notation skc N := (skel g0 [] (corr g0 N) (CSep N)).
Notation ska N := (skel g0 [] (corr g0 N) any).
Lemma skel_full N S g : skel g0 [] (corr g0 N) S g -> full g0 g -> forall S', skel g0 [] (corr g0 N) S' g.
Proof. intros [A1 A2 A3 A4 A5 A6 A7 A8] F S'. constructor; try assumption. intros u v Hu Hv Ne L. rewrite (F u v Hu Hv Ne) in L. discriminate. Qed.

(* ---- one partial correlation step ---- *)
Section Step.
Variable N : numerics.
Notation pans x y z := (n_partial N (List.length (values_of g0 x)) 1 (corr g0 N x y) (corr g0 N x z) (corr g0 N y z)).
Definition chain (p q r : id) : res (option (list tresult)) :=
  match pans q r p with Err e => Err e | Ok None => Ok None | Ok (Some b1) =>
  match pans p r q with Err e => Err e | Ok None => Ok None | Ok (Some b2) =>
  match pans p q r with Err e => Err e | Ok None => Ok None | Ok (Some b3) =>
    Ok (Some [if b1 then separated q r [p] else not_separated q r [p];
              if b2 then separated p r [q] else not_separated p r [q];
              if b3 then separated p q [r] else not_separated p q [r]]) end end end.
Definition alive (g : graph) (p q r : id) : bool := directed_edge_exists g p q && directed_edge_exists g p r && directed_edge_exists g q r.
Lemma part_call g p q r us : ska N g -> In [p; q; r] (all_combinations (mkCS 3 3) g0) ->
  call (partial_step false N) g [p; q; r] us = if alive g p q r then chain p q r else match call (partial_step false N) g [p; q; r] us with Ok o => Ok o | Err _ => Ok None end.
Proof.
  intros K Hc. destruct (triples_ord g0 _ Hc) as (p' & q' & r' & Ep & O1 & O2 & O3). injection Ep as <- <- <-. destruct (triple_nd g0 CP p q r O1 O2 O3) as (Hp & Hq & Hr & ND).
  destruct (three p q r ND) as (A & B & C). destruct (filters p q r ND) as (F1 & F2 & F3).
  rewrite (partial_call g0 [] N (corr g0 N) false g p q r us K Hp Hq Hr). unfold alive.
  destruct (directed_edge_exists g p q) eqn:L1, (directed_edge_exists g p r) eqn:L2, (directed_edge_exists g q r) eqn:L3; cbn [andb];
    try (exact (partial_live g0 N CP any (fun _ _ _ h => h) g p q r K O1 O2 O3 L1 L2 L3));
    (rewrite (partial_round g0 [] N (corr g0 N) g [p; q; r] p q r [] [q; r] [] [] K eq_refl Hq Hr Hp ltac:(apply three'; congruence) F1);
     rewrite ?(skel_sym_eq g0 [] _ _ g q p K), ?(skel_sym_eq g0 [] _ _ g r p K), ?L1, ?L2, ?L3; cbn [negb orb mem existsb andb]; try reflexivity;
     rewrite (partial_round g0 [] N (corr g0 N) g [p; q; r] q p r [] [r] [] [] K eq_refl Hp Hr Hq ltac:(apply three'; congruence) F2);
     rewrite ?(skel_sym_eq g0 [] _ _ g q p K), ?(skel_sym_eq g0 [] _ _ g r q K), ?L1, ?L2, ?L3; cbn [negb orb mem existsb andb]; try reflexivity;
     rewrite (partial_round g0 [] N (corr g0 N) g [p; q; r] r p q [] [] [] [] K eq_refl Hp Hq Hr ND F3);
     rewrite ?L1, ?L2, ?L3; cbn [negb orb mem existsb andb]; reflexivity).
Qed.
Lemma part_ok g p q r us : ska N g -> In [p; q; r] (all_combinations (mkCS 3 3) g0) -> alive g p q r = false -> exists o, call (partial_step false N) g [p; q; r] us = Ok o.
Proof. intros K Hc L. rewrite (part_call g p q r us K Hc), L. destruct (call (partial_step false N) g [p; q; r] us); eexists; reflexivity. Qed.
Lemma part_unfold P dry g : nodes g = nodes g0 -> execute_step P no_hooks (partial_step false N) dry g =
  match rmap (fun ns => call (partial_step false N) g ns None) (all_combinations (mkCS 3 3) g0) with Ok os => take_action no_hooks dry os g | Err e => (g, Err e) end.
Proof.
  intros Hn. assert (Gen : gen_run (s_gen (partial_step false N) g) g = Ok (map Generators.One (all_combinations (mkCS 3 3) g0) ++ [])) by (rewrite <- (same_combs g0 (mkCS 3 3) g Hn); reflexivity).
  rewrite (plain_unfold dry (partial_step false N) ltac:(repeat split) P g _ Gen), app_nil_r. rewrite collect_from by reflexivity. unfold bind. destruct (rmap _ _); reflexivity.
Qed.
(* a step that ends well has answers for every triple whose pairs are all connected *)
Lemma part_step_all P dry g g' a : ska N g -> execute_step P no_hooks (partial_step false N) dry g = (g', Ok a) ->
  forall p q r, In [p; q; r] (all_combinations (mkCS 3 3) g0) -> alive g p q r = true -> exists o, chain p q r = Ok o.
Proof.
  intros K R p q r Hc L. rewrite part_unfold in R by (apply (sk_nodes _ _ _ _ _ K)). destruct (rmap _ _) as [os|e] eqn:M; [|discriminate].
  destruct (rmap_all _ _ _ M [p; q; r] Hc) as (o & Ho). rewrite (part_call g p q r None K Hc), L in Ho. exists o; exact Ho.
Qed.
(* otherwise the exception of a test is the outcome *)
Lemma part_step_cases P dry g : ska N g -> (forall p q r, In [p; q; r] (all_combinations (mkCS 3 3) g0) -> alive g p q r = true -> exists o, chain p q r = Ok o) \/
  exists p q r e, In [p; q; r] (all_combinations (mkCS 3 3) g0) /\ alive g p q r = true /\ chain p q r = Err e /\ execute_step P no_hooks (partial_step false N) dry g = (g, Err e).
Proof.
  intros K. assert (U := part_unfold P dry g (sk_nodes _ _ _ _ _ K)). destruct (rmap _ _) as [os|e1] eqn:M in U.
  - left. intros p q r Hc L. destruct (rmap_all _ _ _ M [p; q; r] Hc) as (o & Ho). rewrite (part_call g p q r None K Hc), L in Ho. exists o; exact Ho.
  - right. destruct (rmap_err _ _ _ M) as (ns & Hn & Hcall). destruct (triples_ord g0 _ Hn) as (p' & q' & r' & -> & _). exists p', q', r', e1. split; [exact Hn|].
    destruct (alive g p' q' r') eqn:L'; [|destruct (part_ok g p' q' r' None K Hn L') as (o & Ho); congruence].
    split; [reflexivity|]. rewrite (part_call g p' q' r' None K Hn), L' in Hcall. split; [exact Hcall|exact U].
Qed.
End Step.

Lemma chain_hush N p q r o : chain N p q r = Ok o -> chain (hush N) p q r = Ok o.
Proof.
  unfold chain. rewrite !corr_hush. cbn [hush n_partial]. intros H. destruct (n_partial N _ _ _ _ _) as [[b1|]|e] in H |- *; cbn [hush_res]; [|exact H|discriminate H].
  destruct (n_partial N _ _ _ _ _) as [[b2|]|e] in H |- *; cbn [hush_res]; [|exact H|discriminate H]. destruct (n_partial N _ _ _ _ _) as [[b3|]|e] in H |- *; cbn [hush_res]; [exact H|exact H|discriminate H].
Qed.
Lemma dead_hush N g p q r us o o' : ska N g -> ska (hush N) g -> In [p; q; r] (all_combinations (mkCS 3 3) g0) -> alive g p q r = false ->
  call (partial_step false N) g [p; q; r] us = Ok o -> call (partial_step false (hush N)) g [p; q; r] us = Ok o' -> o = o'.
Proof.
  intros K K' Hc L C C'. destruct (triples_ord g0 _ Hc) as (p' & q' & r' & Ep & O1 & O2 & O3). injection Ep as <- <- <-. destruct (triple_nd g0 CP p q r O1 O2 O3) as (Hp & Hq & Hr & ND).
  destruct (three p q r ND) as (A & B & D). destruct (filters p q r ND) as (F1 & F2 & F3).
  rewrite (partial_call g0 [] N (corr g0 N) false g p q r us K Hp Hq Hr) in C. rewrite (partial_call g0 [] (hush N) (corr g0 (hush N)) false g p q r us K' Hp Hq Hr) in C'.
  assert (S1 := skel_sym_eq g0 [] _ _ g q p K). assert (S2 := skel_sym_eq g0 [] _ _ g r p K). assert (S3 := skel_sym_eq g0 [] _ _ g r q K). unfold alive in L.
  rewrite (partial_round g0 [] N (corr g0 N) g [p; q; r] p q r [] [q; r] [] [] K eq_refl Hq Hr Hp ltac:(apply three'; congruence) F1) in C.
  rewrite (partial_round g0 [] (hush N) (corr g0 (hush N)) g [p; q; r] p q r [] [q; r] [] [] K' eq_refl Hq Hr Hp ltac:(apply three'; congruence) F1) in C'.
  destruct (directed_edge_exists g p q) eqn:L1, (directed_edge_exists g p r) eqn:L2, (directed_edge_exists g q r) eqn:L3; cbn [andb] in L; try discriminate L;
    rewrite S1, S2 in C, C'; cbn [negb orb mem existsb andb] in C, C'; try congruence;
    (rewrite (partial_round g0 [] N (corr g0 N) g [p; q; r] q p r [] [r] [] [] K eq_refl Hp Hr Hq ltac:(apply three'; congruence) F2), ?S3, ?L1, ?L2 in C;
     rewrite (partial_round g0 [] (hush N) (corr g0 (hush N)) g [p; q; r] q p r [] [r] [] [] K' eq_refl Hp Hr Hq ltac:(apply three'; congruence) F2), ?S3, ?L1, ?L2 in C';
     cbn [negb orb mem existsb andb] in C, C'; try congruence;
     rewrite (partial_round g0 [] N (corr g0 N) g [p; q; r] r p q [] [] [] [] K eq_refl Hp Hq Hr ND F3), ?L1, ?L2, ?L3 in C;
     rewrite (partial_round g0 [] (hush N) (corr g0 (hush N)) g [p; q; r] r p q [] [] [] [] K' eq_refl Hp Hq Hr ND F3), ?L1, ?L2, ?L3 in C';
     cbn [negb orb mem existsb andb partial_loop] in C, C'; congruence).
Qed.
Lemma part_step_hush N P dry g : ska N g -> ska (hush N) g -> (forall p q r, In [p; q; r] (all_combinations (mkCS 3 3) g0) -> alive g p q r = true -> exists o, chain N p q r = Ok o) ->
  execute_step P no_hooks (partial_step false N) dry g = execute_step P no_hooks (partial_step false (hush N)) dry g.
Proof.
  intros K K' H. rewrite !part_unfold by (apply (sk_nodes _ _ _ _ _ K)). erewrite rmap_same; [reflexivity|]. intros ns Hn. destruct (triples_ord g0 _ Hn) as (p & q & r & -> & _). cbn beta.
  destruct (alive g p q r) eqn:L.
  - rewrite (part_call N g p q r None K Hn), (part_call (hush N) g p q r None K' Hn), L. destruct (H p q r Hn L) as (o & Ho). rewrite Ho. symmetry. apply chain_hush; exact Ho.
  - destruct (part_ok N g p q r None K Hn L) as (o & Ho). destruct (part_ok (hush N) g p q r None K' Hn L) as (o' & Ho'). rewrite Ho, Ho'. f_equal. exact (dead_hush N g p q r None o o' K K' Hn L Ho Ho').
Qed.

(* ---- the first three steps of PC ---- *)
Variables (fuel : nat) (P : runner) (N : numerics).
Lemma two_steps : (forall x y, ord x y -> exists z, col_ans N x y = Ok z) -> (forall x y, ord x y -> exists b, corr_ans N x y = Ok b) ->
  exists g, execute_pipeline fuel P no_hooks (first_two N) g0 = (g, Ok tt) /\ skc N g /\ skc (hush N) g /\ Done (Kcorr g0 N) g.
Proof.
  intros H1 H2. destruct (first_step g0 CP fuel P N H1) as (g & R & K & K' & F).
  assert (W := corr_phase_done g0 N CP (CSep N) (CSym N) (CCorr N) fuel P g (skel_full N _ g K F _) F).
  assert (W' := corr_phase_done g0 (hush N) CP (CSep (hush N)) (CSym (hush N)) (CCorr (hush N)) fuel P g (skel_full (hush N) _ g K' F _) F).
  assert (EQ : run_pstep fuel P no_hooks (PStep (correlation_step N)) g = run_pstep fuel P no_hooks (PStep (correlation_step (hush N))) g).
  { cbn [run_pstep]. unfold bind. rewrite (corr_step_hush g0 CP N P false g K K' F H2). reflexivity. }
  destruct (wp_quiet _ _ _ _ (hush_quiet N) W') as ([] & R2). set (g2 := fst _) in R2. assert (R3 := R2). rewrite <- EQ in R3.
  destruct (wp_ok _ _ _ _ _ _ W R3) as [A B]. destruct (wp_ok _ _ _ _ _ _ W' R2) as [A' _]. exists g2. split; [|auto].
  unfold first_two. cbn [execute_pipeline]. unfold bind. rewrite R, R3. reflexivity.
Qed.
(* after them exactly the pairs without an answer of independence are connected *)
Lemma live_iff g x y : skc N g -> Done (Kcorr g0 N) g -> ord x y -> (forall x y, ord x y -> exists b, corr_ans N x y = Ok b) -> (directed_edge_exists g x y = true <-> corr_ans N x y = Ok false).
Proof.
  intros K D O H2. destruct (ord_ok g0 CP x y O) as (Hx & Hy & Ne). split.
  - intros L. destruct (H2 x y O) as ([|] & Hb); [|exact Hb]. exfalso. destruct (D [(x, y)]) as (p & [<-|[]] & G); [exists x, y; auto|]. unfold gone in G. cbn in G. congruence.
  - intros Hb. destruct (directed_edge_exists g x y) eqn:L; [reflexivity|]. exfalso. destruct (sk_gone _ _ _ _ _ K x y Hx Hy Ne L) as (a & b & S & _ & _ & _ & [[_ C]|[O' _]]); [congruence|exact (ord_asym g0 CP x y O O')].
Qed.
Definition all_dependent (p q r : id) : Prop := corr_ans N p q = Ok false /\ corr_ans N p r = Ok false /\ corr_ans N q r = Ok false.
Lemma three_cases : (forall x y, ord x y -> exists z, col_ans N x y = Ok z) -> (forall x y, ord x y -> exists b, corr_ans N x y = Ok b) ->
  ((forall p q r, In [p; q; r] (all_combinations (mkCS 3 3) g0) -> all_dependent p q r -> exists o, chain N p q r = Ok o) /\
   exists g, execute_pipeline fuel P no_hooks (first_two N ++ [PStep (partial_step false N)]) g0 = (g, Ok tt)) \/
  exists p q r e g, In [p; q; r] (all_combinations (mkCS 3 3) g0) /\ all_dependent p q r /\ chain N p q r = Err e /\
    execute_pipeline fuel P no_hooks (first_two N ++ [PStep (partial_step false N)]) g0 = (g, Err e).
Proof.
  intros H1 H2. destruct (two_steps H1 H2) as (g & R & K & K' & D). assert (Ka := skel_weaken g0 [] _ _ any g (CAny N) K). assert (Ka' := skel_weaken g0 [] _ _ any g (CAny (hush N)) K').
  assert (AL : forall p q r, In [p; q; r] (all_combinations (mkCS 3 3) g0) -> (alive g p q r = true <-> all_dependent p q r)).
  { intros p q r Hc. destruct (triples_ord g0 _ Hc) as (p' & q' & r' & Ep & O1 & O2 & O3). injection Ep as <- <- <-. unfold alive, all_dependent. rewrite !andb_true_iff.
    rewrite (live_iff g p q K D O1 H2), (live_iff g p r K D O2 H2), (live_iff g q r K D O3 H2). tauto. }
  rewrite PipeMain.pipeline_app, R.
  destruct (part_step_cases N P false g Ka) as [All|(p & q & r & e & Hc & L & Ce & X)].
  2:{ right. exists p, q, r, e, g. split; [exact Hc|]. split; [apply AL; assumption|]. split; [exact Ce|]. cbn [execute_pipeline run_pstep]. unfold bind. rewrite X. reflexivity. }
  - left.
    split; [intros p q r Hc A; apply All; [exact Hc|apply AL; assumption]|].
    assert (W := phase g0 (hush N) any any_sym fuel P (partial_step false (hush N)) (triple_ord g0) (fun _ => False) (fun _ => False) g ltac:(discriminate)
      (partial_goods g0 (hush N) CP any (fun _ _ _ h => h) (any_part (hush N)) false) Ka' ltac:(intros l []) ltac:(intros l [])).
    destruct (wp_quiet _ _ _ _ (hush_quiet N) W) as ([] & X).
    assert (EQ : run_pstep fuel P no_hooks (PStep (partial_step false N)) g = run_pstep fuel P no_hooks (PStep (partial_step false (hush N))) g).
    { cbn [run_pstep]. unfold bind. rewrite (part_step_hush N P false g Ka Ka' All). reflexivity. }
    rewrite <- EQ in X at 1. eexists. cbn [execute_pipeline]. unfold bind. rewrite X. reflexivity.
Qed.
(* PCStable asks all of them *)
Lemma stable_all so g : execute_pipeline fuel P no_hooks (pc_stable_skeleton so N) g0 = (g, Ok tt) ->
  forall p q r, In [p; q; r] (all_combinations (mkCS 3 3) g0) -> exists o, chain N p q r = Ok o.
Proof.
  intros R p q r Hc. unfold pc_stable_skeleton in R. cbn [execute_pipeline] in R. unfold bind in R.
  assert (W := pearson_first fuel P N g0 CP true). unfold wp in W.
  destruct (run_pstep fuel P no_hooks (PStep (calculate_pearson N)) g0) as [g1 [[]|e]]; [|discriminate]. cbn [fst snd] in W. destruct W as [K F].
  cbn [run_pstep] in R. unfold bind in R. destruct (run_together P no_hooks _ g1) as [g3 [a|e]] eqn:R3; [|discriminate].
  unfold run_together in R3. cbn [run_inner] in R3. unfold bind in R3. destruct (execute_step P no_hooks (correlation_step N) true g1) as [g4 [a'|e]] eqn:R4; [|discriminate].
  assert (E4 : g4 = g1).
  { rewrite (corr_unfold g0 N P true g1 (sk_nodes _ _ _ _ _ K)) in R4. destruct (rmap _ _) as [os|e]; [|discriminate]. rewrite take_action_dry in R4. injection R4 as <- _. reflexivity. }
  rewrite E4 in R3. destruct (execute_step P no_hooks (partial_step false N) true g1) as [g5 [a5|e]] eqn:R5; [|discriminate].
  apply (part_step_all N P true g1 g5 a5 (skel_full N _ g1 K F any) R5 p q r Hc).
  destruct (triples_ord g0 _ Hc) as (p' & q' & r' & Ep & O1 & O2 & O3). injection Ep as <- <- <-. destruct (triple_nd g0 CP p q r O1 O2 O3) as (Hp & Hq & Hr & ND). destruct (three p q r ND) as (A & B & C).
  unfold alive. rewrite !F by assumption. reflexivity.
Qed.
End Run.
