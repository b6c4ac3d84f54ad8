(* C107: executing a finished model again when no edge was removed. *)
From Verif Require Import Base PyDict PyDictFacts Graph GraphSpec GraphFacts GraphInv GraphInv2 GraphInv3 GraphQ GraphMain
  GraphPaths PathSpec Actions ActionSpec ActionFacts ActionMain Generators GenSpec GenFacts Rules IndepTests Pipeline Parallel PipeSpec PipeFacts PipeMain PipeMain2 RuleFacts
  Construct ConstructSpec ConstructFacts Dag DagFacts DagSep SkelSpec Rows Serve SkelFacts SkelStart SkelSteps SkelMatrix SkelMain
  LoopFacts TotalSpec TotalFacts TotalMain NanFacts TestedSpec TestedFacts TestedMain ColliderFacts AgainSpec AgainFacts AgainMain.
Open Scope string_scope.
Open Scope list_scope.

Notation anyx := (fun _ : exn => True).
Lemma step_any Inv (E : exn -> Prop) Q A s : good_step Inv E Q A s -> good_step Inv anyx Q A s.
Proof.
  intros [C G]. split.
  - intros g ns us I An U. assert (X := C g ns us I An U). destruct (call s g ns us); [exact X|exact Logic.I].
  - intros g I. eapply Forall_impl; [|exact (G g I)]. intros f. apply block_E. auto.
Qed.

(* the sampled and the full matrix test ask nothing that the full one, in any order, did not ask *)
Section Shuffles.
Variables (so : list id -> list id) (N : numerics) (h : graph).
Variables sh sh' : nat * id * id -> list (list id) -> list (list id).
Hypothesis SH : is_shuffle (Some sh).
Hypothesis SH' : is_shuffle (Some sh').
Hypothesis C : calm (matrix_step_parallel so sh' N) h.
Lemma slot_calm t : (forall f, In f [pwn_slot so (Some sh') false t] -> calm_block (matrix_step_parallel so sh' N) h f) -> calm_block (matrix_step_parallel so sh N) h (pwn_slot so (Some sh) false t).
Proof.
  intros H. destruct (H _ (or_introl eq_refl)) as (es & E1 & E2). destruct t as [[k x] y]. unfold pwn_slot in E1. unfold calm_block, pwn_slot. destruct (negb (directed_edge_exists h x y)).
  - exists []. split; [reflexivity|]. intros e [].
  - destruct (Nat.eqb k 2); [exists es; split; [exact E1|exact E2]|]. destruct (dget (edges h) x) as [row|]; [|discriminate]. injection E1 as <-. eexists. split; [reflexivity|].
    intros e I. apply in_map_iff in I. destruct I as (ns & <- & I). apply in_map_iff in I. destruct I as (c & <- & I).
    apply (E2 (One (x :: y :: c))). apply in_map. apply in_map_iff. exists c. split; [reflexivity|]. assert (P1 := SH (k, x, y)). assert (P2 := SH' (k, x, y)). cbn in P1, P2.
    eapply Permutation_in; [apply Permutation_sym; apply P2|]. eapply Permutation_in; [apply P1|exact I].
Qed.
Lemma parallel_calm : calm (matrix_step_parallel so sh N) h.
Proof.
  intros f I. unfold calm in C. cbn [matrix_step_parallel s_gen] in I, C. unfold gen_neighbours in I, C. destruct (Nat.ltb _ _); [destruct I|]. destruct (Nat.ltb _ _); [destruct I|]. destruct (Nat.ltb _ _).
  - destruct I as [<-|[]]. destruct (C _ (or_introl eq_refl)) as (es & E1 & _). discriminate.
  - apply in_map_iff in I. destruct I as (t & <- & I). apply slot_calm. intros f [<-|[]]. apply C. apply in_map; exact I.
Qed.
Lemma keep_In {A} (c : nat -> bool) (l : list A) : forall j a, In a (keep c j l) -> In a l.
Proof. induction l as [|b l IH]; intros j a I; [exact I|]. cbn [keep] in I. destruct (c j); [destruct I as [<-|I]; [left; reflexivity|right; exact (IH _ _ I)]|right; exact (IH _ _ I)]. Qed.
Lemma sampled_calm coin : calm (matrix_step_sampled so sh coin N) h.
Proof.
  assert (D := parallel_calm). unfold calm in *. cbn [matrix_step_sampled matrix_step_parallel s_gen] in D |- *. unfold gen_sample. revert D. generalize (gen_neighbours so (Some sh) false (mkCS 4 0) h) as l. generalize 0 as i.
  intros i l. revert i. induction l as [|f l IH]; intros i D f' I; [destruct I|]. cbn [gen_sample_from] in I. destruct I as [<-|I].
  - destruct (D f (or_introl eq_refl)) as (es & E1 & E2). exists (keep (coin i) 0 es). rewrite E1. split; [reflexivity|]. intros e Ie. exact (E2 e (keep_In _ _ _ _ Ie)).
  - apply (IH (S i)); [intros f2 I2; apply D; right; exact I2|exact I].
Qed.
End Shuffles.

Section End_.
Variables (so : list id -> list id) (N : numerics) (g0 : graph) (single : bool).
Hypothesis CP : complete g0.
Hypothesis SO : set_order so.
Hypothesis PF : forall a b, ord g0 a b -> n_pearson N (values_of g0 a) (values_of g0 b) = Ok (corr g0 N a b).
Notation Sp := (Sep N g0 single).
Notation sk := (skel g0 [] (corr g0 N) Sp).
Lemma corr_gstep P : gstep g0 N Sp P (correlation_step N).
Proof.
  split; [exists (ordered g0)| | | |]; try reflexivity; [|apply blind_corr|discriminate]. split.
  - intros g ns us K (x & y & -> & O) _. destruct (ord_ok g0 CP x y O) as (Hx & Hy & Ne). destruct (directed_edge_exists g x y) eqn:L.
    + unfold call. cbn [correlation_step s_proc s_unapplied]. unfold correlation_test.
      rewrite (node_at_ok g0 [] _ Sp g [x; y] 0 x K eq_refl Hx), (node_at_ok g0 [] _ Sp g [x; y] 1 y K eq_refl Hy). cbn [rbind].
      rewrite (get_corr_live g0 [] _ Sp g x y K L). cbn [rbind as_num]. rewrite (values_same g0 [] _ Sp g x K). destruct (n_corr_test N _ _) as [b|e] eqn:T; [|exact Logic.I]. cbn [rbind].
      constructor; [|constructor]. destruct b; [|left; reflexivity]. right. exists x, y, []. split; [reflexivity|]. split; [exact Hx|]. split; [exact Hy|]. split; [exact Ne|]. apply (Scorr N g0 CP PF); assumption.
    + unfold call. cbn [correlation_step s_proc s_unapplied]. unfold correlation_test.
      rewrite (node_at_ok g0 [] _ Sp g [x; y] 0 x K eq_refl Hx), (node_at_ok g0 [] _ Sp g [x; y] 1 y K eq_refl Hy). cbn [rbind]. rewrite (get_corr_gone g0 [] _ Sp g x y K L). exact Logic.I.
  - intros g K. constructor; [|constructor]. intros g' K'. cbn. apply Forall_forall. intros e I. apply in_map_iff in I. destruct I as (ns & <- & I). cbn.
    rewrite (same_combs g0 (mkCS 2 2) g (sk_nodes _ _ _ _ _ K)) in I. destruct (pairs_ok g0 g0 (cp_wf _ CP) eq_refl ns I) as (x & y & -> & _). exists x, y. auto.
Qed.
End End_.

(* ---- one run that removed nothing, then another one ---- *)
Lemma tail_shipped so N : shipped_pipeline false (orientation_rules so ++ [PStep (effect_step N)]).
Proof.
  intros p s Hp Hs. left. cbn in Hp. repeat (destruct Hp as [<-|Hp]; [cbn in Hs; repeat (destruct Hs as [<-|Hs]; [first [constructor|exact (sh_collider KEEP_FIRST so)]|]); destruct Hs|]). destruct Hp.
Qed.
Definition pearson_fine (N : numerics) (g0 : graph) : Prop := forall a b, ord g0 a b -> n_pearson N (values_of g0 a) (values_of g0 b) = Ok (corr g0 N a b).
Lemma again_main single fuel fuel' P P' so N g0 rest rest' g : complete g0 -> reached g0 -> pool_runner no_hooks P -> pool_runner no_hooks P' ->
  (pearson_fine N g0 -> Forall (gp g0 N (Sep N g0 single) P) rest) -> (forall h, Forall (easy_p fuel h) rest -> Forall (easy_p fuel' h) rest') -> 2 <= fuel' ->
  execute_pipeline fuel P no_hooks (PStep (calculate_pearson N) :: rest ++ orientation_rules so ++ [PStep (effect_step N)]) g0 = (g, Ok tt) ->
  (forall x y, In x (dkeys (nodes g0)) -> In y (dkeys (nodes g0)) -> x <> y -> edge_exists g x y = true) ->
  exists g', execute_pipeline fuel' P' no_hooks (PStep (calculate_pearson N) :: rest' ++ orientation_rules so ++ [PStep (effect_step N)]) g = (g', Ok tt) /\ eqv4 g g'.
Proof.
  intros CP RE HP HP' HG HE Fu R All. cbn [execute_pipeline] in R. unfold bind in R.
  assert (D1 := pearson_first fuel P N g0 CP single). assert (D2 := pearson_done fuel P N g0 CP). unfold wp in D1, D2.
  assert (R1' := pipeline_reached fuel P no_hooks [PStep (calculate_pearson N)] g0 HP RE). cbn [execute_pipeline] in R1'. unfold bind in R1'.
  destruct (run_pstep fuel P no_hooks (PStep (calculate_pearson N)) g0) as [g1 [[]|e]] eqn:R1; [|discriminate]. cbn [fst snd] in *. destruct D1 as [K1 F1]. destruct D2 as [M1 PF]. unfold ret in R1'. cbn [fst] in R1'.
  rewrite pipeline_app in R. assert (Rk' := pipeline_reached fuel P no_hooks rest g1 HP R1'). destruct (execute_pipeline fuel P no_hooks rest g1) as [gk [[]|e]] eqn:Rk; [|discriminate]. cbn [fst] in Rk'.
  assert (Fl : filled g0 N g1).
  { split; [exact (full_whole g0 N (Sep N g0 single) g1 K1 F1)|]. split; [exact (sk_nodes _ _ _ _ _ K1)|]. intros x y Hx Hy Ne. exact (proj2 (M1 x y Hx Hy Ne)). }
  destruct (pipeline_back g0 N (Sep N g0 single) (Ssym N g0 single) P fuel rest (HG PF) g1 gk K1 F1 Rk) as [L|(Q1 & Kk & Es)].
  { exfalso. destruct L as (Kk & x & y & Hx & Hy & Ne & G). unfold gone in G. unfold SkelFacts.node in Hx, Hy.
    assert (A := All x y (proj1 (dmem_In _ _) Hx) (proj1 (dmem_In _ _) Hy) Ne). rewrite edge_exists_or in A. assert (N1 := c35_shipped fuel P _ gk g (Ok tt) Rk' HP (tail_shipped so N) R).
    apply orb_true_iff in A. destruct A as [A|A]; apply N1 in A; [|apply (sk_sym _ _ _ _ _ Kk) in A]; rewrite G in A; discriminate. }
  assert (Flk := filled_eqv g0 N g1 gk Q1 Fl). assert (Wk := proj1 Flk). assert (F2 := orient_fuel P HP so N fuel gk g Wk R).
  destruct (pipeline_calm P HP fuel _ gk Wk (orient_easy so N fuel gk F2 Wk)) as (g2 & Rg & Qg). rewrite R in Rg. injection Rg as <-.
  assert (Flg := filled_eqv g0 N gk g Qg Flk). destruct (pearson_pstep_again g0 N CP PF fuel' P' g Flg) as (ga & Ra & Qa). cbn [execute_pipeline]. unfold bind. rewrite Ra.
  assert (Wa := whole_eqv g ga Qa (proj1 Flg)). assert (Q3 : eqv4 g1 ga) by (eapply eqv4_trans; [exact Q1|eapply eqv4_trans; eassumption]).
  destruct (pipeline_calm P' HP' fuel' (rest' ++ orientation_rules so ++ [PStep (effect_step N)]) ga Wa) as (gb & Rb & Qb).
  - apply Forall_app. split; [|apply orient_easy; assumption]. eapply Forall_impl; [|apply HE; exact Es]. intros p. apply easy_p_eqv; exact Q3.
  - exists gb. split; [exact Rb|eapply eqv4_trans; eassumption].
Qed.

Lemma gstep_of g0 N Sp P s A : good_step (skel g0 [] (corr g0 N) Sp) (raised N) (proposal g0 Sp) A s -> s_unapplied s = false -> s_sync s = false -> blind s -> (s_parallel s = true -> pool_runner no_hooks P) -> gstep g0 N Sp P s.
Proof. intros G U S B HP. split; try assumption. exists A. exact (step_any _ _ _ _ _ G). Qed.

Lemma unchanged fuel fuel' P P' so N sks l l' d g0 g : start_graph d = Ok g0 -> set_order so -> pool_runner no_hooks P -> pool_runner no_hooks P' ->
  pc_algorithm P so N sks l -> executed_again so N l l' -> 2 <= fuel' ->
  execute_pipeline fuel P no_hooks l g0 = (g, Ok tt) ->
  (forall x y, In x (dkeys (nodes g0)) -> In y (dkeys (nodes g0)) -> x <> y -> edge_exists g x y = true) ->
  exists g', execute_pipeline fuel' P' no_hooks l' g = (g', Ok tt) /\ eqv4 g g'.
Proof.
  intros S0 SO HP HP' A Ag Fu R All. assert (CP := complete_start d g0 S0). assert (RE := start_reached d g0 S0).
  assert (Id : forall rest h, Forall (fun p => match p with PLoop _ _ _ => False | _ => True end) rest -> Forall (easy_p fuel h) rest -> Forall (easy_p fuel' h) rest).
  { intros rest h F1 F2. rewrite Forall_forall in *. intros p I. specialize (F1 p I). specialize (F2 p I). destruct p; [exact F2|destruct F1|exact F2]. }
  assert (Gc : forall b, pearson_fine N g0 -> gstep g0 N (Sep N g0 b) P (correlation_step N)) by (intros b PF; apply corr_gstep; assumption).
  assert (Gp : forall par, pearson_fine N g0 -> gstep g0 N (Sep N g0 true) P (partial_step par N)).
  { intros par PF. eapply gstep_of; [apply (partial_goods g0 N CP (Sep N g0 true) (Sany N g0 true) (fun x y z => Spart N g0 CP PF true x y z eq_refl) par)|reflexivity|reflexivity|apply blind_partial|intros _; exact HP]. }
  assert (Gm : forall b mn, (if b : bool then mn = 4 else mn = 3) -> gstep g0 N (Sep N g0 b) P (matrix_step so mn N)).
  { intros b mn E. eapply gstep_of; [apply (seq_good g0 N so SO (Sep N g0 b) (Sany N g0 b) mn ltac:(destruct b; lia) (fun x y S zs => Smat N g0 b mn x y S zs E))|reflexivity|reflexivity|apply blind_matrix|discriminate]. }
  destruct A as [| | |sh sh' coin SH SH' _].
  - assert (l' = pc so N) as -> by (inversion Ag; reflexivity).
    refine (again_main true fuel fuel' P P' so N g0 [PStep (correlation_step N); PStep (partial_step false N); PStep (matrix_step so 4 N)]
      [PStep (correlation_step N); PStep (partial_step false N); PStep (matrix_step so 4 N)] g CP RE HP HP' _ _ Fu R All).
    + intros PF. constructor; [apply Gc; exact PF|]. constructor; [apply Gp; exact PF|]. constructor; [apply Gm; reflexivity|constructor].
    + intros h. apply Id. repeat constructor.
  - assert (l' = pc_classic so N) as -> by (inversion Ag; reflexivity).
    refine (again_main false fuel fuel' P P' so N g0 [PStep (correlation_step N); PStep (matrix_step so 3 N)]
      [PStep (correlation_step N); PStep (matrix_step so 3 N)] g CP RE HP HP' _ _ Fu R All).
    + intros PF. constructor; [apply Gc; exact PF|]. constructor; [apply Gm; reflexivity|constructor].
    + intros h. apply Id. repeat constructor.
  - assert (l' = pc_stable so N) as -> by (inversion Ag; reflexivity).
    refine (again_main true fuel fuel' P P' so N g0 [PTogether "ApplyActionsTogether" [correlation_step N; partial_step false N; matrix_step so 4 N]]
      [PTogether "ApplyActionsTogether" [correlation_step N; partial_step false N; matrix_step so 4 N]] g CP RE HP HP' _ _ Fu R All).
    + intros PF. constructor; [|constructor]. cbn [gp]. constructor; [split; [apply Gc; exact PF|reflexivity]|]. constructor; [split; [apply Gp; exact PF|reflexivity]|]. constructor; [split; [apply Gm; reflexivity|reflexivity]|constructor].
    + intros h. apply Id. repeat constructor.
  - assert (X : exists sh2 sh2' coin2, is_shuffle (Some sh2) /\ is_shuffle (Some sh2') /\ l' = pc_parallel so sh2 sh2' coin2 N).
    { inversion Ag as [l2 E1|s1 s1' c1 s2 s2' c2 H1 H2 E1 E2]; [exists sh, sh', coin; auto|exists s2, s2', c2; auto]. }
    destruct X as (sh2 & sh2' & coin2 & SH2 & SH2' & ->).
    refine (again_main true fuel fuel' P P' so N g0 [PStep (correlation_step N); PStep (partial_step true N); PStep (matrix_step_sampled so sh coin N); PStep (matrix_step_parallel so sh' N)]
      [PStep (correlation_step N); PStep (partial_step true N); PStep (matrix_step_sampled so sh2 coin2 N); PStep (matrix_step_parallel so sh2' N)] g CP RE HP HP' _ _ Fu R All).
    + intros PF. assert (HM := fun x y S zs => Smat N g0 true 4 x y S zs eq_refl). constructor; [apply Gc; exact PF|]. constructor; [apply Gp; exact PF|]. constructor; [|constructor; [|constructor]].
      * eapply gstep_of; [apply (psampled_good g0 N so SO (Sep N g0 true) (Sany N g0 true) sh coin SH HM)|reflexivity|reflexivity|apply blind_matrix_sampled|intros _; exact HP].
      * eapply gstep_of; [apply (pparallel_good g0 N so SO (Sep N g0 true) (Sany N g0 true) sh' SH' HM)|reflexivity|reflexivity|apply blind_matrix_parallel|intros _; exact HP].
    + intros h F. inversion F as [|? ? Fc F1]; subst. inversion F1 as [|? ? Fp F2]; subst. inversion F2 as [|? ? _ F3]; subst. inversion F3 as [|? ? Fm' _]; subst. assert (Fm := proj2 Fm').
      constructor; [exact Fc|]. constructor; [exact Fp|]. constructor; [|constructor; [|constructor]].
      * split; [reflexivity|]. intros k Q. exact (sampled_calm so N k sh2 sh' SH2 SH' (Fm k Q) coin2).
      * split; [reflexivity|]. intros k Q. exact (parallel_calm so N k sh2' sh' SH2' SH' (Fm k Q)).
Qed.
