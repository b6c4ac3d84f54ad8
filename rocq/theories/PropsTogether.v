(* Steps grouped by ApplyActionsTogether: C118. *)
From Verif Require Import Base PyDict PyDictFacts Graph GraphSpec GraphFacts GraphInv GraphInv2 GraphQ GraphMain Actions ActionSpec ActionFacts ActionMain
  Generators GenSpec Rules IndepTests Pipeline Parallel PipeSpec PipeFacts PipeMain2 RuleFacts Construct ConstructFacts Dag SkelSpec GraphCheck Toy TogetherSpec TogetherFacts.
From Verif Require ColliderFacts.
Open Scope string_scope.
Open Scope list_scope.

(* C118: every step of the group is asked on the graph as it was before the group; only then are the
   actions applied, one after the other *)
Theorem C118_together : forall fuel P name l g g', pool_runner no_hooks P -> run_pstep fuel P no_hooks (PTogether name l) g = (g', Ok tt) ->
  exists aa g1 t, Forall2 (fun s a => execute_step P no_hooks s true g = (g, Ok a)) l aa /\
    take_action no_hooks false (map (fun i => Some [i]) (flat_map fst aa)) g = (g1, Ok t) /\
    g' = with_ahist g1 (ahist g1 ++ [HStep name [] [] (map (fun p => entry_of (fst p) (snd p)) (combine l aa))]).
Proof.
  intros fuel P name l g g' HP R. cbn [run_pstep] in R. unfold run_together, bind in R. assert (X := inner_dry P l g HP). destruct (run_inner P no_hooks true l g) as [g2 [b|e]]; [|discriminate].
  destruct X as [-> (aa & F & ->)]. cbn [fst snd] in R. destruct (take_action no_hooks false (map (fun i => Some [i]) (flat_map fst aa)) g) as [g1 [t|e]] eqn:T; [|discriminate].
  cbn in R. injection R as <-. exists aa, g1, t. split; [exact F|]. split; [exact T|reflexivity].
Qed.
Print Assumptions C118_together.
(* if one of them fails, nothing has been applied *)
Theorem C118_failed : forall fuel P name l1 s l2 g g' e, pool_runner no_hooks P -> (forall s', In s' l1 -> exists a, snd (execute_step P no_hooks s' true g) = Ok a) ->
  execute_step P no_hooks s true g = (g', Err e) -> run_pstep fuel P no_hooks (PTogether name (l1 ++ s :: l2)) g = (g, Err e).
Proof.
  intros fuel P name l1 s l2 g g' e HP Ok1 R. assert (G := step_dry_graph P s g HP). rewrite R in G. cbn [fst] in G. subst g'.
  cbn [run_pstep]. unfold run_together, bind. assert (X : run_inner P no_hooks true (l1 ++ s :: l2) g = (g, Err e)); [|rewrite X; reflexivity].
  induction l1 as [|s1 l1 IH]; cbn [app run_inner]; unfold bind; [rewrite R; reflexivity|]. assert (G1 := step_dry_graph P s1 g HP). destruct (Ok1 s1 (or_introl eq_refl)) as (a & Ea).
  destruct (execute_step P no_hooks s1 true g) as [g1 r1]; cbn [fst snd] in *. subst g1 r1. rewrite (IH (fun s' I => Ok1 s' (or_intror I))). reflexivity.
Qed.
Print Assumptions C118_failed.
(* independence tests that are applied together: neither their order nor the schedule of the worker
   processes matters for the graph *)
Theorem C118_order : forall fuel fuel' P P' name l l' g g', reached g -> pool_runner no_hooks P -> pool_runner no_hooks P' -> Permutation l l' -> (forall s, In s l -> only_removes s) ->
  run_pstep fuel P no_hooks (PTogether name l) g = (g', Ok tt) ->
  exists g'', run_pstep fuel' P' no_hooks (PTogether name l') g = (g'', Ok tt) /\ nodes g'' = nodes g' /\
    (forall u v, entry g'' u v = entry g' u v) /\ forall u v, directed_edge_exists g'' u v = directed_edge_exists g' u v.
Proof.
  intros fuel fuel' P P' name l l' g g' RE HP HP' Pm Or R. assert (W := reached_WF g RE). destruct (C118_together _ _ _ _ _ _ HP R) as (aa & g1 & t & F & T & ->).
  destruct (group_perm P P' g l l' Pm HP HP' aa F) as (aa' & F' & Pg).
  assert (Q : Forall removal (flat_map fst aa)).
  { clear R T Pg F' Pm. revert Or. induction F as [|s a l aa Sa F IH]; intros Or; [constructor|]. cbn. apply Forall_app. split; [|apply IH; intros s' I; apply Or; right; exact I].
    assert (C : good_step (fun _ => True) (fun _ => True) removal (fun _ => True) s).
    { split; [|intros g2 _; apply Forall_forall; intros f _ g3 _; destruct (f g3) as [es|x]; [|exact Logic.I]; apply Forall_forall; intros e _; unfold good_em; destruct (negb (s_parallel s) && s_chunked s); [apply Forall_forall; auto|destruct (as_args e); exact Logic.I]].
      intros g2 ns us _ _ _. destruct (call s g2 ns us) as [o|x] eqn:Ca; [|exact Logic.I]. assert (Z : forall i, In i (items_of o) -> removal i).
      { intros i I. unfold call in Ca. destruct (s_unapplied s); [exact (Or s (or_introl eq_refl) _ _ _ _ _ Ca I)|]. exact (Or s (or_introl eq_refl) _ _ _ _ _ Ca I). }
      unfold goodo. apply Forall_forall. exact Z. }
    assert (X := keeps_step (fun _ => True) (fun _ => True) removal no_hooks (no_hooks_good _ _ _) true ltac:(discriminate) (fun _ => True) P s (fun _ => HP) C g Logic.I).
    rewrite Sa in X. exact (proj1 (proj2 X)). }
  assert (Q' : Forall removal (flat_map fst aa')) by (eapply Permutation_Forall; eassumption).
  destruct (removals_take _ Q g W) as (h & th & Th & Wh & Nh & Ah & Eh). rewrite T in Th. injection Th as <- <-. destruct (removals_take _ Q' g W) as (h' & th' & Th' & Wh' & Nh' & Ah' & Eh').
  eexists. split; [|split; [|split]].
  - cbn [run_pstep]. unfold run_together, bind. assert (X := inner_dry P' l' g HP'). destruct (run_inner P' no_hooks true l' g) as [g2 [b|e]].
    + destruct X as [-> (ab & Fb & ->)]. cbn [fst snd]. assert (ab = aa') as ->.
      { clear -Fb F'. revert ab Fb. induction F' as [|s a l aa Sa F IH]; intros ab Fb; inversion Fb as [|? a' ? aa2 S2 F2]; subst; [reflexivity|]. f_equal; [|apply IH; exact F2]. rewrite Sa in S2. injection S2 as <-. reflexivity. }
      rewrite Th'. cbn. reflexivity.
    + exfalso. destruct X as [-> (l1 & s & l2 & ab & El & _ & Es)]. assert (I : In s l') by (rewrite El; apply in_or_app; right; left; reflexivity). clear -F' Es I.
      induction F' as [|s' a l aa Sa F IH]; [destruct I|]. destruct I as [->|I]; [rewrite Es in Sa; discriminate|exact (IH I)].
  - cbn. congruence.
  - intros u v. change (entry h' u v = entry g1 u v). rewrite Eh, Eh'. symmetry. apply hit_perm; exact Pg.
  - intros u v. change (directed_edge_exists h' u v = directed_edge_exists g1 u v). apply dee_entry; [exact Wh'|exact Wh|]. rewrite Eh, Eh'. symmetry. apply hit_perm; exact Pg.
Qed.
Print Assumptions C118_order.
(* all shipped independence tests are of this kind *)
Theorem C118_tests : forall so sh coin min par N s, In s [correlation_step N; partial_step par N; matrix_step so min N; matrix_step_parallel so sh N; matrix_step_sampled so sh coin N] -> only_removes s.
Proof.
  intros so sh coin min par N s I g ns us o i R Ii. assert (X : act_in [REMOVE_EDGE_UNDIRECTED; DO_NOTHING] s).
  { destruct I as [<-|[<-|[<-|[<-|[<-|[]]]]]]; [apply correlation_acts|apply partial_acts|apply matrix_acts|apply matrix_par_acts|apply matrix_sampled_acts]. }
  destruct (X g ns us o i R Ii) as [E|[E|[]]]; [left|right]; symmetry; exact E.
Qed.
Print Assumptions C118_tests.

(* a - b - c with a and c independent both outright and given b: the three tests of PCStable in two orders *)
Definition both3 : numerics := toy (table_ci [(1, 3, []); (1, 3, [2])]%Z).
Definition abc : list string := ["a"; "b"; "c"].
Definition with_correlations : graph := Eval vm_compute in fst (run_pstep 1 (batch_runner no_hooks) no_hooks (PStep (calculate_pearson both3)) (toy_start abc)).
Lemma with_correlations_reached : reached with_correlations.
Proof.
  assert (E : with_correlations = fst (execute_pipeline 1 (batch_runner no_hooks) no_hooks [PStep (calculate_pearson both3)] (toy_start abc))) by (vm_compute; reflexivity). rewrite E.
  apply ColliderFacts.pipeline_reached; [apply batch_pool|]. apply (start_reached (DDict (toy_table abc))). vm_compute; reflexivity.
Qed.
Definition tests1 : list step := [correlation_step both3; partial_step false both3; matrix_step dedup 4 both3].
Definition tests2 : list step := [partial_step false both3; matrix_step dedup 4 both3; correlation_step both3].
Example C118_nonvacuous : exists g', reached with_correlations /\ pool_runner no_hooks (batch_runner no_hooks) /\ Permutation tests1 tests2 /\ (forall s, In s tests1 -> only_removes s) /\
  run_pstep 1 (batch_runner no_hooks) no_hooks (PTogether "ApplyActionsTogether" tests1) with_correlations = (g', Ok tt) /\
  directed_edge_exists with_correlations "a" "c" = true /\ directed_edge_exists g' "a" "c" = false /\ directed_edge_exists g' "a" "b" = true.
Proof.
  eexists. split; [exact with_correlations_reached|]. split; [apply batch_pool|]. split; [apply (Permutation_app_comm [correlation_step both3])|].
  split; [intros s I; apply (C118_tests dedup (fun _ c => c) (fun _ _ => true) 4 false both3 s); cbn in I |- *; tauto|]. split; [vm_compute; reflexivity|]. do 2 (split; [vm_compute; reflexivity|]). vm_compute; reflexivity.
Qed.
(* a step that fails: the correlations are missing *)
Example C118_failed_nonvacuous : exists e, execute_step (batch_runner no_hooks) no_hooks (partial_step false both3) true (toy_start abc) = (toy_start abc, Ok ([], [])) /\
  execute_step (batch_runner no_hooks) no_hooks (correlation_step both3) true (toy_start abc) = (toy_start abc, Err e).
Proof. eexists. split; vm_compute; reflexivity. Qed.
(* which separating set is recorded does depend on the order, and with it the arrows *)
Definition stable_with (l : list step) : list pstep := [PStep (calculate_pearson both3); PTogether "ApplyActionsTogether" l] ++ orientation_rules dedup.
Theorem C118_arrows_refuted : exists g1 g2, Permutation tests1 tests2 /\
  execute_pipeline 20 (batch_runner no_hooks) no_hooks (stable_with tests1) (toy_start abc) = (g1, Ok tt) /\
  execute_pipeline 20 (batch_runner no_hooks) no_hooks (stable_with tests2) (toy_start abc) = (g2, Ok tt) /\
  directed_edge_exists g1 "b" "a" = false /\ directed_edge_exists g2 "b" "a" = true.
Proof.
  eexists. eexists. split; [apply (Permutation_app_comm [correlation_step both3])|]. split; [vm_compute; reflexivity|]. split; [vm_compute; reflexivity|]. split; vm_compute; reflexivity.
Qed.
Print Assumptions C118_arrows_refuted.
