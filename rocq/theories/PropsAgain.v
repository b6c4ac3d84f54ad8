(* Executing a finished model a second time: C107. *)
From Verif Require Import Base PyDict PyDictFacts Graph GraphSpec GraphFacts GraphInv GraphInv2 GraphQ PathSpec Actions ActionSpec ActionFacts ActionMain Generators GenSpec GenFacts Rules IndepTests Pipeline Parallel
  PipeSpec PipeFacts PipeMain PipeMain2 GraphCheck Construct ConstructFacts Dag SkelSpec Serve SkelFacts SkelStart SkelSteps Toy TotalSpec TotalFacts TotalMain TestedSpec LoopFacts ColliderFacts NanFacts TestedFacts.
Open Scope string_scope.
Open Scope list_scope.
Open Scope nat_scope.

(* ---- a run keeps the columns ---- *)
Definition WFn (n : dict id Graph.node) (g : graph) : Prop := WF g /\ nodes g = n.
Lemma act_n n i : keeps (WFn n) anyE (apply_action i) (fun _ _ => True).
Proof.
  intros g [W Hn]. destruct (apply_action i g) as [g' r] eqn:R. destruct (apply_action_spec g i g' r W R) as (W' & _ & Nn & _). cbn [fst snd].
  split; [split; [exact W'|congruence]|]. destruct r; exact Logic.I.
Qed.
Lemma purge_n n : keeps (WFn n) anyE purge_soft_deleted_edges (fun _ _ => True).
Proof. intros g [W Hn]. destruct (purge_ok g W) as (g' & R & W' & Nn & _). rewrite R. cbn. split; [split; [exact W'|congruence]|exact Logic.I]. Qed.
Lemma log_n n g h : WFn n g -> WFn n (with_ahist g h).
Proof. intros [W Hn]. split; [apply WF_ahist; exact W|exact Hn]. Qed.
Lemma step_n n P H s dry : pool_runner H P -> step_keeps (WFn n) anyE P H anyQ dry s.
Proof. intros HP. apply (keeps_step (WFn n) anyE anyQ H (any_hooks _ _) dry (fun _ i _ => act_n n i) anyA P s (fun _ => HP) (any_step _ s)). Qed.
Lemma pstep_n n fuel P H p : pool_runner H P -> keeps (WFn n) anyE (run_pstep fuel P H p) (fun _ _ => True).
Proof.
  intros HP. destruct p.
  - eapply keeps_pstep_plain; [intros; apply log_n; assumption|apply step_n; exact HP|apply purge_n].
  - eapply keeps_pstep_loop; [intros; apply log_n; assumption| |exact Logic.I|intros; exact Logic.I]. apply Forall_any. intros; apply (step_n n P H); exact HP.
  - eapply keeps_pstep_together with (Q := anyQ); [intros; apply log_n; assumption|apply any_hooks|intros; apply act_n|]. apply Forall_any. intros; apply step_n; exact HP.
Qed.
Lemma pipeline_n fuel P H l g : pool_runner H P -> WF g -> WFn (nodes g) (fst (execute_pipeline fuel P H l g)).
Proof. intros HP W. assert (K : keeps (WFn (nodes g)) anyE (execute_pipeline fuel P H l) (fun _ _ => True)) by (apply keeps_pipeline; apply Forall_any; intros; apply pstep_n; exact HP). exact (proj1 (K g (conj W eq_refl))). Qed.

(* ---- the first step on any graph ---- *)
Lemma pearson_call N g x y : dmem (nodes g) x = true -> dmem (nodes g) y = true ->
  call (calculate_pearson N) g [x; y] None = rbind (edge_value g x y) (fun ev => rbind (n_pearson N (values_of g x) (values_of g y)) (fun c =>
    match ev with None => Err TypeError | Some m => Ok (Some [mkT x y UPDATE_EDGE (Some (dset m "correlation" (MNum c)))]) end)).
Proof. intros Hx Hy. unfold call, pearson_process. cbn [calculate_pearson s_proc s_unapplied]. unfold pearson_process, node_at. cbn [nth_error]. rewrite Hx, Hy. reflexivity. Qed.
Lemma edge_value_cases g x y : (exists o, edge_value g x y = Ok o) \/ edge_value g x y = Err KeyError.
Proof. unfold edge_value. destruct (negb (edge_exists g x y)); [eauto|]. destruct (dget2 (edges g) x y); eauto. Qed.
Lemma first_step N P g : WF g -> (exists x y, In x (dkeys (nodes g)) /\ In y (dkeys (nodes g)) /\ x <> y /\ edge_exists g x y = false) ->
  (forall x y, ord g x y -> exists c, n_pearson N (values_of g x) (values_of g y) = Ok c) ->
  exists e, (e = TypeError \/ e = KeyError) /\ execute_step P no_hooks (calculate_pearson N) false g = (g, Err e).
Proof.
  intros W (x & y & Hx & Hy & Ne & EE) PF. rewrite pearson_unfold.
  assert (Pc : forall a b, In [a; b] (all_combinations (mkCS 2 2) g) -> dmem (nodes g) a = true /\ dmem (nodes g) b = true /\ exists c, n_pearson N (values_of g a) (values_of g b) = Ok c).
  { intros a b H. destruct (pairs_ok g g W eq_refl _ H) as (a' & b' & E & A & B & _). injection E as <- <-. split; [exact A|]. split; [exact B|]. apply PF. exact H. }
  destruct (rmap (fun ns => call (calculate_pearson N) g ns None) (all_combinations (mkCS 2 2) g)) as [os|e] eqn:R.
  - exfalso. destruct (rmap_each _ _ _ R) as [A _].
    assert (No : forall a b, In [a; b] (all_combinations (mkCS 2 2) g) -> edge_exists g a b = true).
    { intros a b H. destruct (A _ H) as (o & Co & _). destruct (Pc a b H) as (Ha & Hb & c & Ec). rewrite (pearson_call N g a b Ha Hb), Ec in Co.
      unfold edge_value in Co. destruct (edge_exists g a b); [reflexivity|discriminate]. }
    assert (Sy : edge_exists g y x = edge_exists g x y) by (rewrite !edge_exists_or; apply orb_comm).
    destruct (pairs_In g g x y W eq_refl (proj2 (dmem_In _ _) Hx) (proj2 (dmem_In _ _) Hy) Ne) as [H|H]; apply No in H; congruence.
  - exists e. split; [|reflexivity]. destruct (rmap_err _ _ _ R) as (ns & Hns & Co). destruct (pairs_ok g g W eq_refl _ Hns) as (a & b & -> & _).
    destruct (Pc a b Hns) as (Ha & Hb & c & Ec). rewrite (pearson_call N g a b Ha Hb), Ec in Co. destruct (edge_value_cases g a b) as [(o & Ev)|Ev]; rewrite Ev in Co; cbn [rbind] in Co; [destruct o; [discriminate|]|]; injection Co as <-; auto.
Qed.

(* C107: once an edge is missing, executing the steps again fails in the first step and changes nothing *)
Theorem C107_again : forall fuel fuel' P P' so N sks l d g0 g, start_graph d = Ok g0 -> pool_runner no_hooks P -> pc_algorithm P so N sks l ->
  execute_pipeline fuel P no_hooks l g0 = (g, Ok tt) ->
  (exists x y, In x (dkeys (nodes g0)) /\ In y (dkeys (nodes g0)) /\ x <> y /\ edge_exists g x y = false) ->
  exists e, (e = TypeError \/ e = KeyError) /\ execute_pipeline fuel' P' no_hooks l g = (g, Err e).
Proof.
  intros fuel fuel' P P' so N sks l d g0 g S0 HP A R M. assert (CP := complete_start d g0 S0).
  assert (X := pipeline_n fuel P no_hooks l g0 HP (cp_wf _ CP)). rewrite R in X. destruct X as [W Nn]. cbn [fst] in W, Nn.
  assert (L : exists r, l = PStep (calculate_pearson N) :: r) by (destruct A; eexists; reflexivity). destruct L as (r & ->).
  assert (PF : forall x y, ord g x y -> exists c, n_pearson N (values_of g x) (values_of g y) = Ok c).
  { intros x y B. unfold ord in B. rewrite (same_combs g0 (mkCS 2 2) g Nn) in B. unfold values_of. rewrite Nn. cbn [execute_pipeline] in R. unfold bind in R.
    assert (D := pearson_done fuel P N g0 CP). unfold wp in D. destruct (run_pstep fuel P no_hooks (PStep (calculate_pearson N)) g0) as [g1 [u|e]]; [|discriminate].
    eexists. exact (proj2 D x y B). }
  rewrite <- Nn in M. destruct (first_step N P' g W M PF) as (e & He & Rs). exists e. split; [exact He|]. cbn [execute_pipeline run_pstep]. unfold bind. rewrite Rs. reflexivity.
Qed.
Print Assumptions C107_again.
(* Two runs of PC over the table of a - b - c, a and c independent given b.  The first ends well, the second
   fails; on three variables that are all dependent both runs end well. *)
Definition names3 : list string := ["a"; "b"; "c"].
Definition chain3 : numerics := toy (table_ci [(1, 3, [2])]%Z).
Definition dense3 : numerics := toy (table_ci []).
Definition twice (N : numerics) : graph * res unit :=
  let '(g, _) := execute_pipeline 20 (batch_runner no_hooks) no_hooks (pc dedup N) (toy_start names3) in
  execute_pipeline 20 (batch_runner no_hooks) no_hooks (pc dedup N) g.
Example C107_nonvacuous : exists g, start_graph (DDict (toy_table names3)) = Ok (toy_start names3) /\ pool_runner no_hooks (batch_runner no_hooks) /\
  pc_algorithm (batch_runner no_hooks) dedup chain3 (pc_skeleton dedup chain3) (pc dedup chain3) /\
  execute_pipeline 20 (batch_runner no_hooks) no_hooks (pc dedup chain3) (toy_start names3) = (g, Ok tt) /\
  edge_exists g "a" "c" = false /\ edge_exists g "a" "b" = true /\ snd (twice dense3) = Ok tt /\ edge_exists (fst (twice dense3)) "a" "c" = true.
Proof. eexists. split; [vm_compute; reflexivity|]. split; [apply batch_pool|]. split; [constructor|]. do 4 (split; [vm_compute; reflexivity|]). vm_compute; reflexivity. Qed.
Theorem C107_refuted : exists N d g0 g e, start_graph d = Ok g0 /\
  execute_pipeline 20 (batch_runner no_hooks) no_hooks (pc dedup N) g0 = (g, Ok tt) /\
  execute_pipeline 20 (batch_runner no_hooks) no_hooks (pc dedup N) g = (g, Err e).
Proof.
  exists chain3, (DDict (toy_table names3)), (toy_start names3). eexists. exists TypeError. split; [vm_compute; reflexivity|]. split; [vm_compute; reflexivity|]. vm_compute; reflexivity.
Qed.
Print Assumptions C107_refuted.
