(* ColliderTest on the finished graph of a run with perfect tests, for C119. *)
From Verif Require Import Base PyDict PyDictFacts Graph GraphSpec GraphFacts GraphInv GraphInv2 GraphQ PathSpec Actions ActionSpec ActionFacts ActionMain Generators GenSpec GenFacts Rules RuleFacts IndepTests Pipeline Parallel
  PipeSpec PipeFacts PipeMain PipeMain2 Construct ConstructSpec ConstructFacts Dag DagFacts DagSep SkelSpec SkelFacts SkelStart SkelSteps SkelMatrix SkelMain Schedules SkelMain2 DsepDec Ideal SkelTop
  Serve Rows OrientSpec OrientGraph LoopFacts OrientMain OrientTop ConflictSpec ConflictFacts RecolliderSpec RecolliderFacts.
Open Scope string_scope.
Open Scope list_scope.
Open Scope nat_scope.

(* ---- the orientation phase and the effect step leave the recorded removals alone ---- *)
Definition same_record (g1 g : graph) : Prop := WF g /\ (forall p, removals (history g p) = removals (history g1 p)) /\ rows_le g1 g.
Definition late_acts : list taction := [REMOVE_EDGE_DIRECTED; DO_NOTHING; UPDATE_EDGE_DIRECTED].
Definition late (i : tresult) : Prop := In (t_act i) late_acts.
Lemma record_act g1 i : late i -> keeps (same_record g1) anyE (apply_action i) (fun _ _ => True).
Proof.
  intros Q g (W & H & R). assert (Mo := mono_action i g). destruct (apply_action i g) as [g' r] eqn:E. destruct (apply_action_spec g i g' r W E) as (W' & _ & _ & S). cbn [fst snd] in *.
  split; [|destruct r; exact Logic.I]. split; [exact W'|]. split; [|exact (rows_trans _ _ _ R Mo)]. intros p. rewrite <- H. unfold late, late_acts in Q. destruct r as [[]|e].
  - destruct S as (_ & _ & _ & L). rewrite (L p). unfold removals. rewrite filter_app. destruct (mem p (action_pairs i)); [|apply app_nil_r]. cbn [filter].
    assert (X : taction_eqb (t_act i) REMOVE_EDGE_UNDIRECTED = false) by (destruct Q as [<-|[<-|[<-|[]]]]; reflexivity). rewrite X. apply app_nil_r.
  - destruct S as [-> _]. reflexivity.
  - rewrite (proj2 (proj2 S)); [reflexivity|]. intros A. rewrite A in Q. destruct Q as [Q|[Q|[Q|[]]]]; discriminate.
Qed.
Lemma record_purge g1 : keeps (same_record g1) anyE purge_soft_deleted_edges (fun _ _ => True).
Proof.
  intros g (W & H & R). assert (Mo := mono_purge g). destruct (purge_ok g W) as (g' & E & W' & _ & _ & Eh & _). rewrite E in *. cbn [fst snd] in *. split; [|exact Logic.I].
  split; [exact W'|]. split; [|exact (rows_trans _ _ _ R Mo)]. intros p. unfold history in *. rewrite Eh. apply H.
Qed.
Lemma record_log g1 g h : same_record g1 g -> same_record g1 (with_ahist g h).
Proof. intros (W & H & R). split; [apply WF_ahist; exact W|]. split; [exact H|exact R]. Qed.
Lemma record_step g1 P s l : act_in l s -> (forall a, In a l -> In a late_acts) -> s_parallel s = false -> step_keeps (same_record g1) anyE P no_hooks late false s.
Proof.
  intros A L Np. apply (keeps_step (same_record g1) anyE late no_hooks (no_hooks_good _ _ _) false (fun _ => record_act g1) anyA P s); [rewrite Np; discriminate|].
  split; [|apply (any_step _ s)]. intros g ns us _ _ _. unfold call. destruct (s_proc s g ns _) as [o|e] eqn:E; [|exact Logic.I]. apply Forall_forall. intros i Hi. apply L. exact (A _ _ _ _ _ E Hi).
Qed.
Lemma record_kept fuel P so N g : WF g -> same_record g (fst (execute_pipeline fuel P no_hooks (orientation_rules so ++ [PStep (effect_step N)]) g)).
Proof.
  intros W. assert (K : keeps (same_record g) anyE (execute_pipeline fuel P no_hooks (orientation_rules so ++ [PStep (effect_step N)])) (fun _ _ => True)).
  { assert (In2 : forall a, In a [REMOVE_EDGE_DIRECTED; DO_NOTHING] -> In a late_acts) by (intros a [<-|[<-|[]]]; cbn; auto).
    assert (In1 : forall a, In a [UPDATE_EDGE_DIRECTED] -> In a late_acts) by (intros a [<-|[]]; cbn; auto).
    apply keeps_pipeline. unfold orientation_rules. cbn [app]. constructor; [|constructor; [|constructor; [|constructor]]].
    - eapply keeps_pstep_plain; [apply record_log|eapply record_step; [apply collider_acts; discriminate|exact In2|reflexivity]|apply record_purge].
    - eapply keeps_pstep_loop with (Q := late); [apply record_log| |exact Logic.I|intros; exact Logic.I]. unfold orientation_steps.
      constructor; [eapply record_step; [apply non_collider_acts|exact In2|reflexivity]|]. constructor; [eapply record_step; [apply triple_acts|exact In2|reflexivity]|].
      constructor; [eapply record_step; [apply quadruple_acts|exact In2|reflexivity]|]. constructor; [eapply record_step; [apply further_quadruple_acts|exact In2|reflexivity]|]. constructor.
    - eapply keeps_pstep_plain; [apply record_log|eapply record_step; [apply effect_acts|exact In1|reflexivity]|apply record_purge]. }
  apply K. split; [exact W|]. split; [reflexivity|apply rows_refl].
Qed.

(* ---- the finished graph ---- *)
Record finished (g0 : graph) (D : list (id * id)) (g : graph) : Prop := {
  fi_wf : WF g;
  fi_nodes : nodes g = nodes g0;
  fi_pattern : meek_pattern g D;
  fi_clean : forall u v, directed_edge_is_soft_deleted g u v = false;
  fi_rows : forall u v, SkelFacts.node g0 u -> SkelFacts.node g0 v -> u <> v -> dmem (edges g) u = true;
  fi_adj : forall u v, adjacent (edge_in D) u v -> removals (history g (u, v)) = [];
  fi_gone : forall u v, SkelFacts.node g0 u -> SkelFacts.node g0 v -> u <> v -> ~ adjacent (edge_in D) u v ->
    exists a b S, removals (history g (u, v)) = [separated a b S] /\ good_sep g0 D u v S }.
Lemma finish_facts fuel P so d g0 D N c sk s g1 g : start_graph d = Ok g0 -> dag_over (dkeys (nodes g0)) D -> set_order so ->
  List.length (nodes g0) * List.length (nodes g0) + 2 <= fuel ->
  execute_pipeline fuel P no_hooks (sk ++ [PStep s]) g0 = (g1, Ok tt) -> found g0 D c g1 -> Forall (fun p => Forall (par_ok P) (steps_of p)) (sk ++ [PStep s]) ->
  execute_pipeline fuel P no_hooks ((sk ++ [PStep s]) ++ orientation_rules so ++ [PStep (effect_step N)]) g0 = (g, Ok tt) -> finished g0 D g.
Proof.
  intros S0 DG SO FU R F FP Rg. assert (PG := last_purged fuel P sk s g0 g1 (cp_wf _ (complete_start d g0 S0)) FP R).
  destruct (orient_run g0 D so DG SO c N fuel P g1 F PG FU) as (g' & r & Rr & Nn & M & _). assert (Rg2 := Rg). rewrite pipeline_app, R, Rr in Rg. injection Rg as -> ->.
  assert (K := proj1 F). assert (Rec := record_kept fuel P so N g1 (sk_wf _ _ _ _ _ K)). rewrite Rr in Rec. cbn [fst] in Rec. destruct Rec as (W & H & Rw).
  assert (FA := found_adjacent g0 D c DG g1 F). split.
  - exact W.
  - exact Nn.
  - exact M.
  - rewrite (app_assoc (sk ++ [PStep s])) in Rg2. refine (last_purged fuel P _ _ g0 g (cp_wf _ (complete_start d g0 S0)) _ Rg2). apply Forall_app. split; [apply Forall_app; split; [exact FP|]|].
    + unfold orientation_rules. repeat constructor; intros X; discriminate X.
    + repeat constructor; intros X; discriminate X.
  - intros u v Hu Hv Ne. apply Rw. exact (sk_rows _ _ _ _ _ K u v Hu Hv Ne).
  - intros u v A. rewrite H. apply (sk_live _ _ _ _ _ K). apply FA. exact A.
  - intros u v Hu Hv Ne NA. destruct (sk_gone _ _ _ _ _ K u v Hu Hv Ne) as (a & b & S & E & _ & G).
    { destruct (directed_edge_exists g1 u v) eqn:L; [|reflexivity]. apply FA in L. contradiction. }
    exists a, b, S. rewrite H. auto.
Qed.
Theorem perfect_finished fuel P l g0 D N g : perfect_run fuel P l g0 D N -> execute_pipeline fuel P no_hooks l g0 = (g, Ok tt) -> finished g0 D g.
Proof.
  intros [[d S0] DG [c PT] [so [SO A]] FU] R. destruct A as [| |sh sh' coin H1 H2 H3 H4].
  - destruct (pc_found g0 D N c so (complete_start d g0 S0) DG PT SO fuel P) as (g1 & R1 & F).
    apply (finish_facts fuel P so d g0 D N c [PStep (calculate_pearson N); PStep (correlation_step N); PStep (partial_step false N)] (matrix_step so 4 N) g1 g S0 DG SO FU R1 F); [|exact R].
    repeat constructor; intros X; discriminate X.
  - destruct (classic_found g0 D N c so (complete_start d g0 S0) DG PT SO fuel P) as (g1 & R1 & F).
    apply (finish_facts fuel P so d g0 D N c [PStep (calculate_pearson N); PStep (correlation_step N)] (matrix_step so 3 N) g1 g S0 DG SO FU R1 F); [|exact R].
    repeat constructor; intros X; discriminate X.
  - destruct (early_found g0 D N c so (complete_start d g0 S0) DG PT SO sh sh' coin H1 H2 P H3 H4 fuel) as (g1 & R1 & F).
    apply (finish_facts fuel P so d g0 D N c [PStep (calculate_pearson N); PStep (correlation_step N); PStep (partial_step true N); PStep (matrix_step_sampled so sh coin N)] (matrix_step_parallel so sh' N) g1 g S0 DG SO FU R1 F); [|exact R].
    repeat constructor; intros _; exact H3.
Qed.

Section Finished.
Variables (g0 g : graph) (D : list (id * id)) (so : list id -> list id).
Hypothesis DG : dag_over (dkeys (nodes g0)) D.
Hypothesis Fi : finished g0 D g.
Hypothesis SO : set_order so.
Notation E := (edge_in D).
Let Ac := do_acyclic _ _ DG.
Let M := fi_pattern _ _ _ Fi.
Let W := fi_wf _ _ _ Fi.
Lemma fin_clean : clean g.
Proof.
  intros u v e G. assert (Ge : eget g u v = Some e) by (rewrite <- entry_eget; unfold entry; rewrite G; reflexivity). rewrite (dee_val g u v W), Ge.
  assert (S := fi_clean _ _ _ Fi u v). unfold directed_edge_is_soft_deleted in S. unfold eget in Ge. rewrite Ge in S. rewrite S. reflexivity.
Qed.
Lemma fin_node x : In x (dkeys (nodes g)) -> SkelFacts.node g0 x.
Proof. unfold SkelFacts.node. rewrite (fi_nodes _ _ _ Fi). apply dmem_In. Qed.
Lemma fin_rows x y : In (x, y) (node_pairs (dkeys (nodes g))) -> dmem (edges g) x = true /\ dmem (edges g) y = true.
Proof.
  intros H. destruct (pair_nodes g W x y H) as (Hx & Hy & Ne). apply fin_node in Hx. apply fin_node in Hy.
  split; [exact (fi_rows _ _ _ Fi x y Hx Hy Ne)|exact (fi_rows _ _ _ Fi y x Hy Hx (fun e => Ne (eq_sym e)))].
Qed.
Lemma in_removals i u v : In i (history g (u, v)) -> t_act i = REMOVE_EDGE_UNDIRECTED -> In i (removals (history g (u, v))).
Proof. intros H A. apply filter_In. split; [exact H|]. rewrite A. reflexivity. Qed.
Lemma fin_readable x y i : In (x, y) (node_pairs (dkeys (nodes g))) -> In i (history g (x, y)) -> t_act i = REMOVE_EDGE_UNDIRECTED ->
  exists d, t_data i = Some d /\ (dget d "separatedBy" = None \/ exists s, dget d "separatedBy" = Some (MNodes s)).
Proof.
  intros H Hi A. destruct (pair_nodes g W x y H) as (Hx & Hy & Ne). apply fin_node in Hx. apply fin_node in Hy. apply in_removals in Hi; [|exact A].
  destruct (adj_dec D x y) as [Ad|NA]; [rewrite (fi_adj _ _ _ Fi x y Ad) in Hi; destruct Hi|].
  destruct (fi_gone _ _ _ Fi x y Hx Hy Ne NA) as (a & b & S & Er & _). rewrite Er in Hi. destruct Hi as [<-|[]]. eexists. split; [reflexivity|]. right. exists S. reflexivity.
Qed.
Lemma fin_adjacent x y z : adjacent E x y -> ~ in_sepset g x y z.
Proof. intros A (i & d & s & Hi & Ai & _). apply in_removals in Hi; [|exact Ai]. rewrite (fi_adj _ _ _ Fi x y A) in Hi. destruct Hi. Qed.
Lemma fin_apart x y z : SkelFacts.node g0 x -> SkelFacts.node g0 y -> x <> y -> ~ adjacent E x y -> adjacent E x z -> adjacent E y z -> ~ in_sepset g x y z -> vstruct D x z y.
Proof.
  intros Hx Hy Ne NA A1 A2 Ns. destruct (fi_gone _ _ _ Fi x y Hx Hy Ne NA) as (a & b & S & Er & (_ & _ & _ & Ds)).
  assert (Nxz : x <> z) by (intros ->; exact (NA (adjacent_sym _ _ _ A2))). assert (Nzy : z <> y) by (intros ->; exact (NA A1)).
  assert (NS : ~ In z S).
  { intros H. apply Ns. exists (separated a b S). eexists. exists S. split; [|split; [reflexivity|split; [reflexivity|split; [reflexivity|exact H]]]].
    assert (Q : In (separated a b S) (removals (history g (x, y)))) by (rewrite Er; left; reflexivity). apply filter_In in Q. exact (proj1 Q). }
  assert (CC : collider E x z y \/ ~ collider E x z y) by (unfold collider; destruct (edge_dec D x z), (edge_dec D y z); tauto).
  destruct CC as [[E1 E2]|NC]; [repeat split; auto|]. exfalso. exact (sep_non_collider E x z y _ Ne Nxz Nzy A1 (adjacent_sym _ _ _ A2) NC Ds NS).
Qed.
Lemma fin_kinds x y : adjacent E x y -> one_way g x y \/ one_way g y x \/ two_way g x y.
Proof.
  intros A. apply (mp_adj D Ac g M) in A. rewrite edge_exists_or in A. unfold one_way, two_way, only_directed_edge_exists, undirected_edge_exists.
  destruct (directed_edge_exists g x y), (directed_edge_exists g y x); cbn; auto; discriminate.
Qed.
Lemma fin_two_sym x y : two_way g x y -> two_way g y x.
Proof. unfold two_way, undirected_edge_exists. rewrite !andb_true_iff. tauto. Qed.
Lemma fin_live x z : directed_edge_exists g x z = true -> one_way g x z \/ two_way g x z.
Proof. unfold one_way, two_way, only_directed_edge_exists, undirected_edge_exists. intros ->. destruct (directed_edge_exists g z x); cbn; auto. Qed.
(* an arrow into one end of a two-way edge *)
Definition arrow_at_line : Prop := exists x y z, one_way g x y /\ two_way g y z.
Lemma fin_trigger : (exists x z y, taken_for_collider g x z y /\ (two_way g x z \/ two_way g y z)) <-> arrow_at_line.
Proof.
  assert (MC := mp_closed D Ac g M). assert (LA : forall a b, directed_edge_exists g a b = true -> adjacent E a b) by (intros a b L; apply M in L; exact (proj1 L)). split.
  - intros (x & z & y & (Hp & U & L1 & L2 & Ns) & T). destruct (pair_nodes g W x y Hp) as (Hx & Hy & Ne). apply fin_node in Hx. apply fin_node in Hy.
    destruct (adj_dec D x y) as [A|NA].
    + assert (X : forall a b, one_way g a b -> directed_edge_exists g a z = true -> directed_edge_exists g b z = true -> two_way g a z \/ two_way g b z -> arrow_at_line).
      { intros a b O La Lb [Ta|Tb]; [|exists a, b, z; auto]. destruct (fin_live b z Lb) as [Ob|Tb]; [|exists a, b, z; auto]. destruct (mc_2 _ MC a b z O Ob Ta). }
      destruct (fin_kinds x y A) as [O|[O|T2]]; [exact (X x y O L1 L2 T)|apply (X y x O L2 L1); tauto|]. unfold two_way in T2. congruence.
    + exfalso. destruct (mp_vs D Ac g M x z y (fin_apart x y z Hx Hy Ne NA (LA _ _ L1) (LA _ _ L2) Ns)) as (O1 & O2 & _).
      assert (Q : forall a b, one_way g a b -> ~ two_way g a b).
      { intros a b. unfold one_way, two_way, only_directed_edge_exists, undirected_edge_exists. rewrite !andb_true_iff, negb_true_iff. intros [_ A] [_ B]. congruence. }
      destruct T as [T|T]; [exact (Q _ _ O1 T)|exact (Q _ _ O2 T)].
  - intros (x & y & z & O & T). assert (O' := O). unfold one_way, only_directed_edge_exists in O'. apply andb_true_iff in O'. destruct O' as [Lxy Nyx]. apply negb_true_iff in Nyx.
    assert (T' := T). unfold two_way, undirected_edge_exists in T'. apply andb_true_iff in T'. destruct T' as [Lyz Lzy].
    assert (Nxz : x <> z) by (intros ->; congruence).
    assert (Axz : edge_exists g x z = true). { destruct (edge_exists g x z) eqn:Ee; [reflexivity|]. destruct (mc_1 _ MC x y z O T Nxz Ee). }
    assert (Lxz : directed_edge_exists g x z = true).
    { apply (mp_ee D Ac g M) in Axz. destruct (fin_kinds x z Axz) as [K|[K|K]]; [unfold one_way, only_directed_edge_exists in K; apply andb_true_iff in K; tauto| |unfold two_way, undirected_edge_exists in K; apply andb_true_iff in K; tauto].
      destruct (mc_2 _ MC z x y K O (fin_two_sym _ _ T)). }
    destruct (live_entry _ _ _ W Lxy) as (e & Ge & _). destruct (wf_fwd _ W _ _ _ Ge) as (Hx & Hy & Ne & _). apply dmem_In in Hx. apply dmem_In in Hy.
    assert (Uxy : undirected_edge_exists g x y = false) by (unfold undirected_edge_exists; rewrite Nyx; apply andb_false_r).
    assert (Uyx : undirected_edge_exists g y x = false) by (unfold undirected_edge_exists; rewrite Nyx; reflexivity).
    assert (Pr : In (x, y) (node_pairs (dkeys (nodes g))) \/ In (y, x) (node_pairs (dkeys (nodes g)))).
    { clear -Hx Hy Ne. induction (dkeys (nodes g)) as [|a l IH]; [destruct Hx|]. cbn [node_pairs]. rewrite !in_app_iff. destruct Hx as [->|Hx].
      - destruct Hy as [<-|Hy]; [congruence|]. left. left. apply in_map_iff. eauto.
      - destruct Hy as [->|Hy]; [right; left; apply in_map_iff; eauto|]. destruct (IH Hx Hy) as [H|H]; auto. }
    destruct Pr as [Pr|Pr]; [exists x, z, y|exists y, z, x]; (split; [|tauto]).
    + repeat (split; [assumption|]). apply fin_adjacent. exact (LA _ _ Lxy).
    + repeat (split; [assumption|]). apply fin_adjacent. apply adjacent_sym. exact (LA _ _ Lxy).
Qed.
Theorem fin_main fuel P : exists g', run_pstep fuel P no_hooks (PStep (collider_step KEEP_FIRST so)) g = (g', Ok tt) /\
  (forall a b, edge_exists g' a b = edge_exists g a b) /\ (forall a b, one_way g a b -> one_way g' a b) /\ ((exists a b, new_arrow g g' a b) <-> arrow_at_line).
Proof.
  destruct (rc_main g W fin_clean fin_rows fin_readable so SO fuel P) as (g' & R & A & B & _ & C). exists g'. split; [exact R|]. split; [exact A|]. split; [exact B|]. rewrite C. exact fin_trigger.
Qed.
End Finished.
