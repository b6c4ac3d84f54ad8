(* Pipelines put together from the shipped steps, for C126. *)
From Verif Require Import Base PyDict PyDictFacts Graph GraphSpec GraphFacts GraphInv GraphInv2 GraphQ PathSpec Actions ActionSpec ActionFacts ActionMain Generators GenSpec GenFacts Rules RuleFacts IndepTests Pipeline Parallel
  PipeSpec PipeFacts PipeMain PipeMain2 Construct ConstructSpec Dag SkelSpec Rows Serve SkelFacts SkelStart SkelSteps SkelMatrix SkelMain OrientSpec OrientGraph LoopFacts OrientMain TotalSpec TotalFacts TotalMain
  RecolliderMain ArrangeSpec.
Open Scope string_scope.
Open Scope list_scope.
Open Scope nat_scope.

Section Arrange.
Variables (fuel : nat) (P : runner) (so : list id -> list id) (N : numerics) (g0 : graph).
Hypothesis CP : complete g0.
Hypothesis SO : set_order so.
Notation sk := (skel g0 [] (corr g0 N) (good_sep g0 [])).
Notation E := (raised N).
Notation Q := (proposal g0 (good_sep g0 [])).
Notation oriented := (oriented_graph g0).

(* ---- tests ---- *)
Lemma test_pool s : conditional_test P so N s -> s_parallel s = true -> pool_runner no_hooks P.
Proof. intros T. destruct T as [|HP|min Hm|sh coin Hs HP|sh Hs HP]; cbn; intros Hd; try discriminate Hd; assumption. Qed.
Lemma test_good s : conditional_test P so N s -> exists A, good_step sk E Q A s.
Proof.
  intros T. destruct T as [|HP|min Hm|sh coin Hs HP|sh Hs HP]; eexists.
  - apply (partial_goodstep g0 N false).
  - apply (partial_goodstep g0 N true).
  - apply (matrix_goodstep g0 N so SO min Hm).
  - apply (sampled_goodstep g0 N so SO sh coin Hs).
  - apply (parallel_goodstep g0 N so SO sh Hs).
Qed.
Lemma test_phase s g : conditional_test P so N s -> sk g -> wp E (run_pstep fuel P no_hooks (PStep s)) g sk.
Proof. intros T K. destruct (test_good s T) as (A & G). apply (plain_phase fuel P N g0 s A g (test_pool s T) G K). Qed.
Lemma test_dry g s : sk g -> conditional_test P so N s -> step_keeps (fun g' => g' = g) E P no_hooks Q true s.
Proof.
  intros K T. destruct (test_good s T) as (A & C & G). intros g1 ->. apply (keeps_step (fun g' => g' = g) E Q no_hooks (no_hooks_good _ _ _) true ltac:(discriminate) A P s (test_pool s T)); [|reflexivity].
  split; [intros g2 ns us ->; exact (C g ns us K)|]. intros g2 ->. eapply Forall_impl; [|exact (G g K)]. intros f Hf g2 ->. exact (Hf g K).
Qed.
Lemma together_phase name l g : sk g -> Forall (step_keeps (fun g' => g' = g) E P no_hooks Q true) l -> wp E (run_pstep fuel P no_hooks (PTogether name l)) g sk.
Proof.
  intros K F. destruct (keeps_inner (fun g' => g' = g) E P no_hooks Q true l F g eq_refl) as [S1 S2]. unfold wp. cbn [run_pstep]. unfold run_together, bind.
  destruct (run_inner P no_hooks true l g) as [g1 [a|e]]; cbn [fst snd] in *; [|exact S2]. subst g1.
  assert (F' : Forall (PipeFacts.goodo Q) (map (fun i => Some [i]) (snd a))).
  { apply Forall_forall. intros o H. apply in_map_iff in H. destruct H as (i & <- & Hi). rewrite Forall_forall in S2. constructor; [auto|constructor]. }
  destruct (keeps_take sk E Q no_hooks (no_hooks_good _ _ _) false (fun _ => t_act g0 N) _ F' g K) as [K2 T2].
  destruct (take_action no_hooks false (map (fun i => Some [i]) (snd a)) g) as [g2 [b|e]]; cbn [fst snd] in *; [|exact T2]. unfold ret, log_step. cbn. apply skel_log; exact K2.
Qed.
Lemma part_phase p g : test_part P so N p -> sk g -> wp E (run_pstep fuel P no_hooks p) g sk.
Proof.
  intros T K. destruct T as [s T|name l T]; [apply test_phase; assumption|]. apply together_phase; [exact K|]. apply Forall_forall. intros s Hs. apply test_dry; auto.
Qed.
Lemma first_phase p g : first_part P so N p -> sk g /\ full g0 g -> wp E (run_pstep fuel P no_hooks p) g sk.
Proof.
  intros T [K L]. destruct T as [|name l T]; [apply corr_phase; auto|]. apply together_phase; [exact K|]. apply Forall_forall. intros s Hs. destruct (T s Hs) as [->|C]; [|apply test_dry; assumption].
  intros g1 ->. apply (corr_total g0 N true P g K L (fun g' => g' = g) eq_refl). discriminate.
Qed.
Lemma parts_phase : forall ts g, (forall t, In t ts -> test_part P so N t) -> sk g -> wp E (execute_pipeline fuel P no_hooks ts) g sk.
Proof.
  induction ts as [|t ts IH]; intros g H K; [exact K|]. eapply wp_cons; [apply part_phase; [apply H; left; reflexivity|exact K]|]. intros g1 K1. apply IH; [intros u Hu; apply H; right; exact Hu|exact K1].
Qed.

(* ---- what comes later ---- *)
Definition records (g : graph) : Prop := forall x y, node g0 x -> node g0 y -> x <> y -> exists S, separators (removals (history g (x, y))) = Ok S.
Definition ready (g : graph) : Prop := oriented g /\ records g.
Lemma history_read g x y : retrieve_edge_history g x y (Some REMOVE_EDGE_UNDIRECTED) = Ok (removals (history g (x, y))).
Proof. unfold retrieve_edge_history, history, removals. destruct (dget (ehist g) (x, y)); reflexivity. Qed.
Lemma sk_ready g : sk g -> ready g.
Proof.
  intros K. split; [apply (sk_o g0 N g K)|]. intros x y Hx Hy Ne. destruct (sep_hist g0 N g x y K Hx Hy Ne) as (acts & S & R & Es). rewrite history_read in R. injection R as <-. eauto.
Qed.
Lemma ready_same g g' : ready g -> oriented g' -> same_record g g' -> ready g'.
Proof. intros [_ R] O (_ & H & _). split; [exact O|]. intros x y Hx Hy Ne. rewrite H. apply R; assumption. Qed.
Lemma ready_log g h : ready g -> ready (with_ahist g h).
Proof. intros [O R]. split; [apply o_log, O|exact R]. Qed.
Lemma same_start g : ready g -> same_record g g.
Proof. intros [O _]. split; [exact (o_wf _ _ O)|]. split; [reflexivity|apply rows_refl]. Qed.
Lemma ready_purge g : ready g -> wp E purge_soft_deleted_edges g ready.
Proof.
  intros R. assert (W := o_purge g0 N g (proj1 R)). destruct (record_purge g g (same_start g R)) as [S _]. unfold wp in *. destruct (purge_soft_deleted_edges g) as [g' [u|e]]; cbn [fst snd] in *; [|exact W]. eapply ready_same; eassumption.
Qed.
Lemma item_late i : orient_item i -> late i.
Proof. intros [H|H]; unfold late, late_acts; rewrite H; cbn; auto. Qed.
Lemma ready_take rs g : ready g -> Forall (fun o => Forall orient_item (items_of o)) rs -> exists g' a, take_action no_hooks false rs g = (g', Ok a) /\ ready g'.
Proof.
  intros R F. destruct (take_total g0 rs g (proj1 R) F) as (g' & a & T & O). exists g', a. split; [exact T|].
  assert (F' : Forall (PipeFacts.goodo late) rs) by (eapply Forall_impl; [|exact F]; intros o Ho; eapply Forall_impl; [|exact Ho]; intros i; apply item_late).
  destruct (keeps_take (same_record g) anyE late no_hooks (no_hooks_good _ _ _) false (fun _ => record_act g) rs F' g (same_start g R)) as [S _]. rewrite T in S. cbn [fst] in S. eapply ready_same; eassumption.
Qed.
Lemma late_call g us x y : ready g -> node g0 x -> node g0 y -> x <> y -> exists o, call (collider_step KEEP_FIRST so) g [x; y] (Some us) = Ok o.
Proof.
  intros [O R] Hx Hy Ne. unfold call. cbn -[node_at collider_test]. unfold collider_test. rewrite (o_at g0 g O [x; y] 0 x eq_refl Hx), (o_at g0 g O [x; y] 1 y eq_refl Hy). cbn [rbind].
  destruct (undirected_edge_exists g x y); [eauto|]. destruct (o_common g0 so SO g O x y Hx Hy Ne) as (zs & -> & Hz). cbn [rbind]. rewrite history_read. cbn [rbind]. destruct (R x y Hx Hy Ne) as (S & Es).
  assert (Q1 : exists rs, rflat (collider_body KEEP_FIRST (Some us) (removals (history g (x, y))) g x y) zs = Ok rs).
  { clear - Hz Es O. induction zs as [|z zs IH]; cbn [rflat]; [eauto|]. destruct (coll_body g0 us _ S g x y z (Hz z (or_introl eq_refl)) (o_nodes _ _ O) Es) as (rs & ->).
    destruct (IH (fun z' h => Hz z' (or_intror h))) as (rs' & ->). cbn. eauto. }
  destruct Q1 as (rs & ->). cbn. eauto.
Qed.
Lemma late_collect g : ready g -> forall l local, (forall ns, In ns l -> pair_ok g0 ns) -> Forall (fun o => Forall orient_item (items_of o)) local ->
  exists os, collect (collider_step KEEP_FIRST so) g (map Generators.One l) local = Ok os /\ Forall (fun o => Forall orient_item (items_of o)) os.
Proof.
  intros R. induction l as [|ns l IH]; intros local Hl Fl; cbn [map collect as_args rbind]; [eauto|].
  destruct (Hl ns (or_introl eq_refl)) as (x & y & -> & Hx & Hy & Ne). destruct (late_call g local x y R Hx Hy Ne) as (o & Co). rewrite Co. cbn [rbind].
  apply IH; [intros n h; apply Hl; right; exact h|]. apply Forall_app. split; [exact Fl|]. constructor; [|constructor]. apply Forall_forall. intros i Hi.
  destruct (collider_acts KEEP_FIRST so ltac:(discriminate) g [x; y] (Some local) o i Co Hi) as [A|[A|[]]]; [right|left]; symmetry; exact A.
Qed.
(* what a step proposes *)
Lemma late_step s dry g : In s (collider_step KEEP_FIRST so :: orientation_steps so) -> ready g ->
  exists os, execute_step P no_hooks s dry g = take_action no_hooks dry os g /\ Forall (fun o => Forall orient_item (items_of o)) os.
Proof.
  intros [<-|Hs] R.
  - assert (Pl : plain_step (collider_step KEEP_FIRST so)) by (repeat split).
    assert (Gen : gen_run (s_gen (collider_step KEEP_FIRST so) g) g = Ok (map Generators.One (all_combinations (mkCS 2 2) g))) by (cbn; rewrite app_nil_r; reflexivity).
    destruct (late_collect g R (all_combinations (mkCS 2 2) g) []) as (os & Q1 & F); [intros ns H; apply (pairs_ok g0 g (o_wf _ _ (proj1 R)) (o_nodes _ _ (proj1 R)) ns H)|constructor|].
    exists os. split; [|exact F]. rewrite (plain_unfold dry _ Pl P g _ Gen), Q1. reflexivity.
  - assert (RS := orientation_rules_ok so). rewrite Forall_forall in RS. specialize (RS s Hs).
    destruct (rmap_ok (fun ns => call s g ns None) (fun o => Forall orient_item (items_of o)) (pairs_of g)) as (os & Eo & Fo).
    { intros ns Hns. destruct (pairs_ok g0 g (o_wf _ _ (proj1 R)) (o_nodes _ _ (proj1 R)) ns Hns) as (x & y & -> & Hx & Hy & Ne). destruct (rule_call g0 so SO g (proj1 R) s x y Hs Hx Hy Ne) as (o & Co). exists o. split; [exact Co|].
      apply Forall_forall. intros i Hi. destruct (rs_items _ RS g [x; y] o i Co Hi) as [A|[A _]]; [left|right]; exact A. }
    exists os. split; [|exact Fo]. rewrite (rule_unfold s P dry g RS), Eo. reflexivity.
Qed.
Lemma late_inner : forall l g, (forall s, In s l -> In s (collider_step KEEP_FIRST so :: orientation_steps so)) -> ready g -> exists g' a, run_inner P no_hooks false l g = (g', Ok a) /\ ready g'.
Proof.
  induction l as [|s l IH]; intros g F R; cbn [run_inner].
  - eexists _, _. split; [reflexivity|exact R].
  - destruct (late_step s false g (F s (or_introl eq_refl)) R) as (os & X & Fo). destruct (ready_take os g R Fo) as (g1 & a & T & R1). destruct (IH g1 (fun s' h => F s' (or_intror h)) R1) as (g2 & b & T2 & R2).
    unfold bind. rewrite X, T, T2. eexists _, _. split; [reflexivity|exact R2].
Qed.
Lemma late_dry : forall l g, (forall s, In s l -> In s (collider_step KEEP_FIRST so :: orientation_steps so)) -> ready g -> exists a, run_inner P no_hooks true l g = (g, Ok a) /\ Forall orient_item (snd a).
Proof.
  induction l as [|s l IH]; intros g F R; cbn [run_inner].
  - eexists. split; [reflexivity|constructor].
  - destruct (late_step s true g (F s (or_introl eq_refl)) R) as (os & X & Fo). destruct (IH g (fun s' h => F s' (or_intror h)) R) as (b & T2 & F2).
    unfold bind. rewrite X, take_action_dry, T2. eexists. split; [reflexivity|]. cbn [snd fst]. apply Forall_app. split; [|exact F2]. apply Forall_forall. intros i Hi. apply in_flat_map in Hi. destruct Hi as (o & Ho & Hi). rewrite Forall_forall in Fo. specialize (Fo o Ho). rewrite Forall_forall in Fo. auto.
Qed.
Lemma late_loop l : (forall s, In s l -> In s (orientation_steps so)) -> forall f n last g, ready g -> (0 < n -> exists t, last = Some t) ->
  exists g' r, run_loop f P no_hooks exit_on_no_actions l n last g = (g', r) /\ ready g' /\ (r = Err OutOfFuel \/ exists hs, r = Ok hs).
Proof.
  intros Hl. induction f as [|f IH]; intros n last g R Hn; cbn [run_loop].
  - exists g, (Err OutOfFuel). split; [reflexivity|auto].
  - unfold bind at 1. assert (X : exists stop, exit_on_no_actions n last = Ok stop).
    { unfold exit_on_no_actions. destruct n; cbn; [eauto|]. destruct (Hn ltac:(lia)) as (t & ->). eauto. }
    destruct X as (stop & ->). cbn [liftr]. unfold ret at 1. destruct stop.
    + exists g, (Ok []). split; [reflexivity|]. split; [exact R|right; eauto].
    + destruct (late_inner l g (fun s h => or_intror (Hl s h)) R) as (g1 & a & R1 & O1). unfold bind at 1. rewrite R1. destruct (IH (S n) (Some (snd a)) g1 O1 ltac:(eauto)) as (g2 & r & R2 & O2 & Hr).
      unfold bind at 1. rewrite R2. destruct Hr as [->|[hs ->]].
      * exists g2, (Err OutOfFuel). split; [reflexivity|auto].
      * eexists g2, (Ok _). split; [reflexivity|]. split; [exact O2|right; eauto].
Qed.
Lemma effect_ready g : ready g -> wp E (execute_step P no_hooks (effect_step N) false) g ready.
Proof.
  intros R. assert (O := proj1 R).
  destruct (eff_step_keeps g0 N g P g) as [(W & Nn & L & M) X]; [split; [exact (o_wf _ _ O)|split; [exact (o_nodes _ _ O)|split; [reflexivity|exact (o_meta _ _ O)]]]|].
  assert (In1 : forall a, In a [UPDATE_EDGE_DIRECTED] -> In a late_acts) by (intros a [<-|[]]; cbn; auto).
  destruct (record_step g P (effect_step N) [UPDATE_EDGE_DIRECTED] (effect_acts N) In1 eq_refl g (same_start g R)) as [S _].
  unfold wp. destruct (execute_step P no_hooks (effect_step N) false g) as [g' [a|e]]; cbn [fst snd] in *; [|destruct X as (xs & zs & ys & X); eapply raised_effect; exact X].
  apply (ready_same g g' R); [|exact S]. split; [exact W|exact Nn| |exact M]. intros u v Hu Hv Ne. destruct S as (_ & _ & Rl). apply Rl. exact (o_rows _ _ O u v Hu Hv Ne).
Qed.
Hypothesis Fu : List.length (nodes g0) * List.length (nodes g0) + 2 <= fuel.
Lemma late_phase p g : late_part so N p -> ready g -> wp E (run_pstep fuel P no_hooks p) g ready.
Proof.
  intros L R. destruct L as [s Hs|name l Hl|name l Hl|].
  - apply wp_pstep with (R := ready); [|apply ready_log|apply ready_purge]. destruct (late_step s false g Hs R) as (os & X & F). unfold wp. rewrite X. destruct (ready_take os g R F) as (g' & a & -> & R'). exact R'.
  - destruct (late_loop l Hl fuel 0 None g R ltac:(lia)) as (g3 & r3 & R3 & O3 & H3).
    assert (RS : Forall rule_step l). { apply Forall_forall. intros s Hs. assert (A := orientation_rules_ok so). rewrite Forall_forall in A. apply A, Hl, Hs. }
    destruct (loop_run P l RS fuel 0 None g g3 r3 (o_wf _ _ (proj1 R)) ltac:(lia) R3) as [_ L3]. unfold wp. cbn [run_pstep]. unfold bind. rewrite R3. destruct H3 as [->|[hs ->]].
    + exfalso. apply L3; [|reflexivity]. unfold need. assert (B := live_count_bound g). rewrite (o_nodes _ _ (proj1 R)) in B. lia.
    + cbn. apply ready_log, O3.
  - unfold wp. cbn [run_pstep]. unfold run_together, bind. destruct (late_dry l g Hl R) as (a & -> & F).
    destruct (ready_take (map (fun i => Some [i]) (snd a)) g R) as (g' & b & -> & R').
    { apply Forall_forall. intros o H. apply in_map_iff in H. destruct H as (i & <- & Hi). rewrite Forall_forall in F. constructor; [auto|constructor]. }
    cbn. apply ready_log, R'.
  - apply wp_pstep with (R := ready); [apply effect_ready, R|apply ready_log|apply ready_purge].
Qed.
Lemma lates_phase : forall ls g, (forall p, In p ls -> late_part so N p) -> ready g -> wp E (execute_pipeline fuel P no_hooks ls) g ready.
Proof.
  induction ls as [|p ls IH]; intros g H R; [exact R|]. eapply wp_cons; [apply late_phase; [apply H; left; reflexivity|exact R]|]. intros g1 R1. apply IH; [intros u Hu; apply H; right; exact Hu|exact R1].
Qed.
Lemma arranged_total l : arranged P so N l -> wp E (execute_pipeline fuel P no_hooks l) g0 ready.
Proof.
  intros A. destruct A as [fs ts ls Hf Ht Hl]. eapply wp_cons; [apply (pearson_phase g0 N CP fuel P)|]. intros g1 K1. eapply wp_app with (R := sk).
  - destruct Hf as [->|(f & -> & Hf)]; [exact (proj1 K1)|]. eapply wp_cons; [apply first_phase; eassumption|]. intros g2 K2. exact K2.
  - intros g2 K2. eapply wp_app; [apply parts_phase; eassumption|]. intros g3 K3. apply lates_phase; [exact Hl|apply sk_ready, K3].
Qed.
End Arrange.
