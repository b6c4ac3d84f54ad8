(* Arrows that known directions force: C131. *)
From Verif Require Import Base PyDict PyDictFacts Graph GraphSpec GraphFacts GraphInv GraphCheck PathSpec Actions Generators IndepTests Rules Pipeline Parallel PipeSpec PipeMain PipeMain2 Construct
  Dag DagFacts DagSep SkelSpec SkelFacts SkelStart SkelTop Schedules OrientSpec OrientGraph OrientTop DsepDec Ideal ArrangeSpec PropsArrange ExtendSpec PropsExtend KnowSpec KnowGraph KnowTop PropsKnow PropsModel PropsTiers ForcedSpec KnowCpdag.
Open Scope string_scope.
Open Scope list_scope.
Open Scope nat_scope.

Lemma known_equiv D D' (K K' : id -> id -> Prop) : equivalent D D' -> (forall x y, K x y -> K' x y) -> forall x y, known D K x y -> known D' K' x y.
Proof.
  intros [A V] S x y H. induction H as [x y H|x z y H|x z y _ H1 H2 H3 H4 H5|x z y _ H1 _ H2 H3|x y w z _ H1 _ H2 H3 H4 H5 H6 H7 H8|x y w z _ H1 _ H2 H3 H4 H5 H6 H7 H8].
  - apply kn_told; auto.
  - apply (kn_v _ _ x z y). apply V; exact H.
  - apply (kn_1 _ _ x z y H1); [apply A; exact H2|exact H3|rewrite <- A; exact H4|rewrite <- V; exact H5].
  - apply (kn_2 _ _ x z y H1 H2). apply A; exact H3.
  - apply (kn_3 _ _ x y w z H1 H2); [apply A; exact H3|apply A; exact H4|apply A; exact H5|exact H6|rewrite <- A; exact H7|rewrite <- V; exact H8].
  - apply (kn_4 _ _ x y w z H1 H2); [apply A; exact H3|apply A; exact H4|apply A; exact H5|exact H6|rewrite <- A; exact H7|rewrite <- V; exact H8].
Qed.
Lemma equivalent_back D D' : equivalent D D' -> equivalent D' D.
Proof. intros [A V]. split; [intros x y; symmetry; apply A|intros x z y; symmetry; apply V]. Qed.
Lemma pattern_forced D D' (K K' : id -> id -> Prop) g : acyclic (edge_in D) -> acyclic (edge_in D') -> equivalent D D' -> (forall x y, K x y -> K' x y) -> (forall x y, K x y -> edge_in D x y) -> (forall x y, K' x y -> edge_in D' x y) ->
  known_pattern D K g -> forall x y, one_way g x y -> edge_in D' x y.
Proof.
  intros Ac Ac' Q S KS KS' M x y O. destruct (edge_dec D' x y) as [H|H]; [exact H|]. exfalso. assert (Exy := kp_true D K g Ac KS M x y O). assert (F := shown_told g x y O).
  assert (L : directed_edge_exists g y x = true); [|congruence]. apply M. split; [right; exact Exy|]. intros Kn. apply H. apply (known_sound D' K' Ac' KS'). exact (known_equiv D D' K K' Q S x y Kn).
Qed.

Lemma pattern_exact ns D (K : id -> id -> Prop) g : NoDup ns -> dag_over ns D -> (forall x y, K x y -> edge_in D x y) -> no_lone_side D K -> known_pattern D K g ->
  forall x y, (one_way g x y <-> forall D', dag_over ns D' -> fits D K D' -> edge_in D' x y) /\
    (two_way g x y <-> exists D1 D2, dag_over ns D1 /\ dag_over ns D2 /\ fits D K D1 /\ fits D K D2 /\ edge_in D1 x y /\ edge_in D2 y x).
Proof.
  intros ND DG KS KT M x y. assert (Ac := do_acyclic _ _ DG).
  assert (FO : forall x y, one_way g x y -> forall D', dag_over ns D' -> fits D K D' -> edge_in D' x y).
  { intros u v O D' DG' [Q KS']. exact (pattern_forced D D' K K g Ac (do_acyclic _ _ DG') Q (fun _ _ h => h) KS KS' M u v O). }
  assert (Ch : forall a b, two_way g a b -> exists D', dag_over ns D' /\ fits D K D' /\ edge_in D' a b) by (intros a b; exact (known_choice D Ac g K KS KT M ns a b ND DG)).
  assert (FD : fits D K D) by (split; [split; reflexivity|exact KS]). split.
  - split; [intros O D'; exact (FO x y O D')|]. intros H. assert (Exy := H D DG FD).
    destruct (adj_kind D Ac g K KS M x y (or_introl Exy)) as [[O|O]|U]; [exact O| |]; exfalso.
    + exact (no_two (edge_in D) Ac x y Exy (FO y x O D DG FD)).
    + destruct (Ch y x (U_sym g x y U)) as (D2 & A2 & B2 & C2). exact (no_two (edge_in D2) (do_acyclic _ _ A2) x y (H D2 A2 B2) C2).
  - split.
    + intros T. destruct (Ch x y T) as (D1 & A1 & B1 & C1). destruct (Ch y x (U_sym g x y T)) as (D2 & A2 & B2 & C2). exists D1, D2. auto 10.
    + intros (D1 & D2 & G1 & G2 & Q1 & Q2 & E1 & E2). assert (Ad : adjacent (edge_in D) x y) by (apply (proj1 Q1); left; exact E1).
      destruct (adj_kind D Ac g K KS M x y Ad) as [[O|O]|U]; [| |exact U]; exfalso.
      * exact (no_two (edge_in D2) (do_acyclic _ _ G2) x y (FO x y O D2 G2 Q2) E2).
      * exact (no_two (edge_in D1) (do_acyclic _ _ G1) x y E1 (FO y x O D1 G1 Q1)).
Qed.

(* C131: every arrow of the result is in every DAG with the adjacencies and v-structures of D and with the directions told *)
Theorem C131_forced : forall fuel P so N d g0 D c (K : id -> id -> Prop) ks st g r, start_graph d = Ok g0 -> dag_over (dkeys (nodes g0)) D -> perfect_tests N (values_of g0) (dkeys (nodes g0)) D c -> set_order so ->
  List.length (nodes g0) * List.length (nodes g0) + 2 <= fuel -> (forall x y, K x y -> edge_in D x y) -> (forall s, In s ks -> knowledge_step D K P g0 s) -> execute_pipeline fuel P no_hooks (pc_with so st N ks) g0 = (g, r) ->
  forall x y, one_way g x y -> forall D', dag_over (dkeys (nodes g0)) D' -> fits D K D' -> edge_in D' x y.
Proof.
  intros fuel P so N d g0 D c K ks st g r S0 DG PT SO FU KS HK Ru x y O D' DG' [Q KS']. revert x y O. assert (Ac := do_acyclic _ _ DG). assert (Ac' := do_acyclic _ _ DG').
  destruct (C128_pc fuel P so N d g0 D c K ks st S0 DG PT SO FU KS HK) as (g1 & g2 & r2 & R & _). assert (E := kr_run _ _ _ _ _ _ _ _ _ _ _ _ R). unfold pc_with in Ru. rewrite Ru in E. injection E as <- <-.
  assert (SK := kr_shown _ _ _ _ _ _ _ _ _ _ _ _ R).
  apply (pattern_forced D D' (one_way g1) (one_way g1) g Ac Ac' Q); [auto| | |exact (kr_pattern _ _ _ _ _ _ _ _ _ _ _ _ R)].
  - intros u v H. apply (known_sound D K Ac KS), SK, H.
  - intros u v H. apply (known_sound D' K Ac' KS'). apply (known_equiv D D' K K Q); [auto|apply SK, H].
Qed.
Print Assumptions C131_forced.

(* C131: if of no triangle exactly one direction is told, then the arrows are exactly those that all these DAGs share, and the two-way edges exactly those on which two of them disagree *)
Theorem C131_exact : forall fuel P so N d g0 D c (K : id -> id -> Prop) ks st g r, start_graph d = Ok g0 -> dag_over (dkeys (nodes g0)) D -> perfect_tests N (values_of g0) (dkeys (nodes g0)) D c -> set_order so ->
  List.length (nodes g0) * List.length (nodes g0) + 2 <= fuel -> (forall x y, K x y -> edge_in D x y) -> (forall s, In s ks -> knowledge_step D K P g0 s) -> (forall x y, K x y -> exists s, In s ks /\ tells D g0 s x y) -> no_lone_side D K ->
  execute_pipeline fuel P no_hooks (pc_with so st N ks) g0 = (g, r) ->
  forall x y, (one_way g x y <-> forall D', dag_over (dkeys (nodes g0)) D' -> fits D K D' -> edge_in D' x y) /\
    (two_way g x y <-> exists D1 D2, dag_over (dkeys (nodes g0)) D1 /\ dag_over (dkeys (nodes g0)) D2 /\ fits D K D1 /\ fits D K D2 /\ edge_in D1 x y /\ edge_in D2 y x).
Proof.
  intros fuel P so N d g0 D c K ks st g r S0 DG PT SO FU KS HK HT KT Ru.
  destruct (C128_pc fuel P so N d g0 D c K ks st S0 DG PT SO FU KS HK) as (g1 & g2 & r2 & R & X). assert (E := kr_run _ _ _ _ _ _ _ _ _ _ _ _ R). unfold pc_with in Ru. rewrite Ru in E. injection E as <- <-.
  exact (pattern_exact _ D K g (wf_nodes _ (cp_wf _ (complete_start d g0 S0))) DG KS KT (X HT)).
Qed.
Print Assumptions C131_exact.

Lemma tiers_fit D D' tier : acyclic (edge_in D') -> (forall x y, edge_in D x y -> tier x <= tier y) -> (fits D (across D tier) D' <-> equivalent D D' /\ forall x y, edge_in D' x y -> tier x <= tier y).
Proof.
  intros Ac' TI. split; intros [Q H]; (split; [exact Q|]).
  - intros x y A. destruct (le_lt_dec (tier x) (tier y)) as [L|L]; [exact L|]. exfalso. destruct (proj2 (proj1 Q x y) (or_introl A)) as [B|B]; [specialize (TI _ _ B); lia|].
    exact (no_two (edge_in D') Ac' x y A (H y x (conj B L))).
  - intros u v [A L]. destruct (proj1 (proj1 Q u v) (or_introl A)) as [B|B]; [exact B|]. specialize (H _ _ B). lia.
Qed.
Lemma tiers_sides D tier : (forall x y, edge_in D x y -> tier x <= tier y) -> no_lone_side D (across D tier).
Proof.
  intros TI a b c [A L] [H1|H1] [H2|H2]; assert (X1 := TI _ _ H1); assert (X2 := TI _ _ H2); unfold across.
  - destruct (le_lt_dec (tier c) (tier a)); [lia|]. left. split; [exact H1|assumption].
  - destruct (le_lt_dec (tier c) (tier a)); [|left; split; assumption]. right; right; right. split; [exact H2|lia].
  - lia.
  - right; right; right. split; [exact H2|lia].
Qed.
(* C131: so with tiers the arrows are exactly those that all DAGs with the adjacencies and v-structures of D that fit the tiers share *)
Theorem C131_tiers : forall fuel P so N d g0 D c st par una syn tier g r, start_graph d = Ok g0 -> dag_over (dkeys (nodes g0)) D -> perfect_tests N (values_of g0) (dkeys (nodes g0)) D c -> set_order so ->
  List.length (nodes g0) * List.length (nodes g0) + 2 <= fuel -> (forall x y, edge_in D x y -> tier x <= tier y) -> (par = true -> pool_runner no_hooks P) -> execute_pipeline fuel P no_hooks (pc_with so st N [tier_step par una syn tier]) g0 = (g, r) ->
  forall x y, (one_way g x y <-> forall D', dag_over (dkeys (nodes g0)) D' -> equivalent D D' -> (forall u v, edge_in D' u v -> tier u <= tier v) -> edge_in D' x y) /\
    (two_way g x y <-> exists D1 D2, dag_over (dkeys (nodes g0)) D1 /\ dag_over (dkeys (nodes g0)) D2 /\ equivalent D D1 /\ equivalent D D2 /\ (forall u v, edge_in D1 u v -> tier u <= tier v) /\ (forall u v, edge_in D2 u v -> tier u <= tier v) /\ edge_in D1 x y /\ edge_in D2 y x).
Proof.
  intros fuel P so N d g0 D c st par una syn tier g r S0 DG PT SO FU TI PO Ru x y.
  destruct (C131_exact fuel P so N d g0 D c (across D tier) [tier_step par una syn tier] st g r S0 DG PT SO FU) with (x := x) (y := y) as [A B]; [intros u v [H _]; exact H| | |exact (tiers_sides D tier TI)|exact Ru|].
  - intros s [<-|[]]. apply tier_knowledge; assumption.
  - intros u v H. exists (tier_step par una syn tier). split; [left; reflexivity|]. exact (tier_tells d g0 D par una syn tier S0 DG u v H).
  - split.
    + rewrite A. split; intros H D' G'; [intros Q T; apply (H D' G'); apply (tiers_fit D D' tier (do_acyclic _ _ G') TI); auto|]. intros F. apply (tiers_fit D D' tier (do_acyclic _ _ G') TI) in F. destruct F as [Q T]. exact (H D' G' Q T).
    + rewrite B. split; intros (D1 & D2 & G1 & G2 & H); exists D1, D2; (split; [exact G1|]); (split; [exact G2|]).
      * destruct H as (F1 & F2 & E1 & E2). apply (tiers_fit D D1 tier (do_acyclic _ _ G1) TI) in F1. apply (tiers_fit D D2 tier (do_acyclic _ _ G2) TI) in F2. tauto.
      * destruct H as (Q1 & Q2 & T1 & T2 & E1 & E2). split; [apply (tiers_fit D D1 tier (do_acyclic _ _ G1) TI); auto|]. split; [apply (tiers_fit D D2 tier (do_acyclic _ _ G2) TI); auto|auto].
Qed.
Print Assumptions C131_tiers.

(* a -> b -> c, a -> c with a in an earlier tier than b and c: the arrows from a are forced, b and c may point either way *)
Definition back_dag : list (id * id) := [("a", "b"); ("c", "b"); ("a", "c")].
Example C131_nonvacuous : exists g0 g, start_graph (ideal_data line_names) = Ok g0 /\ dag_over (dkeys (nodes g0)) full_dag /\ perfect_tests (ideal line_names full_dag) (values_of g0) (dkeys (nodes g0)) full_dag (ideal_corr line_names) /\ set_order dedup /\
  pool_runner no_hooks (batch_runner no_hooks) /\ List.length (nodes g0) * List.length (nodes g0) + 2 <= 18 /\ (forall x y, edge_in full_dag x y -> tier2 x <= tier2 y) /\ no_lone_side full_dag (across full_dag tier2) /\
  execute_pipeline 18 (batch_runner no_hooks) no_hooks (pc_with dedup KEEP_FIRST (ideal line_names full_dag) [tier_step true false false tier2]) g0 = (g, Ok tt) /\ one_way g "a" "b" /\ one_way g "a" "c" /\ two_way g "b" "c" /\
  dag_over (dkeys (nodes g0)) back_dag /\ fits full_dag (across full_dag tier2) back_dag /\ edge_in back_dag "c" "b".
Proof.
  assert (FD : dag_over line_names full_dag) by (apply dag_by_order_main; [exact line_nodup|reflexivity]).
  assert (T2 : forall x y, edge_in full_dag x y -> tier2 x <= tier2 y) by (intros x y H; cbn in H; repeat (destruct H as [H|H]; [injection H as <- <-; vm_compute; lia|]); destruct H).
  assert (B1 : dag_over ["a"; "c"; "b"] back_dag) by (apply dag_by_order_main; [repeat constructor; cbn; intuition discriminate|reflexivity]).
  destruct (ideal_exists line_names full_dag line_nodup FD) as (g0 & S0 & PE & DG & PT). assert (G0 := S0). vm_compute in G0. injection G0 as G0.
  exists g0. eexists. split; [exact S0|]. split; [exact DG|]. split; [exact PT|]. split; [exact dedup_order|]. split; [apply batch_pool|]. split; [rewrite <- G0; vm_compute; lia|]. split; [exact T2|]. split; [exact (tiers_sides _ _ T2)|].
  split; [rewrite <- G0; vm_compute; reflexivity|]. split; [vm_compute; reflexivity|]. split; [vm_compute; reflexivity|]. split; [vm_compute; reflexivity|].
  split; [split; [|exact (do_acyclic _ _ B1)]; intros x y H; destruct (do_nodes _ _ B1 x y H) as [H1 H2]; rewrite <- G0; cbn in H1, H2; split; cbn; intuition|].
  split; [|cbn; auto]. assert (AD : forall D x y, D = full_dag \/ D = back_dag -> adjacent (edge_in D) x y <-> (x = "a" /\ y = "b" \/ x = "b" /\ y = "a" \/ x = "a" /\ y = "c" \/ x = "c" /\ y = "a" \/ x = "b" /\ y = "c" \/ x = "c" /\ y = "b")).
  { intros D x y [->| ->]; unfold adjacent, edge_in; cbn; intuition (try congruence; subst; auto 10). }
  assert (NV : forall D x z y, D = full_dag \/ D = back_dag -> ~ vstruct D x z y).
  { intros D x z y HD (V1 & V2 & Ne & NA). apply NA, (AD D x y HD). destruct HD as [->| ->]; cbn in V1, V2; intuition congruence. }
  split; [split; [intros x y; rewrite (AD full_dag x y (or_introl eq_refl)), (AD back_dag x y (or_intror eq_refl)); reflexivity|]|].
  - intros x z y. split; intros V; exfalso; [exact (NV full_dag x z y (or_introl eq_refl) V)|exact (NV back_dag x z y (or_intror eq_refl) V)].
  - intros x y [H L]. cbn in H. destruct H as [H|[H|[H|[]]]]; injection H as <- <-; [cbn; auto|vm_compute in L; lia|cbn; auto].
Qed.

(* C131: and so it is after any tests of the user with those of PCClassic among them *)
Theorem C131_class : forall fuel P so N d g0 D c (K : id -> id -> Prop) ks st ts s g r, start_graph d = Ok g0 -> dag_over (dkeys (nodes g0)) D -> perfect_tests N (values_of g0) (dkeys (nodes g0)) D c -> set_order so ->
  List.length (nodes g0) * List.length (nodes g0) + 2 <= fuel -> (forall x y, K x y -> edge_in D x y) -> (forall s, In s ks -> knowledge_step D K P g0 s) -> (forall x y, K x y -> exists s, In s ks /\ tells D g0 s x y) -> no_lone_side D K ->
  (forall t, In t ts -> any_part P so N g0 D c t) -> any_test P so N g0 D c s -> In (PStep (matrix_step so 3 N)) (ts ++ [PStep s]) ->
  execute_pipeline fuel P no_hooks (((PStep (calculate_pearson N) :: PStep (correlation_step N) :: ts ++ [PStep s]) ++ [PStep (collider_step st so)]) ++ map PStep ks ++ [PLoop "Loop" exit_on_no_actions (orientation_steps so); PStep (effect_step N)]) g0 = (g, r) ->
  forall x y, (one_way g x y <-> forall D', dag_over (dkeys (nodes g0)) D' -> fits D K D' -> edge_in D' x y) /\
    (two_way g x y <-> exists D1 D2, dag_over (dkeys (nodes g0)) D1 /\ dag_over (dkeys (nodes g0)) D2 /\ fits D K D1 /\ fits D K D2 /\ edge_in D1 x y /\ edge_in D2 y x).
Proof.
  intros fuel P so N d g0 D c K ks st ts s g r S0 DG PT SO FU KS HK HT KT Ht Hs Hm Ru.
  destruct (C128_class fuel P so N d g0 D c K ks st ts s S0 DG PT SO FU KS HK Ht Hs Hm) as (g1 & g2 & r2 & R & X). assert (E := kr_run _ _ _ _ _ _ _ _ _ _ _ _ R). rewrite Ru in E. injection E as <- <-.
  exact (pattern_exact _ D K g (wf_nodes _ (cp_wf _ (complete_start d g0 S0))) DG KS KT (X HT)).
Qed.
Print Assumptions C131_class.

(* Tiers that contradict a collider are not refused: the edges into it are lost, though it depends on its causes. Here a -> c <- b, and c is said to come first. *)
Definition vee_dag : list (id * id) := [("a", "c"); ("b", "c")].
Definition tier_vee (x : id) : nat := if String.eqb x "c" then 0 else 1.
Theorem C130_wrong_refuted : exists g0 g, start_graph (ideal_data line_names) = Ok g0 /\ dag_over (dkeys (nodes g0)) vee_dag /\ perfect_tests (ideal line_names vee_dag) (values_of g0) (dkeys (nodes g0)) vee_dag (ideal_corr line_names) /\
  execute_pipeline 18 (batch_runner no_hooks) no_hooks (pc_with dedup KEEP_FIRST (ideal line_names vee_dag) [tier_step true false false tier_vee]) g0 = (g, Ok tt) /\
  adjacent (edge_in vee_dag) "a" "c" /\ adjacent (edge_in vee_dag) "b" "c" /\ edge_exists g "a" "c" = false /\ edge_exists g "b" "c" = false.
Proof.
  assert (FD : dag_over line_names vee_dag) by (apply dag_by_order_main; [exact line_nodup|reflexivity]).
  destruct (ideal_exists line_names vee_dag line_nodup FD) as (g0 & S0 & PE & DG & PT). assert (G0 := S0). vm_compute in G0. injection G0 as G0.
  exists g0. eexists. split; [exact S0|]. split; [exact DG|]. split; [exact PT|]. split; [rewrite <- G0; vm_compute; reflexivity|]. split; [left; cbn; auto|]. split; [left; cbn; auto|].
  split; vm_compute; reflexivity.
Qed.
Print Assumptions C130_wrong_refuted.
