(* PC with tiers of variables, of which no later one is a cause of an earlier one: C130. *)
From Coq Require Import Reals List Lia Lra.
From Verif Require Import Base PyDict PyDictFacts Graph GraphSpec GraphFacts GraphInv GraphCheck GraphQ PathSpec Actions Generators GenSpec GenFacts IndepTests Rules Pipeline Parallel PipeSpec PipeMain PipeMain2 Construct ConstructFacts
  SampleGen SampleSpec Dag DagFacts SkelSpec SkelFacts SkelStart Schedules OrientSpec OrientTop PropsPC PropsCpdag DsepDec Ideal EffectSpec EffectFacts PropsEffect
  Numeric NumericSpec NumericFacts NumericFacts2 PropsNumeric LinearSpec UnitsFacts LinearFacts LinearFacts2 LinearFacts3 LinearFacts4 LinearThree PropsLinear LinearEffectSpec LinearEffectFacts PropsLinearEffect
  ArrangeSpec ArrangeExact PropsArrange ExtendSpec PropsExtend ActionMain PipeFacts RuleFacts DagSep OrientGraph KnowSpec KnowGraph KnowTop PropsKnow PropsModel.
Import ListNotations.
Open Scope string_scope.
Open Scope list_scope.
Open Scope nat_scope.

(* a step of the user over all pairs of variables (interfaces.py:344-389, generators.py:29-54): it removes every direction from a later tier to an earlier one,
   and runs in a pool of workers (par, the default), with the results so far (una) or with results applied one by one (syn), or not *)
Definition tier_step (par una syn : bool) (tier : id -> nat) : step := mkStep "Tiers" (gen_all (mkCS 2 2)) false par una syn
  (fun _ ns _ => match ns with
     | [x; y] => if tier x <? tier y then Ok (Some [remove_directed y x []]) else if tier y <? tier x then Ok (Some [remove_directed x y []]) else Ok None
     | _ => Ok None end).
(* what it tells *)
Definition across (D : list (id * id)) (tier : id -> nat) (x y : id) : Prop := edge_in D x y /\ tier x < tier y.

Section Tiers.
Variables (P : runner) (d : rawdata) (g0 : graph) (D : list (id * id)) (par una syn : bool) (tier : id -> nat).
Hypothesis S0 : start_graph d = Ok g0.
Hypothesis DG : dag_over (dkeys (nodes g0)) D.
Hypothesis TI : forall x y, edge_in D x y -> tier x <= tier y.
Hypothesis PO : par = true -> pool_runner no_hooks P.
Notation E := (edge_in D).
Lemma tier_removal x y : tier x < tier y -> known_result D (across D tier) (remove_directed y x []).
Proof.
  intros L. right. split; [reflexivity|]. cbn. destruct (edge_dec D x y) as [A|A]; [left; split; assumption|right]. intros [B|B]; [|contradiction]. specialize (TI _ _ B). lia.
Qed.
Lemma tier_knowledge : knowledge_step D (across D tier) P g0 (tier_step par una syn tier).
Proof.
  exists (fun _ => True). split; [|split; [|exact PO]].
  - intros g g' f _ [<-|[]] _. eexists. split; [reflexivity|]. intros e H. cbn [tier_step s_parallel s_chunked]. rewrite andb_false_r. apply in_map_iff in H. destruct H as (ns & <- & _). cbn. eauto.
  - intros g ns us _ _. cbn [tier_step s_proc]. destruct ns as [|x [|y [|z l]]]; try (eexists; split; [reflexivity|intros i []]).
    destruct (Nat.ltb_spec (tier x) (tier y)) as [L|L]; [eexists; split; [reflexivity|]; intros i [<-|[]]; exact (tier_removal _ _ L)|].
    destruct (Nat.ltb_spec (tier y) (tier x)) as [L'|L']; [eexists; split; [reflexivity|]; intros i [<-|[]]; exact (tier_removal _ _ L')|].
    eexists; split; [reflexivity|intros i []].
Qed.
Lemma tier_tells x y : across D tier x y -> tells D g0 (tier_step par una syn tier) x y.
Proof.
  intros [A L] g (Nn & _ & _). right. eexists. split; [left; reflexivity|]. intros g' _. right. destruct (do_nodes _ _ DG _ _ A) as [Hx Hy].
  assert (W := cp_wf _ (complete_start d g0 S0)). assert (Ne : x <> y) by (intros ->; lia).
  assert (EQ : all_combinations (mkCS 2 2) g = all_combinations (mkCS 2 2) g0) by (unfold all_combinations; rewrite Nn; reflexivity).
  assert (Nx : SkelFacts.node g0 x) by (apply dmem_In; exact Hx). assert (Ny : SkelFacts.node g0 y) by (apply dmem_In; exact Hy).
  destruct (pairs_In g0 g0 x y W eq_refl Nx Ny Ne) as [H|H]; rewrite <- EQ in H.
  - eexists _, (Generators.One [x; y]), [x; y]. split; [reflexivity|]. split; [apply in_map; exact H|]. cbn [tier_step s_parallel s_chunked]. rewrite andb_false_r. split; [reflexivity|]. intros g'' us _. right. cbn [tier_step s_proc].
    destruct (Nat.ltb_spec (tier x) (tier y)) as [_|L']; [|lia]. do 2 eexists. split; [reflexivity|]. split; [left; reflexivity|]. repeat split; reflexivity.
  - eexists _, (Generators.One [y; x]), [y; x]. split; [reflexivity|]. split; [apply in_map; exact H|]. cbn [tier_step s_parallel s_chunked]. rewrite andb_false_r. split; [reflexivity|]. intros g'' us _. right. cbn [tier_step s_proc].
    destruct (Nat.ltb_spec (tier y) (tier x)) as [L'|_]; [lia|]. destruct (Nat.ltb_spec (tier x) (tier y)) as [_|L']; [|lia]. do 2 eexists. split; [reflexivity|]. split; [left; reflexivity|]. repeat split; reflexivity.
Qed.
End Tiers.

(* C130: with tiers PC finds exactly the adjacencies, directs every edge between tiers as it is, shows no wrong arrow, and shows
   exactly the arrows that follow from the tiers and the colliders *)
Theorem C130_tiers : forall fuel P so N d g0 D c st par una syn tier, start_graph d = Ok g0 -> dag_over (dkeys (nodes g0)) D -> perfect_tests N (values_of g0) (dkeys (nodes g0)) D c -> set_order so ->
  List.length (nodes g0) * List.length (nodes g0) + 2 <= fuel -> (forall x y, edge_in D x y -> tier x <= tier y) -> (par = true -> pool_runner no_hooks P) ->
  exists g r, execute_pipeline fuel P no_hooks (pc_with so st N [tier_step par una syn tier]) g0 = (g, r) /\ match r with Ok _ => True | Err e => exists xs zs ys, n_effect N xs zs ys = Err e end /\
    (forall x y, edge_exists g x y = true <-> adjacent (edge_in D) x y) /\ (forall x y, edge_in D x y -> tier x < tier y -> one_way g x y) /\ (forall x y, one_way g x y -> edge_in D x y) /\
    known_pattern D (across D tier) g.
Proof.
  intros fuel P so N d g0 D c st par una syn tier S0 DG PT SO FU TI PO. assert (KS : forall x y, across D tier x y -> edge_in D x y) by (intros x y [H _]; exact H). assert (Ac := do_acyclic _ _ DG).
  destruct (C128_pc fuel P so N d g0 D c (across D tier) [tier_step par una syn tier] st S0 DG PT SO FU KS) as (g1 & g & r & R & X).
  { intros s [<-|[]]. apply tier_knowledge; assumption. }
  assert (M : known_pattern D (across D tier) g). { apply X. intros x y H. exists (tier_step par una syn tier). split; [left; reflexivity|]. exact (tier_tells d g0 D par una syn tier S0 DG x y H). }
  exists g, r. split; [exact (kr_run _ _ _ _ _ _ _ _ _ _ _ _ R)|]. split; [exact (kr_end _ _ _ _ _ _ _ _ _ _ _ _ R)|]. split; [exact (kp_adj D _ g Ac KS M)|].
  split; [intros x y A L; apply (kp_known D _ g Ac KS M), kn_told; split; assumption|]. split; [exact (kp_true D _ g Ac KS M)|exact M].
Qed.
Print Assumptions C130_tiers.

(* C130: an order of all variables gives the DAG *)
Theorem C130_dag : forall fuel P so N d g0 D c st par una syn tier, start_graph d = Ok g0 -> dag_over (dkeys (nodes g0)) D -> perfect_tests N (values_of g0) (dkeys (nodes g0)) D c -> set_order so ->
  List.length (nodes g0) * List.length (nodes g0) + 2 <= fuel -> (forall x y, edge_in D x y -> tier x < tier y) -> (par = true -> pool_runner no_hooks P) ->
  exists g r, execute_pipeline fuel P no_hooks (pc_with so st N [tier_step par una syn tier]) g0 = (g, r) /\ (forall x y, directed_edge_exists g x y = true <-> edge_in D x y) /\
    match r with Ok _ => True | Err e => exists xs zs ys, n_effect N xs zs ys = Err e end.
Proof.
  intros fuel P so N d g0 D c st par una syn tier S0 DG PT SO FU TI PO.
  destruct (C130_tiers fuel P so N d g0 D c st par una syn tier S0 DG PT SO FU (fun x y h => Nat.lt_le_incl _ _ (TI x y h)) PO) as (g & r & R & Re & Ad & On & Tr & M).
  exists g, r. split; [exact R|]. split; [|exact Re]. intros x y. split.
  - intros L. apply M in L. destruct L as [[A|A] NK]; [exact A|]. exfalso. apply NK, kn_told. split; [exact A|exact (TI _ _ A)].
  - intros A. assert (O := On _ _ A (TI _ _ A)). unfold one_way, only_directed_edge_exists in O. apply andb_true_iff in O. tauto.
Qed.
Print Assumptions C130_dag.

Open Scope R_scope.
(* C130: in linear data with tiers every edge directed into a variable without undirected edges, whose causes have mean 0, carries its weight, and these are all its causes *)
Theorem C130_effects : forall fuel P d g0 dec code ecode Phi th n so st es N par una syn tier g, start_graph d = Ok g0 -> (2 <= n)%nat ->
  linear_data n (dkeys (nodes g0)) es (fun v => map dec (values_of g0 v)) -> (forall v, In v (dkeys (nodes g0)) -> varies n (noise es (fun v => map dec (values_of g0 v)) v)) ->
  Phi 0 = 1 / 2 -> th < 1 -> detected Phi th n (dkeys (nodes g0)) (arrows es) (fun v => map dec (values_of g0 v)) ->
  exact_tests dec code Phi th n (values_of g0) (dkeys (nodes g0)) N -> exact_effects dec ecode n (values_of g0) (dkeys (nodes g0)) N ->
  set_order so -> (List.length (nodes g0) * List.length (nodes g0) + 2 <= fuel)%nat -> (forall x y, edge_in (arrows es) x y -> (tier x <= tier y)%nat) -> (par = true -> pool_runner no_hooks P) ->
  execute_pipeline fuel P no_hooks (pc_with so st N [tier_step par una syn tier]) g0 = (g, Ok tt) ->
  forall v, (forall p, ~ two_way g p v) -> (forall p, edge_in (arrows es) p v -> centered (map dec (values_of g0 p))) ->
  forall u, (directed_edge_exists g u v = true <-> edge_in (arrows es) u v) /\ (edge_in (arrows es) u v -> stored_effect g u v (ecode (weight es u v))).
Proof.
  intros fuel P d g0 dec code ecode Phi th n so st es N par una syn tier g S0 H2 LD Va P0 Ht De EX EE SO F TI PO Ru v T Ce u. assert (DO := ld_dag _ _ _ _ LD). assert (ND := wf_nodes _ (cp_wf _ (complete_start d g0 S0))).
  destruct (C92_tests dec code Phi th n (values_of g0) (dkeys (nodes g0)) es N H2 ND LD Va P0 Ht De EX) as [c PT]. assert (Ac := do_acyclic _ _ DO).
  destruct (C130_tiers fuel P so N d g0 (arrows es) c st par una syn tier S0 DO PT SO F TI PO) as (g' & r & R & _ & Ad & _ & Tr & _). rewrite Ru in R. injection R as <- <-.
  assert (OW : edge_in (arrows es) u v -> one_way g u v).
  { intros A. assert (X := proj2 (Ad u v) (or_introl A)). rewrite edge_exists_or in X. assert (Tu := T u). unfold two_way, undirected_edge_exists in Tu. assert (Tv := Tr v u). unfold one_way, only_directed_edge_exists in *.
    destruct (directed_edge_exists g u v), (directed_edge_exists g v u); cbn in *; try reflexivity; try discriminate X; [contradiction (Tu eq_refl)|]. exfalso. exact (no_two _ Ac _ _ A (Tv eq_refl)). }
  split; [split|].
  - intros L. apply Tr. assert (Tu := T u). unfold two_way, undirected_edge_exists in Tu. unfold one_way, only_directed_edge_exists. rewrite L in *. cbn in *. destruct (directed_edge_exists g v u); [contradiction (Tu eq_refl)|reflexivity].
  - intros A. apply OW in A. unfold one_way, only_directed_edge_exists in A. apply andb_true_iff in A. tauto.
  - intros A. apply (C129_effects fuel P d g0 dec code ecode Phi th n so st es N (across (arrows es) tier) [tier_step par una syn tier] g S0 H2 LD Va P0 Ht De EX EE SO F) with (u := u) (v := v); [intros x y [H _]; exact H| |exact Ru|exact (OW A)|exact T|exact Ce].
    intros s [<-|[]]. apply tier_knowledge; assumption.
Qed.
Print Assumptions C130_effects.

(* C130: so linear data and an order of all variables give the structural equations *)
Theorem C130_model : forall fuel P d g0 dec code ecode Phi th n so st es N par una syn tier g, start_graph d = Ok g0 -> (2 <= n)%nat ->
  linear_data n (dkeys (nodes g0)) es (fun v => map dec (values_of g0 v)) -> (forall v, In v (dkeys (nodes g0)) -> varies n (noise es (fun v => map dec (values_of g0 v)) v)) ->
  Phi 0 = 1 / 2 -> th < 1 -> detected Phi th n (dkeys (nodes g0)) (arrows es) (fun v => map dec (values_of g0 v)) ->
  exact_tests dec code Phi th n (values_of g0) (dkeys (nodes g0)) N -> exact_effects dec ecode n (values_of g0) (dkeys (nodes g0)) N ->
  set_order so -> (List.length (nodes g0) * List.length (nodes g0) + 2 <= fuel)%nat -> (forall v, In v (dkeys (nodes g0)) -> centered (map dec (values_of g0 v))) ->
  (forall x y, edge_in (arrows es) x y -> (tier x < tier y)%nat) -> (par = true -> pool_runner no_hooks P) ->
  execute_pipeline fuel P no_hooks (pc_with so st N [tier_step par una syn tier]) g0 = (g, Ok tt) ->
  forall u v, (directed_edge_exists g u v = true <-> edge_in (arrows es) u v) /\ (edge_in (arrows es) u v -> stored_effect g u v (ecode (weight es u v))).
Proof.
  intros fuel P d g0 dec code ecode Phi th n so st es N par una syn tier g S0 H2 LD Va P0 Ht De EX EE SO F Ce TI PO Ru. assert (DO := ld_dag _ _ _ _ LD).
  apply (C129_model fuel P d g0 dec code ecode Phi th n so st es N [tier_step par una syn tier] g S0 H2 LD Va P0 Ht De EX EE SO F Ce); [| |exact Ru].
  - intros s [<-|[]]. assert (Kn := tier_knowledge P g0 (arrows es) par una syn tier (fun x y h => Nat.lt_le_incl _ _ (TI x y h)) PO). destruct Kn as (A & G & C & H). exists A. split; [exact G|]. split; [|exact H].
    intros g' ns us Sg Hn. destruct (C g' ns us Sg Hn) as (o & Eo & Fo). exists o. split; [exact Eo|]. intros i Hi. destruct (Fo i Hi) as [Q|[Q [[Q' _]|Q']]]; [left; exact Q|right; split; [exact Q|left; exact Q']|right; split; [exact Q|right; exact Q']].
  - intros x y A. exists (tier_step par una syn tier). split; [left; reflexivity|]. apply (tier_tells d g0 (arrows es) par una syn tier S0 DO). split; [exact A|exact (TI _ _ A)].
Qed.
Print Assumptions C130_model.

Close Scope R_scope.
Definition tier2 (x : id) : nat := if String.eqb x "a" then 0 else 1.
Definition tier3 (x : id) : nat := if String.eqb x "a" then 0 else if String.eqb x "b" then 1 else 2.
(* a -> b -> c: that a is in an earlier tier than b and c is enough for all directions; in the triangle a -> b -> c, a -> c it leaves b - c open, an order of all three does not *)
Definition full_dag : list (id * id) := [("a", "b"); ("b", "c"); ("a", "c")].
Example C130_nonvacuous : exists g0 g1 g2 g3, start_graph (ideal_data line_names) = Ok g0 /\ dag_over (dkeys (nodes g0)) line_dag /\ perfect_tests line_tests (values_of g0) (dkeys (nodes g0)) line_dag (ideal_corr line_names) /\
  dag_over (dkeys (nodes g0)) full_dag /\ perfect_tests (ideal line_names full_dag) (values_of g0) (dkeys (nodes g0)) full_dag (ideal_corr line_names) /\ set_order dedup /\ pool_runner no_hooks (batch_runner no_hooks) /\
  List.length (nodes g0) * List.length (nodes g0) + 2 <= 18 /\ (forall x y, edge_in line_dag x y -> tier2 x <= tier2 y) /\ (forall x y, edge_in full_dag x y -> tier2 x <= tier2 y) /\ (forall x y, edge_in full_dag x y -> tier3 x < tier3 y) /\
  execute_pipeline 18 (batch_runner no_hooks) no_hooks (pc_with dedup KEEP_FIRST line_tests [tier_step true false false tier2]) g0 = (g1, Ok tt) /\ one_way g1 "a" "b" /\ one_way g1 "b" "c" /\
  execute_pipeline 18 (batch_runner no_hooks) no_hooks (pc_with dedup KEEP_FIRST (ideal line_names full_dag) [tier_step true false false tier2]) g0 = (g2, Ok tt) /\ one_way g2 "a" "b" /\ one_way g2 "a" "c" /\ two_way g2 "b" "c" /\
  execute_pipeline 18 (batch_runner no_hooks) no_hooks (pc_with dedup KEEP_FIRST (ideal line_names full_dag) [tier_step false false true tier3]) g0 = (g3, Ok tt) /\ one_way g3 "a" "b" /\ one_way g3 "a" "c" /\ one_way g3 "b" "c".
Proof.
  assert (FD : dag_over line_names full_dag) by (apply dag_by_order; [exact line_nodup|reflexivity]).
  destruct (ideal_exists line_names line_dag line_nodup line_is_dag) as (g0 & S0 & PE & DG & PT). destruct (ideal_exists line_names full_dag line_nodup FD) as (g0' & S0' & PE' & DG' & PT'). rewrite S0 in S0'. injection S0' as <-.
  assert (G0 := S0). vm_compute in G0. injection G0 as G0.
  exists g0. do 3 eexists. split; [exact S0|]. split; [exact DG|]. split; [exact PT|]. split; [exact DG'|]. split; [exact PT'|]. split; [exact dedup_order|]. split; [apply batch_pool|]. split; [rewrite <- G0; vm_compute; lia|].
  split; [intros x y H; cbn in H; repeat (destruct H as [H|H]; [injection H as <- <-; vm_compute; lia|]); destruct H|].
  split; [intros x y H; cbn in H; repeat (destruct H as [H|H]; [injection H as <- <-; vm_compute; lia|]); destruct H|].
  split; [intros x y H; cbn in H; repeat (destruct H as [H|H]; [injection H as <- <-; vm_compute; lia|]); destruct H|].
  split; [rewrite <- G0; vm_compute; reflexivity|]. split; [vm_compute; reflexivity|]. split; [vm_compute; reflexivity|].
  split; [rewrite <- G0; vm_compute; reflexivity|]. split; [vm_compute; reflexivity|]. split; [vm_compute; reflexivity|]. split; [vm_compute; reflexivity|].
  split; [rewrite <- G0; vm_compute; reflexivity|]. split; [vm_compute; reflexivity|]. split; vm_compute; reflexivity.
Qed.

Open Scope R_scope.
(* and from the data of C129 with the order a, b, c the weights *)
Example C130_model_nonvacuous : exists g0 g, start_graph full = Ok g0 /\ linear_data 8 (dkeys (nodes g0)) full_es (fun v => map IZR (values_of g0 v)) /\ (forall v, In v (dkeys (nodes g0)) -> varies 8 (noise full_es (fun v => map IZR (values_of g0 v)) v)) /\
  (forall v, In v (dkeys (nodes g0)) -> centered (map IZR (values_of g0 v))) /\
  Phi3 0 = 1 / 2 /\ detected Phi3 (1 / 100) 8 (dkeys (nodes g0)) (arrows full_es) (fun v => map IZR (values_of g0 v)) /\ exact_tests IZR code3 Phi3 (1 / 100) 8 (values_of g0) (dkeys (nodes g0)) exact3e /\
  exact_effects IZR ecode3 8 (values_of g0) (dkeys (nodes g0)) exact3e /\ (forall x y, edge_in (arrows full_es) x y -> (tier3 x < tier3 y)%nat) /\
  execute_pipeline 11 (batch_runner no_hooks) no_hooks (pc_with dedup KEEP_FIRST exact3e [tier_step false false true tier3]) g0 = (g, Ok tt) /\ stored_effect g "b" "c" 1 /\ weight full_es "b" "c" = 1.
Proof.
  destruct full_facts as (S & K & Va & Vb & Vc). exists (start full). rewrite K. destruct (full_linear (values_of (start full)) Va Vb Vc) as [LD Vr]. eexists. split; [exact S|]. split; [exact LD|]. split; [exact Vr|].
  split; [intros v I; each_name; unfold centered; rewrite ?Va, ?Vb, ?Vc; cbn; lra|].
  split; [unfold Phi3; destruct (Req_EM_T 0 0); [reflexivity|contradiction]|].
  split; [apply (detected3 (values_of (start full)) (full_len _ Va Vb Vc) (full_var _ Va Vb Vc) (full_par _ Va Vb Vc) full_es LD (full_sep _ Va Vb Vc))|].
  split; [apply exact3e_tests, (exact3_exact (values_of (start full)) (full_len _ Va Vb Vc) (full_var _ Va Vb Vc) (full_par _ Va Vb Vc))|].
  split; [apply effect3_exact, (full_len _ Va Vb Vc)|].
  split; [intros x y H; cbn in H; repeat (destruct H as [H|H]; [injection H as <- <-; vm_compute; lia|]); destruct H|].
  split; [vm_compute; reflexivity|]. split; [eexists; split; vm_compute; reflexivity|]. unfold weight. cbn. ring.
Qed.

(* with c after a and b, the edge between a and b stays open, and those into c carry the weights *)
Definition last_c (x : id) : nat := if String.eqb x "c" then 1%nat else 0%nat.
Example C130_effects_nonvacuous : exists g0 g, start_graph full = Ok g0 /\ linear_data 8 (dkeys (nodes g0)) full_es (fun v => map IZR (values_of g0 v)) /\ (forall v, In v (dkeys (nodes g0)) -> varies 8 (noise full_es (fun v => map IZR (values_of g0 v)) v)) /\
  (forall v, In v (dkeys (nodes g0)) -> centered (map IZR (values_of g0 v))) /\
  Phi3 0 = 1 / 2 /\ detected Phi3 (1 / 100) 8 (dkeys (nodes g0)) (arrows full_es) (fun v => map IZR (values_of g0 v)) /\ exact_tests IZR code3 Phi3 (1 / 100) 8 (values_of g0) (dkeys (nodes g0)) exact3e /\
  exact_effects IZR ecode3 8 (values_of g0) (dkeys (nodes g0)) exact3e /\ (forall x y, edge_in (arrows full_es) x y -> (last_c x <= last_c y)%nat) /\
  execute_pipeline 11 (batch_runner no_hooks) no_hooks (pc_with dedup KEEP_FIRST exact3e [tier_step true false false last_c]) g0 = (g, Ok tt) /\ two_way g "a" "b" /\ (forall p, In p names3 -> ~ two_way g p "c") /\ stored_effect g "b" "c" 1 /\ weight full_es "b" "c" = 1.
Proof.
  destruct full_facts as (S & K & Va & Vb & Vc). exists (start full). rewrite K. destruct (full_linear (values_of (start full)) Va Vb Vc) as [LD Vr]. eexists. split; [exact S|]. split; [exact LD|]. split; [exact Vr|].
  split; [intros v I; each_name; unfold centered; rewrite ?Va, ?Vb, ?Vc; cbn; lra|].
  split; [unfold Phi3; destruct (Req_EM_T 0 0); [reflexivity|contradiction]|].
  split; [apply (detected3 (values_of (start full)) (full_len _ Va Vb Vc) (full_var _ Va Vb Vc) (full_par _ Va Vb Vc) full_es LD (full_sep _ Va Vb Vc))|].
  split; [apply exact3e_tests, (exact3_exact (values_of (start full)) (full_len _ Va Vb Vc) (full_var _ Va Vb Vc) (full_par _ Va Vb Vc))|].
  split; [apply effect3_exact, (full_len _ Va Vb Vc)|].
  split; [intros x y H; cbn in H; repeat (destruct H as [H|H]; [injection H as <- <-; vm_compute; lia|]); destruct H|].
  split; [vm_compute; reflexivity|]. split; [vm_compute; reflexivity|]. split; [intros p I; each_name; vm_compute; discriminate|]. split; [eexists; split; vm_compute; reflexivity|]. unfold weight. cbn. ring.
Qed.
