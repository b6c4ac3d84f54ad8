(* No recorded separating set contains a variable that could be left out: C113. *)
From Verif Require Import Base PyDict PyDictFacts Graph GraphSpec GraphFacts GraphInv GraphQ PathSpec Actions ActionSpec Generators GenSpec GenFacts Rules IndepTests Pipeline Parallel
  PipeSpec PipeFacts PipeMain PipeMain2 GraphCheck Construct Dag DagFacts SkelSpec Serve SkelFacts SkelStart SkelSteps SkelTop Schedules Toy Ideal TotalSpec TotalFacts TotalMain
  TestedSpec TestedFacts TestedMain PropsTested PropsPC MinimalSpec MinimalFacts MinimalMain StableSizes MinimalTop.
Open Scope string_scope.
Open Scope list_scope.
Open Scope nat_scope.

(* C113, PCClassic: the tests find the two variables independent given the recorded set, but not given any
   part of it *)
Theorem C113_classic : forall fuel P so N d g0 g, start_graph d = Ok g0 -> set_order so -> regular_tests N (dkeys (nodes g0)) (values_of g0) ->
  execute_pipeline fuel P no_hooks (pc_classic_skeleton so N) g0 = (g, Ok tt) ->
  forall x y, In x (dkeys (nodes g0)) -> In y (dkeys (nodes g0)) -> x <> y -> edge_exists g x y = false ->
  exists S, recorded_separator g x y S /\ other_variables g0 x y S /\ nothing_superfluous (found_independent N g0 false x y) S.
Proof.
  intros fuel P so N d g0 g S0 SO RT R x y Hx Hy Ne L. assert (CP := complete_start d g0 S0).
  assert (PF := skel_pearson fuel P so N g0 CP _ _ g (pa_classic P so N) R).
  assert (W := classic_sizes fuel P so N g0 CP SO PF (firm_of N g0 CP PF (regular_triple N g0 CP RT) (regular_matrix N g0 RT) false)). unfold wp in W. rewrite R in W. cbn [fst snd] in W.
  destruct (skel_record N g0 g _ x y W) as (S & Re & OV & (_ & _ & F) & Sm); try assumption; [intros u v T [(A & B & _) _]; auto|].
  exists S. split; [exact Re|]. split; [exact OV|]. split; [exact F|]. intros T (ND & I & Ln) FT. destruct (Sm T ND I Ln FT) as [Si _]. discriminate.
Qed.
Print Assumptions C113_classic.

(* PC: no part of the recorded set does either, apart from single variables that were found independent of
   one of the two *)
Theorem C113_pc_partial : forall fuel P so N d g0 g, start_graph d = Ok g0 -> set_order so -> regular_tests N (dkeys (nodes g0)) (values_of g0) ->
  execute_pipeline fuel P no_hooks (pc_skeleton so N) g0 = (g, Ok tt) ->
  forall x y, In x (dkeys (nodes g0)) -> In y (dkeys (nodes g0)) -> x <> y -> edge_exists g x y = false ->
  exists S, recorded_separator g x y S /\ other_variables g0 x y S /\ found_independent N g0 true x y S /\
    forall T, smaller_part T S -> found_independent N g0 true x y T ->
    exists z, T = [z] /\ (found_independent N g0 true x z [] \/ found_independent N g0 true y z []).
Proof.
  intros fuel P so N d g0 g S0 SO RT R x y Hx Hy Ne L. assert (CP := complete_start d g0 S0).
  assert (PF := skel_pearson fuel P so N g0 CP _ _ g (pa_pc P so N) R).
  assert (W := pc_sizes fuel P so N g0 CP SO PF (firm_of N g0 CP PF (regular_triple N g0 CP RT) (regular_matrix N g0 RT) true)). unfold wp in W. rewrite R in W. cbn [fst snd] in W.
  destruct (skel_record N g0 g _ x y W) as (S & Re & OV & (_ & _ & F) & Sm); try assumption; [intros u v T [(A & B & _) _]; auto|].
  exists S. split; [exact Re|]. split; [exact OV|]. split; [exact F|]. intros T (ND & I & Ln) FT. destruct (Sm T ND I Ln FT) as [_ X]. exact X.
Qed.
Print Assumptions C113_pc_partial.

(* PCStable: the recorded set is even of the least size among all sets of other variables *)
Theorem C113_stable : forall fuel P so N d g0 g, start_graph d = Ok g0 -> set_order so -> regular_tests N (dkeys (nodes g0)) (values_of g0) ->
  execute_pipeline fuel P no_hooks (pc_stable_skeleton so N) g0 = (g, Ok tt) ->
  forall x y, In x (dkeys (nodes g0)) -> In y (dkeys (nodes g0)) -> x <> y -> edge_exists g x y = false ->
  exists S, recorded_separator g x y S /\ other_variables g0 x y S /\ found_independent N g0 true x y S /\
    forall T, other_variables g0 x y T -> found_independent N g0 true x y T -> List.length S <= List.length T.
Proof.
  intros fuel P so N d g0 g S0 SO RT R x y Hx Hy Ne L. assert (CP := complete_start d g0 S0).
  assert (PF := skel_pearson fuel P so N g0 CP _ _ g (pa_stable P so N) R).
  assert (W := stable_sizes fuel P so N g0 CP SO PF (firm_of N g0 CP PF (regular_triple N g0 CP RT) (regular_matrix N g0 RT) true)). unfold wp in W. rewrite R in W. cbn [fst snd] in W.
  destruct (skel_record N g0 g _ x y W) as (S & Re & OV & (_ & _ & F) & Sm); try assumption; [intros u v T [(A & B & _) _]; auto|].
  exists S. split; [exact Re|]. split; [exact OV|]. split; [exact F|]. intros T OT FT. destruct (Nat.le_gt_cases (List.length S) (List.length T)) as [H|H]; [exact H|]. destruct (Sm T OT H FT).
Qed.
Print Assumptions C113_stable.

(* When the tests answer by d-separation, nothing can be left out of the sets that PC, PCClassic and PCStable
   record *)
Theorem C113_ideal : forall fuel P so N d g0 D c sks g, start_graph d = Ok g0 -> set_order so -> perfect_tests N (values_of g0) (dkeys (nodes g0)) D c ->
  sks = pc_skeleton so N \/ sks = pc_classic_skeleton so N \/ sks = pc_stable_skeleton so N ->
  execute_pipeline fuel P no_hooks sks g0 = (g, Ok tt) ->
  forall x y, In x (dkeys (nodes g0)) -> In y (dkeys (nodes g0)) -> x <> y -> edge_exists g x y = false ->
  exists S, recorded_separator g x y S /\ other_variables g0 x y S /\ nothing_superfluous (dsep D x y) S.
Proof.
  intros fuel P so N d g0 D c sks g S0 SO PT Sks R x y Hx Hy Ne L. assert (CP := complete_start d g0 S0).
  assert (FO := fun PF => firm_of N g0 CP PF (perfect_triple N g0 D c CP PT) (perfect_matrix N g0 D c PT)).
  assert (Sub : forall S T, other_variables g0 x y S -> NoDup T -> incl T S -> other_variables g0 x y T).
  { intros S T [ND OV] NT I. inversion ND as [|? ? N1 ND2]; subst. inversion ND2 as [|? ? N2 _]; subst. cbn in N1. split; [|intros z Hz; auto].
    constructor; [|constructor; [|exact NT]]; [|intros H; exact (N2 (I _ H))]. intros [->|H]; [apply N1; left; reflexivity|apply N1; right; exact (I _ H)]. }
  destruct Sks as [-> |[-> | ->]].
  - assert (PF := skel_pearson fuel P so N g0 CP _ _ g (pa_pc P so N) R). assert (W := pc_sizes fuel P so N g0 CP SO PF (FO PF true)). unfold wp in W. rewrite R in W. cbn [fst snd] in W.
    destruct (skel_record N g0 g _ x y W) as (S & Re & OV & (_ & _ & F) & Sm); try assumption; [intros u v T [(A & B & _) _]; auto|].
    exists S. split; [exact Re|]. split; [exact OV|]. split; [exact (found_dsep N g0 D c CP PT true x y S Hx Hy OV F)|]. intros T (ND & I & Ln) DT.
    assert (OT := Sub S T OV ND I). destruct (Sm T ND I Ln (dsep_found N g0 D c CP PT PF true x y T Hx Hy OT DT)) as (_ & z & -> & H).
    assert (Hz : In z (dkeys (nodes g0))) by (apply OV; apply I; left; reflexivity). destruct OT as [ND3 _]. destruct (three x y z ND3) as (_ & N2 & N3).
    assert (No : forall u v, u <> v -> other_variables g0 u v []) by (intros u v Nuv; split; [constructor; [intros [->|[]]; congruence|constructor; [intros []|constructor]]|intros w []]).
    assert (D0 : dsep D x y []).
    { apply (unrelated D x y z DT). destruct H as [H|H]; [left; exact (found_dsep N g0 D c CP PT true x z [] Hx Hz (No x z N2) H)|right; exact (found_dsep N g0 D c CP PT true y z [] Hy Hz (No y z N3) H)]. }
    destruct (Sm [] (NoDup_nil _) ltac:(intros w []) ltac:(cbn in *; lia) (dsep_found N g0 D c CP PT PF true x y [] Hx Hy (No x y Ne) D0)) as (_ & w & Ew & _). discriminate.
  - assert (PF := skel_pearson fuel P so N g0 CP _ _ g (pa_classic P so N) R). assert (W := classic_sizes fuel P so N g0 CP SO PF (FO PF false)). unfold wp in W. rewrite R in W. cbn [fst snd] in W.
    destruct (skel_record N g0 g _ x y W) as (S & Re & OV & (_ & _ & F) & Sm); try assumption; [intros u v T [(A & B & _) _]; auto|].
    exists S. split; [exact Re|]. split; [exact OV|]. split; [exact (found_dsep N g0 D c CP PT false x y S Hx Hy OV F)|]. intros T (ND & I & Ln) DT.
    destruct (Sm T ND I Ln (dsep_found N g0 D c CP PT PF false x y T Hx Hy (Sub S T OV ND I) DT)) as [Si _]. discriminate.
  - assert (PF := skel_pearson fuel P so N g0 CP _ _ g (pa_stable P so N) R). assert (W := stable_sizes fuel P so N g0 CP SO PF (FO PF true)). unfold wp in W. rewrite R in W. cbn [fst snd] in W.
    destruct (skel_record N g0 g _ x y W) as (S & Re & OV & (_ & _ & F) & Sm); try assumption; [intros u v T [(A & B & _) _]; auto|].
    exists S. split; [exact Re|]. split; [exact OV|]. split; [exact (found_dsep N g0 D c CP PT true x y S Hx Hy OV F)|]. intros T (ND & I & Ln) DT.
    apply (Sm T (Sub S T OV ND I) Ln). exact (dsep_found N g0 D c CP PT PF true x y T Hx Hy (Sub S T OV ND I) DT).
Qed.
Print Assumptions C113_ideal.

Example C113_nonvacuous : exists g g' g'', start_graph data4 = Ok (start4 data4) /\ set_order dedup /\ regular_tests tests4 (dkeys (nodes (start4 data4))) (values_of (start4 data4)) /\
  execute_pipeline 9 (batch_runner no_hooks) no_hooks (pc_skeleton dedup tests4) (start4 data4) = (g, Ok tt) /\
  execute_pipeline 9 (batch_runner no_hooks) no_hooks (pc_classic_skeleton dedup tests4) (start4 data4) = (g', Ok tt) /\
  execute_pipeline 9 (batch_runner no_hooks) no_hooks (pc_stable_skeleton dedup tests4) (start4 data4) = (g'', Ok tt) /\
  edge_exists g "a" "b" = false /\ recorded_separator g "a" "b" ["c"; "d"] /\ edge_exists g' "a" "b" = false /\ recorded_separator g' "a" "b" ["c"; "d"] /\
  edge_exists g'' "a" "c" = false /\ recorded_separator g'' "a" "c" ["b"; "d"].
Proof.
  do 3 eexists. split; [vm_compute; reflexivity|]. split; [exact dedup_order|]. split; [exact regular4|]. do 3 (split; [vm_compute; reflexivity|]).
  split; [vm_compute; reflexivity|]. split; [eexists; eexists; split; [vm_compute; reflexivity|split; reflexivity]|].
  split; [vm_compute; reflexivity|]. split; [eexists; eexists; split; [vm_compute; reflexivity|split; reflexivity]|].
  split; [vm_compute; reflexivity|]. eexists; eexists; split; [vm_compute; reflexivity|split; reflexivity].
Qed.

(* Four variables: 2 and 3 are unrelated, 1 and 2 are independent given 3, and given 3 and 4. *)
Definition tests4s : numerics := toy (table_ci [(2, 3, []); (1, 2, [3]); (1, 2, [3; 4])]%Z).
Lemma regular4s : regular_tests tests4s (dkeys (nodes (start4 data4))) (values_of (start4 data4)).
Proof.
  assert (V4 := vals4). rewrite ids4. revert V4. generalize (values_of (start4 data4)) as vals. intros vals V4. cbn [map] in V4. injection V4 as Va Vb Vc Vd.
  assert (V : forall x, In x ["a"; "b"; "c"; "d"] -> exists k, vals x = [k]).
  { intros x Hx. destruct Hx as [<-|[<-|[<-|[<-|[]]]]]; eauto. }
  constructor.
  - intros x y Hx Hy. destruct (V x Hx) as (a & ->). destruct (V y Hy) as (b & ->). reflexivity.
  - intros x y Hx Hy. destruct (V x Hx) as (a & ->). destruct (V y Hy) as (b & ->). cbn [tests4s toy n_pearson]. rewrite Z.min_comm, Z.max_comm. reflexivity.
  - intros x y z a b c Hx Hy Hz ND Pa Pb Pc. split; [|discriminate]. destruct (three x y z ND) as (N1 & N2 & N3). clear V ND.
    revert Pa Pb Pc N1 N2 N3. destruct Hx as [<-|[<-|[<-|[<-|[]]]]], Hy as [<-|[<-|[<-|[<-|[]]]]], Hz as [<-|[<-|[<-|[<-|[]]]]]; intros Pa Pb Pc N1 N2 N3;
      try (exfalso; congruence); rewrite ?Va, ?Vb, ?Vc, ?Vd in *; vm_compute in Pa, Pb, Pc; injection Pa as <-; injection Pb as <-; injection Pc as <-; vm_compute; reflexivity.
  - intros x y S S' HI ND Pm. destruct (V x (HI x (or_introl eq_refl))) as (a & Ha). destruct (V y (HI y (or_intror (or_introl eq_refl)))) as (b & Hb).
    cbn [map tests4s toy n_matrix]. rewrite Ha, Hb. cbn [List.concat app]. split; [|rewrite Z.min_comm, Z.max_comm; reflexivity]. f_equal. f_equal. apply table_perm.
    rewrite <- !flat_map_concat_map. apply Permutation_flat_map. exact Pm.
Qed.
(* PC records 3 and 4 for the pair 1, 2 although 3 alone would do: that triple was not tested, because 2 and 3
   had lost their edge *)
Theorem C113_pc_refuted : exists N d g0 g x y S T, start_graph d = Ok g0 /\ regular_tests N (dkeys (nodes g0)) (values_of g0) /\
  execute_pipeline 9 (batch_runner no_hooks) no_hooks (pc_skeleton dedup N) g0 = (g, Ok tt) /\
  edge_exists g x y = false /\ recorded_separator g x y S /\ smaller_part T S /\ found_independent N g0 true x y T.
Proof.
  exists tests4s, data4, (start4 data4). eexists. exists "a", "b", ["c"; "d"], ["c"]. split; [vm_compute; reflexivity|]. split; [exact regular4s|]. split; [vm_compute; reflexivity|].
  split; [vm_compute; reflexivity|]. split; [eexists; eexists; split; [vm_compute; reflexivity|split; reflexivity]|].
  split; [split; [repeat constructor; intros []|split; [intros z [<-|[]]; left; reflexivity|cbn; lia]]|].
  apply fi_one; [reflexivity|exists [], [], ["c"; "d"]; vm_compute; reflexivity|]. exists 102%Z, 103%Z, 203%Z.
  split; [left; split; [exists [], [], ["c"; "d"]; vm_compute; reflexivity|vm_compute; reflexivity]|].
  split; [left; split; [exists [], ["b"], ["d"]; vm_compute; reflexivity|vm_compute; reflexivity]|].
  split; [left; split; [exists ["a"], [], ["d"]; vm_compute; reflexivity|vm_compute; reflexivity]|vm_compute; reflexivity].
Qed.
Print Assumptions C113_pc_refuted.

(* a -> c -> b, a -> d -> b, a -> e.  ParallelPC samples the conditioning sets, so that the set c, d, e may be
   asked before c, d: the superfluous e is recorded, even with tests that answer by d-separation. *)
Definition dag5 : list (id * id) := [("a", "c"); ("c", "b"); ("a", "d"); ("d", "b"); ("a", "e")].
Definition names5 : list id := ["a"; "c"; "d"; "b"; "e"].
Lemma nodup5 : NoDup names5. Proof. unfold names5. repeat constructor; cbn; intuition discriminate. Qed.
Lemma dag5_dag : dag_over names5 dag5. Proof. apply dag_by_order; [exact nodup5|reflexivity]. Qed.
Theorem C113_parallel_refuted : exists P so sh sh' coin d g0 D N c g x y S T, start_graph d = Ok g0 /\ dag_over (dkeys (nodes g0)) D /\
  perfect_tests N (values_of g0) (dkeys (nodes g0)) D c /\ set_order so /\ is_shuffle (Some sh) /\ is_shuffle (Some sh') /\ pool_runner no_hooks P /\
  execute_pipeline 5 P no_hooks (pc_parallel_skeleton so sh sh' coin N) g0 = (g, Ok tt) /\
  edge_exists g x y = false /\ recorded_separator g x y S /\ smaller_part T S /\ dsep D x y T.
Proof.
  destruct (ideal_exists names5 dag5 nodup5 dag5_dag) as (g0 & S0 & _ & DG & PT).
  assert (G0 := S0). vm_compute in G0. injection G0 as G0.
  exists (batch_runner no_hooks), dedup, (fun _ l => l), (fun _ l => l), (fun i _ => Nat.leb 12 i), (ideal_data names5), g0, dag5, (ideal names5 dag5), (ideal_corr names5).
  eexists. exists "a", "b", ["c"; "d"; "e"], ["c"; "d"]. split; [exact S0|]. split; [exact DG|]. split; [exact PT|]. split; [exact dedup_order|]. split; [intros k l; apply Permutation_refl|].
  split; [intros k l; apply Permutation_refl|]. split; [apply batch_pool|]. split; [rewrite <- G0; vm_compute; reflexivity|]. split; [reflexivity|].
  split; [do 2 eexists; split; [vm_compute; reflexivity|split; reflexivity]|].
  split; [split; [repeat constructor; cbn; intuition discriminate|split; [intros z [<-|[<-|[]]]; cbn; auto|cbn; lia]]|].
  assert (Hid : forall z, In z names5 -> In z (dkeys (nodes g0))) by (rewrite <- G0; intros z Hz; cbn in Hz |- *; tauto).
  destruct (pt_matrix _ _ _ _ _ PT "a" "b" ["c"; "d"]) as (b & E & Sy); [repeat constructor; cbn; intuition discriminate|intros z Hz; apply Hid; cbn in *; tauto|discriminate|].
  apply Sy. rewrite <- G0 in E. vm_compute in E. injection E as <-. reflexivity.
Qed.
Print Assumptions C113_parallel_refuted.
