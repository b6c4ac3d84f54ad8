(* What follows for the results of the PC algorithms when the tests are right where it matters: C122. *)
From Verif Require Import Base PyDict PyDictFacts Graph GraphSpec GraphFacts GraphInv GraphQ PathSpec Actions ActionSpec Generators GenSpec GenFacts Rules IndepTests Pipeline Parallel
  PipeSpec PipeFacts PipeMain PipeMain2 GraphCheck Construct ConstructSpec ConstructFacts Dag DagFacts DagSep SkelSpec SkelFacts SkelStart SkelSteps SkelMain SkelMain2 DsepDec Ideal SkelTop Schedules Serve
  OrientSpec OrientGraph LoopFacts OrientMain OrientTop TotalSpec TotalFacts TotalMain TestedSpec TestedFacts TestedMain PropsTested OwnSpec OwnFacts FaithSpec FaithFacts FaithMain PropsFaith CpdagFacts.
Open Scope string_scope.
Open Scope list_scope.
Open Scope nat_scope.

(* a run of PC, PCClassic or ParallelPC, with the orientation steps in any arrangement, on a table for which the tests are right where it matters for the DAG D; g is the graph it leaves *)
Inductive right_run (D : list (id * id)) : graph -> graph -> Prop :=
| right_run_of : forall fuel P so N b sk rest d g0 g1 g r, start_graph d = Ok g0 -> set_order so -> dag_over (dkeys (nodes g0)) D -> spares_edges N g0 b D ->
    separating_phase P so N g0 D b sk -> orienting so N rest -> tells_colliders N g0 b D -> List.length (nodes g0) * List.length (nodes g0) + 2 <= fuel ->
    execute_pipeline fuel P no_hooks sk g0 = (g1, Ok tt) -> execute_pipeline fuel P no_hooks (sk ++ rest) g0 = (g, r) -> right_run D g0 g.

Lemma right_pattern D g0 g : right_run D g0 g -> NoDup (dkeys (nodes g0)) /\ dag_over (dkeys (nodes g0)) D /\ meek_pattern g D.
Proof.
  intros [fuel P so N b sk rest d h0 g1 h r S0 SO DG SP Ph Or TC FU R1 R]. split; [exact (wf_nodes _ (cp_wf _ (complete_start d h0 S0)))|]. split; [exact DG|].
  exact (proj1 (C122_pattern fuel P so N b sk rest d h0 g1 h r D S0 SO DG SP Ph Or TC FU R1 R)).
Qed.
(* C122: an arrow is drawn exactly if every DAG that is equivalent to D has it, and an edge is left two-way exactly if two of them disagree on it *)
Theorem C122_class : forall D g0 g, right_run D g0 g -> forall x y,
  (one_way g x y <-> forall D', dag_over (dkeys (nodes g0)) D' -> equivalent D D' -> edge_in D' x y) /\
  (two_way g x y <-> exists D1 D2, dag_over (dkeys (nodes g0)) D1 /\ dag_over (dkeys (nodes g0)) D2 /\ equivalent D D1 /\ equivalent D D2 /\ edge_in D1 x y /\ edge_in D2 y x).
Proof.
  intros D g0 g H x y. destruct (right_pattern D g0 g H) as (ND & DG & M). assert (Ac := do_acyclic _ _ DG). split; split.
  - intros O D' G' Q. exact (mp_one_E D' (do_acyclic _ _ G') g (pattern_equiv g D D' Q M) x y O).
  - intros K. assert (Exy : edge_in D x y) by (apply K; [exact DG|split; reflexivity]). destruct (adj_kind D Ac g M x y (or_introl Exy)) as [[O|O]|U]; [exact O| |]; exfalso.
    + apply (mp_one_E D Ac g M) in O. exact (no_two (edge_in D) Ac x y Exy O).
    + destruct (two_way_choice D g _ y x ND DG M (U_sym g x y U)) as (D2 & A2 & B2 & C2). exact (no_two (edge_in D2) (do_acyclic _ _ A2) x y (K D2 A2 B2) C2).
  - intros T. destruct (two_way_choice D g _ x y ND DG M T) as (D1 & A1 & B1 & C1). destruct (two_way_choice D g _ y x ND DG M (U_sym g x y T)) as (D2 & A2 & B2 & C2). exists D1, D2. auto 10.
  - intros (D1 & D2 & G1 & G2 & Q1 & Q2 & E1 & E2). assert (M1 := pattern_equiv g D D1 Q1 M). assert (M2 := pattern_equiv g D D2 Q2 M). assert (A1 := do_acyclic _ _ G1). assert (A2 := do_acyclic _ _ G2).
    destruct (adj_kind D1 A1 g M1 x y (or_introl E1)) as [[O|O]|U]; [| |exact U]; exfalso.
    + apply (mp_one_E D2 A2 g M2) in O. exact (no_two (edge_in D2) A2 x y O E2).
    + apply (mp_one_E D1 A1 g M1) in O. exact (no_two (edge_in D1) A1 x y E1 O).
Qed.
Print Assumptions C122_class.
(* C122: two tables, analysed with whichever of the algorithms, tests and thresholds, give the same graph if the tests are right where it matters for equivalent DAGs *)
Theorem C122_agree : forall D D' g0 g0' g g', right_run D g0 g -> right_run D' g0' g' -> equivalent D D' -> forall x y, directed_edge_exists g x y = directed_edge_exists g' x y.
Proof.
  intros D D' g0 g0' g g' H H' Q x y. destruct (right_pattern D g0 g H) as (_ & _ & M). destruct (right_pattern D' g0' g' H') as (_ & _ & M'). assert (K := pattern_equiv g D D' Q M). apply eq_true_iff_eq. rewrite (K x y), (M' x y). reflexivity.
Qed.
Print Assumptions C122_agree.
(* C122: the graph tells the DAG up to equivalence: if the tests are right where it matters for two DAGs and the graphs are the same, they are equivalent *)
Theorem C122_identifies : forall D D' g0 g0' g g', right_run D g0 g -> right_run D' g0' g' -> (forall x y, directed_edge_exists g x y = directed_edge_exists g' x y) -> equivalent D D'.
Proof.
  assert (L : forall D D' g, acyclic (edge_in D) -> acyclic (edge_in D') -> meek_pattern g D -> meek_pattern g D' -> (forall x y, adjacent (edge_in D) x y -> adjacent (edge_in D') x y) /\ forall x z y, (forall x y, adjacent (edge_in D') x y -> adjacent (edge_in D) x y) -> vstruct D x z y -> vstruct D' x z y).
  { intros D D' g Ac Ac' M M'. split.
    - intros x y A. assert (H := mp_adj D Ac g M x y A). rewrite edge_exists_or, orb_true_iff in H. destruct H as [H|H]; apply M' in H; [|apply adjacent_sym]; apply H.
    - intros x z y B V. destruct V as (E1 & E2 & Ne & NA). assert (V1 : vstruct D x z y) by (split; auto). assert (V2 : vstruct D y z x) by (split; [exact E2|split; [exact E1|split; [congruence|intros Q; apply NA, adjacent_sym, Q]]]).
      split; [exact (mp_one_E D' Ac' g M' x z (mp_oriented D Ac g M x z (or_v D x z y V1)))|]. split; [exact (mp_one_E D' Ac' g M' y z (mp_oriented D Ac g M y z (or_v D y z x V2)))|]. split; [exact Ne|]. intros Q. apply NA, B, Q. }
  intros D D' g0 g0' g g' H H' S. destruct (right_pattern D g0 g H) as (_ & DG & M). destruct (right_pattern D' g0' g' H') as (_ & DG' & M'). assert (K : meek_pattern g D') by (intros x y; rewrite (S x y); apply M').
  destruct (L D D' g (do_acyclic _ _ DG) (do_acyclic _ _ DG') M K) as [A1 V1]. destruct (L D' D g (do_acyclic _ _ DG') (do_acyclic _ _ DG) K M) as [A2 V2]. split; [intros x y; split; auto|]. intros x z y. split; [apply V1, A2|apply V2, A1].
Qed.
Print Assumptions C122_identifies.

Example C122_right_nonvacuous : exists g, right_run df gf g /\ two_way g "p" "x".
Proof.
  destruct C122_nonvacuous as (g1 & g & H1 & H2 & H3 & H4 & H5 & _ & _ & H8). exists g. split.
  - destruct (C122_shipped dedup blind) as (rest & O & _ & Q & _). rewrite Q in H5. destruct gf_ideal as (DG & _). eapply right_run_of; [exact gf_start|exact dedup_order|exact DG|exact H1|exact H2|exact O|exact H3|exact H8|exact H4|exact H5].
  - vm_compute in H5. injection H5 as <-. vm_compute. reflexivity.
Qed.
