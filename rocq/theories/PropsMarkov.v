(* What conditional independences can and cannot decide, and what PC returns: C66. *)
From Verif Require Import Base PyDict Graph GraphSpec GraphFacts GraphInv GraphCheck PathSpec Actions ActionSpec ActionMain Generators GenSpec Rules IndepTests Pipeline Parallel PipeSpec PipeMain2
  Construct ConstructFacts Dag DagFacts DagSep SkelSpec SkelStart Schedules Ideal SkelTop OrientSpec OrientGraph OrientTop PropsPC CpdagFacts MarkovSpec Markov PropsCpdag.
Open Scope string_scope.
Open Scope list_scope.
Open Scope nat_scope.

(* C66: two runs over the same variables, with tests that answer by D and by D', return the same edges exactly
   when D and D' imply the same conditional independences; data, algorithm variant, worker count and schedule
   may differ *)
Theorem C66_same_result : forall fuel P l g0 D N g r fuel' P' l' g0' D' N' g' r', dkeys (nodes g0') = dkeys (nodes g0) ->
  perfect_run fuel P l g0 D N -> execute_pipeline fuel P no_hooks l g0 = (g, r) ->
  perfect_run fuel' P' l' g0' D' N' -> execute_pipeline fuel' P' no_hooks l' g0' = (g', r') ->
  ((forall x y, directed_edge_exists g x y = directed_edge_exists g' x y) <-> same_independences (dkeys (nodes g0)) D D').
Proof.
  intros fuel P l g0 D N g r fuel' P' l' g0' D' N' g' r' K H R H' R'. destruct (exact_pattern _ _ _ _ _ _ _ _ H R) as (_ & M & _). destruct (exact_pattern _ _ _ _ _ _ _ _ H' R') as (_ & M' & _).
  assert (DG := pr_dag _ _ _ _ _ _ H). assert (DG' := pr_dag _ _ _ _ _ _ H'). rewrite K in DG'. rewrite <- (equivalent_iff _ D D' DG DG').
  assert (Ac := do_acyclic _ _ DG). assert (Ac' := do_acyclic _ _ DG'). split.
  - intros Q. assert (M2 : meek_pattern g D') by (intros x y; rewrite Q; apply M').
    assert (AD : forall x y, adjacent (edge_in D) x y <-> adjacent (edge_in D') x y) by (intros x y; rewrite <- (mp_ee D Ac g M x y), <- (mp_ee D' Ac' g M2 x y); reflexivity).
    split; [exact AD|]. intros x z y. split; intros V.
    + destruct (mp_vs D Ac g M x z y V) as (A & B & C). apply (mp_no_new D' Ac' g M2); auto. apply V.
    + destruct (mp_vs D' Ac' g M2 x z y V) as (A & B & C). apply (mp_no_new D Ac g M); auto. apply V.
  - intros Q x y. assert (M2 := pattern_equiv g' D' D (equiv_sym _ _ Q) M'). destruct (directed_edge_exists g x y) eqn:X, (directed_edge_exists g' x y) eqn:Y; try reflexivity; exfalso.
    + apply M, M2 in X. congruence.
    + apply M2, M in Y. congruence.
Qed.
Print Assumptions C66_same_result.

(* an edge is left two-way exactly when two DAGs that imply the independences of D disagree on it *)
Theorem C66_two_way : forall fuel P l g0 D N g r, perfect_run fuel P l g0 D N -> execute_pipeline fuel P no_hooks l g0 = (g, r) ->
  forall x y, two_way g x y <-> exists D1 D2, dag_over (dkeys (nodes g0)) D1 /\ dag_over (dkeys (nodes g0)) D2 /\
    same_independences (dkeys (nodes g0)) D D1 /\ same_independences (dkeys (nodes g0)) D D2 /\ edge_in D1 x y /\ edge_in D2 y x.
Proof.
  intros fuel P l g0 D N g r H R x y. rewrite (C31_two_way _ _ _ _ _ _ _ _ H R x y). assert (DG := pr_dag _ _ _ _ _ _ H).
  split; intros (D1 & D2 & G1 & G2 & Q1 & Q2 & E1 & E2); exists D1, D2; (split; [exact G1|split; [exact G2|split; [|split; [|auto]]]]);
    first [apply (equivalent_iff _ D D1 DG G1); exact Q1|apply (equivalent_iff _ D D2 DG G2); exact Q2].
Qed.
Print Assumptions C66_two_way.
(* an arrow is drawn exactly when all of them agree on it *)
Theorem C66_one_way : forall fuel P l g0 D N g r, perfect_run fuel P l g0 D N -> execute_pipeline fuel P no_hooks l g0 = (g, r) ->
  forall x y, one_way g x y <-> forall D', dag_over (dkeys (nodes g0)) D' -> same_independences (dkeys (nodes g0)) D D' -> edge_in D' x y.
Proof.
  intros fuel P l g0 D N g r H R x y. rewrite (C31_one_way _ _ _ _ _ _ _ _ H R x y). assert (DG := pr_dag _ _ _ _ _ _ H).
  split; intros K D' G' Q; apply (K D' G'); apply (equivalent_iff _ D D' DG G'); exact Q.
Qed.
Print Assumptions C66_one_way.
(* tests that answer by D answer by every DAG with the same independences: a run is a run for each of them *)
Theorem C66_indistinguishable : forall fuel P l g0 D N D', perfect_run fuel P l g0 D N -> dag_over (dkeys (nodes g0)) D' ->
  same_independences (dkeys (nodes g0)) D D' -> perfect_run fuel P l g0 D' N.
Proof.
  intros fuel P l g0 D N D' [S0 DG [c [T1 T2 T3 T4 T5]] A FU] G' Q. split; [exact S0|exact G'| |exact A|exact FU]. exists c. split; [exact T1|exact T2| | |].
  - intros x y X Y Ne. destruct (T3 x y X Y Ne) as (b & B1 & B2). exists b. split; [exact B1|]. unfold says in *. rewrite B2. apply Q; auto; intros z [].
  - intros x y z X Y Z ND. destruct (T4 x y z X Y Z ND) as (b & B1 & B2). exists b. split; [exact B1|]. unfold says in *. rewrite B2. inversion ND as [|? ? N1 ND1]; subst. inversion ND1 as [|? ? N2 _]; subst.
    apply Q; [exact X|exact Y|intros ->; apply N1; left; reflexivity|intros ? [<-|[]]; exact Z|intros [->|[]]; apply N1; right; left; reflexivity|intros [->|[]]; apply N2; left; reflexivity].
  - intros x y S ND I Ne. destruct (T5 x y S ND I Ne) as (b & B1 & B2). exists b. split; [exact B1|]. unfold says in *. rewrite B2. inversion ND as [|? ? N1 ND1]; subst. inversion ND1 as [|? ? N2 _]; subst.
    apply Q; [apply I; left; reflexivity|apply I; right; left; reflexivity|intros ->; apply N1; left; reflexivity|intros z Hz; apply I; right; right; exact Hz|intros Hx; apply N1; right; exact Hx|exact N2].
Qed.
Print Assumptions C66_indistinguishable.

(* d -> e may be turned round, the arrows into c may not *)
Example C66_nonvacuous : same_independences names5c dag5c [("a", "c"); ("b", "c"); ("e", "d")] /\ ~ same_independences names5c dag5c [("a", "c"); ("c", "b"); ("d", "e")].
Proof.
  assert (G1 : dag_over names5c [("a", "c"); ("b", "c"); ("e", "d")]).
  { assert (P : NoDup ["a"; "b"; "c"; "e"; "d"]) by (repeat constructor; cbn; intuition discriminate). assert (X : dag_over ["a"; "b"; "c"; "e"; "d"] [("a", "c"); ("b", "c"); ("e", "d")]) by (apply dag_by_order; [exact P|reflexivity]).
    split; [|exact (do_acyclic _ _ X)]. intros x y H. apply (do_nodes _ _ X) in H. unfold names5c. cbn in *. tauto. }
  assert (G2 : dag_over names5c [("a", "c"); ("c", "b"); ("d", "e")]).
  { assert (P : NoDup ["a"; "c"; "b"; "d"; "e"]) by (repeat constructor; cbn; intuition discriminate). assert (X : dag_over ["a"; "c"; "b"; "d"; "e"] [("a", "c"); ("c", "b"); ("d", "e")]) by (apply dag_by_order; [exact P|reflexivity]).
    split; [|exact (do_acyclic _ _ X)]. intros x y H. apply (do_nodes _ _ X) in H. unfold names5c. cbn in *. tauto. }
  split.
  - apply (equivalent_iff _ _ _ dag5c_dag G1). split.
    + intros x y. unfold adjacent, edge_in, dag5c. cbn. split; intros K; repeat (destruct K as [K|K]; try contradiction); injection K as <- <-; auto 10.
    + intros x z y. unfold vstruct, adjacent, edge_in, dag5c. cbn. split; intros (A & B & N & NA); repeat (destruct A as [A|A]; try contradiction); injection A as <- <-; repeat (destruct B as [B|B]; try contradiction); try discriminate B; injection B as <-; try congruence; repeat split; auto; intros K; apply NA; repeat (destruct K as [K|K]; try contradiction); try discriminate K.
  - intros Q. apply (equivalent_iff _ _ _ dag5c_dag G2) in Q. assert (V : vstruct dag5c "a" "c" "b").
    { repeat split; [left; reflexivity|right; left; reflexivity|discriminate|]. intros K. unfold adjacent, edge_in, dag5c in K. cbn in K. repeat (destruct K as [K|K]; try contradiction); discriminate K. }
    apply (proj2 Q) in V. destruct V as (_ & B & _). unfold edge_in in B. cbn in B. repeat (destruct B as [B|B]; try contradiction); discriminate B.
Qed.
