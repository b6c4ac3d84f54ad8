(* PC returns the equivalence class of the DAG: C31. *)
From Verif Require Import Base PyDict Graph GraphSpec GraphFacts GraphInv GraphCheck PathSpec Actions ActionSpec ActionMain Generators GenSpec Rules IndepTests Pipeline Parallel PipeSpec PipeMain2
  Construct ConstructFacts Dag DagFacts DagSep SkelSpec SkelStart Schedules Ideal SkelTop OrientSpec OrientGraph OrientTop PropsPC CpdagFacts.
Open Scope string_scope.
Open Scope list_scope.
Open Scope nat_scope.

(* C31: an edge is left two-way exactly when two DAGs with the skeleton and the v-structures of D disagree on
   it, and an arrow is drawn exactly when all of them agree *)
Theorem C31_two_way : forall fuel P l g0 D N g r, perfect_run fuel P l g0 D N -> execute_pipeline fuel P no_hooks l g0 = (g, r) ->
  forall x y, two_way g x y <-> exists D1 D2, dag_over (dkeys (nodes g0)) D1 /\ dag_over (dkeys (nodes g0)) D2 /\
    equivalent D D1 /\ equivalent D D2 /\ edge_in D1 x y /\ edge_in D2 y x.
Proof.
  intros fuel P l g0 D N g r H R x y. destruct (exact_pattern fuel P l g0 D N g r H R) as (_ & M & _). assert (DG := pr_dag _ _ _ _ _ _ H). destruct (pr_start _ _ _ _ _ _ H) as [d S0].
  assert (ND := wf_nodes _ (cp_wf _ (complete_start d g0 S0))). split.
  - intros T. destruct (two_way_choice D g _ x y ND DG M T) as (D1 & A1 & B1 & C1). destruct (two_way_choice D g _ y x ND DG M (U_sym g x y T)) as (D2 & A2 & B2 & C2). exists D1, D2. auto 10.
  - intros (D1 & D2 & G1 & G2 & Q1 & Q2 & E1 & E2).
    assert (M1 := pattern_equiv g D D1 Q1 M). assert (M2 := pattern_equiv g D D2 Q2 M). assert (A1 := do_acyclic _ _ G1). assert (A2 := do_acyclic _ _ G2).
    destruct (adj_kind D1 A1 g M1 x y (or_introl E1)) as [[O|O]|U]; [| |exact U]; exfalso.
    + apply (mp_one_E D2 A2 g M2) in O. exact (no_two (edge_in D2) A2 x y O E2).
    + apply (mp_one_E D1 A1 g M1) in O. exact (no_two (edge_in D1) A1 x y E1 O).
Qed.
Print Assumptions C31_two_way.
Theorem C31_one_way : forall fuel P l g0 D N g r, perfect_run fuel P l g0 D N -> execute_pipeline fuel P no_hooks l g0 = (g, r) ->
  forall x y, one_way g x y <-> forall D', dag_over (dkeys (nodes g0)) D' -> equivalent D D' -> edge_in D' x y.
Proof.
  intros fuel P l g0 D N g r H R x y. destruct (exact_pattern fuel P l g0 D N g r H R) as (_ & M & _). assert (DG := pr_dag _ _ _ _ _ _ H). destruct (pr_start _ _ _ _ _ _ H) as [d S0].
  assert (ND := wf_nodes _ (cp_wf _ (complete_start d g0 S0))). assert (Ac := do_acyclic _ _ DG). split.
  - intros O D' G' Q. exact (mp_one_E D' (do_acyclic _ _ G') g (pattern_equiv g D D' Q M) x y O).
  - intros K. assert (Exy : edge_in D x y) by (apply K; [exact DG|split; reflexivity]).
    destruct (adj_kind D Ac g M x y (or_introl Exy)) as [[O|O]|U]; [exact O| |]; exfalso.
    + apply (mp_one_E D Ac g M) in O. exact (no_two (edge_in D) Ac x y Exy O).
    + destruct (two_way_choice D g _ y x ND DG M (U_sym g x y U)) as (D2 & A2 & B2 & C2). exact (no_two (edge_in D2) (do_acyclic _ _ A2) x y (K D2 A2 B2) C2).
Qed.
Print Assumptions C31_one_way.

(* a -> c <- b and d -> e: both arrows into c are drawn, d and e stay joined both ways *)
Definition names5c : list id := ["a"; "b"; "c"; "d"; "e"].
Definition dag5c : list (id * id) := [("a", "c"); ("b", "c"); ("d", "e")].
Lemma nodup5c : NoDup names5c.
Proof. repeat constructor; cbn; intuition discriminate. Qed.
Lemma dag5c_dag : dag_over names5c dag5c.
Proof. apply dag_by_order; [exact nodup5c|reflexivity]. Qed.
Example C31_nonvacuous : exists g0 N g, perfect_run 27 (batch_runner no_hooks) (pc dedup N) g0 dag5c N /\
  execute_pipeline 27 (batch_runner no_hooks) no_hooks (pc dedup N) g0 = (g, Ok tt) /\
  one_way g "a" "c" /\ one_way g "b" "c" /\ two_way g "d" "e".
Proof.
  destruct (ideal_exists names5c dag5c nodup5c dag5c_dag) as (g0 & S0 & _ & DG & PT). assert (G0 := S0). vm_compute in G0. injection G0 as G0.
  exists g0, (ideal names5c dag5c). eexists. split.
  { split; [eexists; exact S0|exact DG|eexists; exact PT|exists dedup; split; [exact dedup_order|constructor]|]. rewrite <- G0. vm_compute. lia. }
  split; [rewrite <- G0; vm_compute; reflexivity|]. repeat (split; [vm_compute; reflexivity|]). vm_compute; reflexivity.
Qed.
