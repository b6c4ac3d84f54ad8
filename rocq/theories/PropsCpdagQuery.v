(* Property C68 (d-separation asked of a graph with one-way and two-way edges).  Statements only. *)
From Verif Require Import Base PyDict Graph GraphSpec GraphInv GraphCheck GraphMain GraphPaths Dag DagFacts PathSpec SkelSpec OrientSpec OrientTop CpdagFacts Actions ActionSpec
  ActionMain Generators Rules IndepTests Pipeline Parallel PipeSpec PipeMain PipeMain2 PropsPipe Construct ConstructFacts SkelStart DsepDec Ideal SkelTop PropsPC PathFacts
  TypeSpec TypeFacts CpdagQuerySpec CpdagQuery MarkovSpec Markov PropsPaths PropsOrient.
Open Scope string_scope.
Open Scope list_scope.

(* C68: "separated" is right, for every DAG with these adjacencies and v-structures *)
Theorem C68_separated_is_right : forall g D so S u v fuel, reached g -> acyclic (edge_in D) -> meek_pattern g D -> types_match g ->
  set_order so -> List.length (nodes g) < fuel ->
  exists b, are_nodes_d_separated_cpdag fuel so g u v (nodes_of S) = Ok b /\
    (b = true -> forall D', acyclic (edge_in D') -> equivalent D D' -> dsep D' u v S).
Proof.
  intros g D so S u v fuel R Ac M TM SO Fu. assert (HN : NoDup (dkeys (nodes g))) by exact (wf_nodes _ (reached_WF _ R)).
  destruct (query_sound D Ac g M TM so S fuel u v HN SO Fu) as (b & Q & _). exists b. split; [exact Q|].
  intros Hb D' Ac' Q'. destruct (query_sound D' Ac' g (pattern_equiv g D D' Q' M) TM so S fuel u v HN SO Fu) as (b' & Q2 & K).
  rewrite Q in Q2. injection Q2 as <-. exact (K Hb).
Qed.
Print Assumptions C68_separated_is_right.
(* both answers are right where every path between u and v is of definite status and S opens, on each path,
   either all colliders or none.  Missing: other graphs and sets, for which "connected" can be wrong. *)
Theorem C68_exact_partial : forall g D so S u v fuel, reached g -> acyclic (edge_in D) -> meek_pattern g D -> types_match g ->
  set_order so -> List.length (nodes g) < fuel -> all_definite g u v -> uniform_surely g u v S ->
  exists b, are_nodes_d_separated_cpdag fuel so g u v (nodes_of S) = Ok b /\ (b = true <-> dsep D u v S).
Proof.
  intros g D so S u v fuel R Ac M TM SO Fu AD UN. exact (query_exact D Ac g M TM so S fuel u v (wf_nodes _ (reached_WF _ R)) SO Fu AD UN).
Qed.
Print Assumptions C68_exact_partial.

(* the results of PC are such graphs *)
Lemma pc_types fuel P l g0 D N g r : perfect_run fuel P l g0 D N -> execute_pipeline fuel P no_hooks l g0 = (g, r) -> types_match g.
Proof.
  intros [[d S0] _ _ [so [_ A]] _] R. refine (types_shipped fuel P l g0 g r (start_reached d g0 S0) _ _ R (types_start d g0 S0)).
  - destruct A as [| |sh sh' coin _ _ HP _]; intros p s Hp Hs; [| |intros _; exact HP]; unfold pc, pc_classic in Hp; cbn in Hp;
      repeat (destruct Hp as [<-|Hp]; [cbn in Hs; repeat (destruct Hs as [<-|Hs]; [discriminate|]); destruct Hs|]); destruct Hp.
  - destruct A as [| |sh sh' coin _ _ _ _]; [apply (C35_algorithms so (fun _ l => l) (fun _ l => l) (fun _ _ => true))..|apply C35_algorithms].
Qed.
Theorem C68_pc : forall fuel P l g0 D N g r so S u v fuel', perfect_run fuel P l g0 D N -> execute_pipeline fuel P no_hooks l g0 = (g, r) ->
  set_order so -> List.length (nodes g0) < fuel' ->
  exists b, are_nodes_d_separated_cpdag fuel' so g u v (nodes_of S) = Ok b /\ (b = true -> dsep D u v S).
Proof.
  intros fuel P l g0 D N g r so S u v fuel' H R SO Fu. destruct (exact_pattern fuel P l g0 D N g r H R) as (En & M & _).
  assert (HN : NoDup (dkeys (nodes g))) by (rewrite En; destruct (pr_start _ _ _ _ _ _ H) as [d S0]; exact (wf_nodes _ (cp_wf _ (complete_start d g0 S0)))).
  apply (query_sound D (do_acyclic _ _ (pr_dag _ _ _ _ _ _ H)) g M (pc_types fuel P l g0 D N g r H R) so S fuel' u v HN SO). rewrite En. exact Fu.
Qed.
Print Assumptions C68_pc.

(* PC over u -> a, u -> b, a -> b, a -> v, b -> v returns only two-way edges; u and v are separated by a and b,
   but the path u - a - b - v is not of definite status and counts as open *)
Definition namesU : list id := ["u"; "a"; "b"; "v"].
Definition dagU : list (id * id) := [("u", "a"); ("u", "b"); ("a", "b"); ("a", "v"); ("b", "v")].
Lemma nodupU : NoDup namesU.
Proof. repeat constructor; cbn; intuition discriminate. Qed.
Lemma dagU_dag : dag_over namesU dagU.
Proof. apply dag_by_order; [exact nodupU|reflexivity]. Qed.
Theorem C68_connected_refuted : exists fuel P l g0 D N g S u v, perfect_run fuel P l g0 D N /\ execute_pipeline fuel P no_hooks l g0 = (g, Ok tt) /\
  are_nodes_d_separated_cpdag 5 dedup g u v (nodes_of S) = Ok false /\ dsep D u v S.
Proof.
  destruct (ideal_exists namesU dagU nodupU dagU_dag) as (g0 & S0 & _ & DG & PT). assert (G0 := S0). vm_compute in G0. injection G0 as G0.
  exists 18, (batch_runner no_hooks), (pc dedup (ideal namesU dagU)), g0, dagU, (ideal namesU dagU). eexists. exists ["a"; "b"], "u", "v". split.
  { split; [eexists; exact S0|exact DG|eexists; exact PT|exists dedup; split; [exact dedup_order|constructor]|]. rewrite <- G0. vm_compute. lia. }
  split; [rewrite <- G0; vm_compute; reflexivity|]. split; [vm_compute; reflexivity|].
  apply (dsepb_iff dagU (do_acyclic _ _ dagU_dag)). vm_compute. reflexivity.
Qed.
Print Assumptions C68_connected_refuted.

Lemma check_definite g u v fuel ps : types_match g -> NoDup (dkeys (nodes g)) -> List.length (nodes g) < fuel ->
  all_paths fuel g u v = Ok ps -> forallb (definite_status g) ps = true -> all_definite g u v.
Proof.
  intros TM HN Hf E F p SP. destruct (all_paths_spec g u v fuel HN Hf) as (ps' & E' & _ & H). rewrite E in E'. injection E' as <-.
  apply H in SP. rewrite forallb_forall in F. apply (definite_is g TM). exact (F p SP).
Qed.
(* a -> c <- b, c -> d *)
Example C68_nonvacuous : exists g0 N g, perfect_run 18 (batch_runner no_hooks) (pc dedup N) g0 dag4o N /\
  execute_pipeline 18 (batch_runner no_hooks) no_hooks (pc dedup N) g0 = (g, Ok tt) /\ meek_pattern g dag4o /\ types_match g /\
  all_definite g "a" "b" /\ uniform_surely g "a" "b" [] /\
  are_nodes_d_separated_cpdag 5 dedup g "a" "b" (nodes_of []) = Ok true /\
  are_nodes_d_separated_cpdag 5 dedup g "a" "b" (nodes_of ["d"]) = Ok false /\
  are_nodes_d_separated_cpdag 5 dedup g "a" "d" (nodes_of ["c"]) = Ok true.
Proof.
  destruct (ideal_exists names4o dag4o nodup4o dag4o_dag) as (g0 & S0 & _ & DG & PT). assert (G0 := S0). vm_compute in G0. injection G0 as G0.
  assert (H : perfect_run 18 (batch_runner no_hooks) (pc dedup (ideal names4o dag4o)) g0 dag4o (ideal names4o dag4o)).
  { split; [eexists; exact S0|exact DG|eexists; exact PT|exists dedup; split; [exact dedup_order|constructor]|]. rewrite <- G0. vm_compute. lia. }
  exists g0, (ideal names4o dag4o). eexists. split; [exact H|].
  match goal with |- ?A = (?g, _) /\ _ => assert (R : A = (g, Ok tt)) by (rewrite <- G0; vm_compute; reflexivity) end.
  split; [exact R|]. destruct (exact_pattern _ _ _ _ _ _ _ _ H R) as (En & M & _). assert (TM := pc_types _ _ _ _ _ _ _ _ H R).
  split; [exact M|]. split; [exact TM|]. split.
  - eapply (check_definite _ _ _ 5); [exact TM| | |vm_compute; reflexivity|vm_compute; reflexivity].
    + rewrite En. exact (wf_nodes _ (cp_wf _ (complete_start _ g0 S0))).
    + vm_compute; lia.
  - split; [intros p a b c a' b' c' _ _ _ _ _ (d & _ & [])|]. split; [vm_compute; reflexivity|]. split; vm_compute; reflexivity.
Qed.
