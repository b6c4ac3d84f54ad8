(* ColliderRuleFCI: C97. *)
From Verif Require Import Base PyDict Graph GraphSpec GraphCheck PathSpec Actions Generators Rules IndepTests Pipeline Parallel PipeSpec PipeMain2
  Construct ConstructFacts Dag SkelSpec SkelStart Schedules Ideal OrientSpec PropsPC PropsCpdag Fci FciSpec FciFacts.
Open Scope string_scope.
Open Scope list_scope.
Open Scope nat_scope.

Definition a_skeleton (N : numerics) (sk : list pstep) : Prop := exists so, set_order so /\ (sk = pc_skeleton so N \/ sk = pc_classic_skeleton so N).
(* C97: after the skeleton phase of PC or PCClassic with a perfect test, the rule leaves the graph of the skeleton and
   marks exactly the directions x -> z for which D has an unshielded collider x -> z <- y *)
Theorem C97_marks_partial : forall fuel P so sk d g0 D N c, start_graph d = Ok g0 -> dag_over (dkeys (nodes g0)) D ->
  perfect_tests N (values_of g0) (dkeys (nodes g0)) D c -> a_skeleton N sk -> set_order so ->
  exists g1 g, execute_pipeline fuel P no_hooks sk g0 = (g1, Ok tt) /\ execute_pipeline fuel P no_hooks (sk ++ [PStep (fci_rule so)]) g0 = (g, Ok tt) /\ nodes g = nodes g0 /\
  (forall x y, directed_edge_exists g x y = true <-> adjacent (edge_in D) x y) /\
  (forall x z, adjacent (edge_in D) x z -> edge_type g x z = edge_type g1 x z /\
     (arrowhead D x z -> edge_value g x z = Ok (Some mark)) /\
     (~ arrowhead D x z -> edge_value g x z = edge_value g1 x z /\ exists m, edge_value g x z = Ok (Some m) /\ dget m "correlation" = Some (MNum (c x z)))).
Proof.
  intros fuel P so sk d g0 D N c S0 DG PT (so0 & O0 & [H|H]) SO; rewrite H.
  - exact (fci_pc fuel P so0 so d g0 D N c S0 DG PT O0 SO).
  - exact (fci_classic fuel P so0 so d g0 D N c S0 DG PT O0 SO).
Qed.
Print Assumptions C97_marks_partial.
Lemma arrowhead_dec D x z : arrowhead D x z \/ ~ arrowhead D x z.
Proof.
  assert (H : forall l, (exists y, In y l /\ vstruct D x z y) \/ ~ exists y, In y l /\ vstruct D x z y).
  { induction l as [|y l IH]; [right; intros (y & [] & _)|]. destruct (OrientGraph.vstruct_dec D x z y) as [V|V]; [left; exists y; cbn; auto|].
    destruct IH as [(y' & H1 & H2)|IH]; [left; exists y'; cbn; auto|]. right. intros (y' & [X|H1] & H2); [subst y'; auto|apply IH; exists y'; auto]. }
  destruct (H (map fst D)) as [(y & _ & V)|N]; [left; exists y; exact V|]. right. intros (y & V). apply N. exists y. split; [|exact V].
  destruct V as (_ & V & _). apply (in_map fst) in V. exact V.
Qed.
Theorem C97_iff : forall fuel P so sk d g0 D N c g r, start_graph d = Ok g0 -> dag_over (dkeys (nodes g0)) D ->
  perfect_tests N (values_of g0) (dkeys (nodes g0)) D c -> a_skeleton N sk -> set_order so -> execute_pipeline fuel P no_hooks (sk ++ [PStep (fci_rule so)]) g0 = (g, r) ->
  r = Ok tt /\ forall x z, edge_value g x z = Ok (Some mark) <-> exists y, edge_in D x z /\ edge_in D y z /\ x <> y /\ ~ adjacent (edge_in D) x y.
Proof.
  intros fuel P so sk d g0 D N c g r S0 DG PT K SO R.
  destruct (C97_marks_partial fuel P so sk d g0 D N c S0 DG PT K SO) as (g1 & h & _ & E & _ & A & M). rewrite R in E. injection E as -> ->. split; [reflexivity|]. intros x z.
  change (edge_value h x z = Ok (Some mark) <-> arrowhead D x z). split.
  - intros V. destruct (directed_edge_exists h x z) eqn:L.
    + apply A in L. destruct (arrowhead_dec D x z) as [H|H]; [exact H|]. exfalso. destruct (M x z L) as (_ & _ & M2). destruct (M2 H) as (_ & m & V' & C). rewrite V in V'. injection V' as <-. discriminate C.
    + exfalso. unfold edge_value in V. rewrite GraphQ.edge_exists_or, L in V. destruct (directed_edge_exists h z x) eqn:L2; [|discriminate V].
      apply A in L2. assert (L3 := proj2 (A x z) (DagFacts.adjacent_sym _ _ _ L2)). congruence.
  - intros H. apply M; [|exact H]. destruct H as (y & H & _). left. exact H.
Qed.
Print Assumptions C97_iff.
(* the mark replaces the metadata of the edge: what the tests stored there is lost *)
Theorem C97_correlation_refuted : exists fuel P so sk d g0 D N c g1 g x z m, start_graph d = Ok g0 /\ dag_over (dkeys (nodes g0)) D /\
  perfect_tests N (values_of g0) (dkeys (nodes g0)) D c /\ a_skeleton N sk /\ set_order so /\ execute_pipeline fuel P no_hooks sk g0 = (g1, Ok tt) /\
  execute_pipeline fuel P no_hooks (sk ++ [PStep (fci_rule so)]) g0 = (g, Ok tt) /\
  edge_value g1 x z = Ok (Some m) /\ dget m "correlation" = Some (MNum (c x z)) /\ exists m', edge_value g x z = Ok (Some m') /\ dget m' "correlation" = None.
Proof.
  destruct (ideal_exists names5c dag5c nodup5c dag5c_dag) as (g0 & S0 & _ & DG & PT). assert (G0 := S0). vm_compute in G0. injection G0 as G0.
  exists 1, (batch_runner no_hooks), dedup, (pc_skeleton dedup (ideal names5c dag5c)), (ideal_data names5c), g0, dag5c, (ideal names5c dag5c), (ideal_corr names5c).
  do 2 eexists. exists "a", "c". eexists. split; [exact S0|]. split; [exact DG|]. split; [exact PT|]. split; [exists dedup; split; [exact dedup_order|left; reflexivity]|]. split; [exact dedup_order|].
  split; [rewrite <- G0; vm_compute; reflexivity|]. split; [rewrite <- G0; vm_compute; reflexivity|]. split; [vm_compute; reflexivity|]. split; [vm_compute; reflexivity|].
  eexists. split; vm_compute; reflexivity.
Qed.
Print Assumptions C97_correlation_refuted.
(* "if u and v are adjacent, do nothing": x -> y counts as not adjacent, and the edges of the shielded triple are marked *)
Definition gShield : graph := build ["x"; "y"; "z"] [("x", "y")] [("x", "z"); ("y", "z")].
Theorem C97_shielded_refuted : exists g x y z fuel P so g', reachable g /\ set_order so /\ directed_edge_exists g x y = true /\
  execute_pipeline fuel P no_hooks [PStep (fci_rule so)] g = (g', Ok tt) /\
  edge_value g' x z = Ok (Some mark) /\ edge_value g' y z = Ok (Some mark) /\ edge_value g x z = Ok None /\ edge_value g y z = Ok None.
Proof.
  exists gShield, "x", "y", "z", 1, (batch_runner no_hooks), dedup. eexists. split; [apply build_reachable|]. split; [exact dedup_order|]. repeat (split; [vm_compute; reflexivity|]). vm_compute; reflexivity.
Qed.
Print Assumptions C97_shielded_refuted.

(* a -> c <- b, d -> e: a -> c and b -> c are marked, c -> a and d - e keep their metadata *)
Example C97_nonvacuous : exists fuel P so sk d g0 D N c g, start_graph d = Ok g0 /\ dag_over (dkeys (nodes g0)) D /\
  perfect_tests N (values_of g0) (dkeys (nodes g0)) D c /\ a_skeleton N sk /\ set_order so /\
  execute_pipeline fuel P no_hooks (sk ++ [PStep (fci_rule so)]) g0 = (g, Ok tt) /\
  edge_value g "a" "c" = Ok (Some mark) /\ edge_value g "b" "c" = Ok (Some mark) /\ directed_edge_exists g "c" "a" = true /\ edge_value g "c" "a" <> Ok (Some mark) /\
  directed_edge_exists g "d" "e" = true /\ edge_value g "d" "e" <> Ok (Some mark).
Proof.
  destruct (ideal_exists names5c dag5c nodup5c dag5c_dag) as (g0 & S0 & _ & DG & PT). assert (G0 := S0). vm_compute in G0. injection G0 as G0.
  exists 1, (batch_runner no_hooks), dedup, (pc_classic_skeleton dedup (ideal names5c dag5c)), (ideal_data names5c), g0, dag5c, (ideal names5c dag5c), (ideal_corr names5c).
  eexists. split; [exact S0|]. split; [exact DG|]. split; [exact PT|]. split; [exists dedup; split; [exact dedup_order|right; reflexivity]|]. split; [exact dedup_order|].
  split; [rewrite <- G0; vm_compute; reflexivity|]. split; [vm_compute; reflexivity|]. split; [vm_compute; reflexivity|]. split; [vm_compute; reflexivity|]. split; [vm_compute; discriminate|].
  split; [vm_compute; reflexivity|vm_compute; discriminate].
Qed.
