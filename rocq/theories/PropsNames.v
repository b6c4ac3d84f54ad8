(* The names and the order of the columns and the arrows of the result: C110. *)
From Verif Require Import Base PyDict PyDictFacts Graph GraphSpec GraphFacts GraphInv GraphCheck PathSpec Actions ActionSpec ActionMain Generators GenSpec Rules IndepTests Pipeline Parallel PipeSpec PipeMain2
  Construct ConstructFacts Dag DagFacts SkelSpec SkelStart Schedules Ideal SkelTop OrientSpec OrientGraph OrientTop PropsPC PropsOrient TestedSpec NamesFacts.
Open Scope string_scope.
Open Scope list_scope.
Open Scope nat_scope.

(* C110: the tests answer by d-separation in some DAG over the columns.  The same columns under other names,
   hence in another order of iteration, and by PC, PCClassic or ParallelPC again: the same arrows and the
   same two-way edges under the new names, and the second run fails only if an edge effect cannot be computed *)
Theorem C110_partial : forall fuel fuel' P P' l l' so' d' g0 g0' D N s g g' r r',
  perfect_run fuel P l g0 D N -> start_graph d' = Ok g0' -> renamed s g0 g0' ->
  (forall x y, In x (dkeys (nodes g0)) -> In y (dkeys (nodes g0)) -> s x = s y -> x = y) ->
  set_order so' -> exact_algorithm P' so' N l' -> (List.length (nodes g0') * List.length (nodes g0') + 2 <= fuel') ->
  execute_pipeline fuel P no_hooks l g0 = (g, r) -> execute_pipeline fuel' P' no_hooks l' g0' = (g', r') ->
  (forall x y, In x (dkeys (nodes g0)) -> In y (dkeys (nodes g0)) -> directed_edge_exists g' (s x) (s y) = directed_edge_exists g x y) /\
  (forall e, r' = Err e -> exists xs zs ys, n_effect N xs zs ys = Err e).
Proof.
  intros fuel fuel' P P' l l' so' d' g0 g0' D N s g g' r r' H S0' [RN RV] Inj SO' A' FU' R R'.
  assert (DG := pr_dag _ _ _ _ _ _ H). destruct (pr_tests _ _ _ _ _ _ H) as [c PT]. assert (Over := do_nodes _ _ DG).
  set (ns := dkeys (nodes g0)) in *. set (ns' := dkeys (nodes g0')) in *.
  assert (H' : perfect_run fuel' P' l' g0' (image s D) N).
  { split; [eauto| |exists (fun u v => c (back s ns u) (back s ns v))|eauto|exact FU'].
    - split; [exact (image_over ns ns' s D RN Over)|]. apply (image_acyclic ns ns' s D RN Inj Over). exact (do_acyclic _ _ DG).
    - exact (image_tests ns ns' s D RN Inj Over N (values_of g0) (values_of g0') c RV PT). }
  destruct (exact_pattern _ _ _ _ _ _ _ _ H R) as (_ & M & _). destruct (exact_pattern _ _ _ _ _ _ _ _ H' R') as (_ & M' & F). split.
  - intros x y Hx Hy. assert (Q := M x y). assert (Q' := M' (s x) (s y)).
    rewrite <- (image_adjacent ns s D Inj Over x y Hx Hy), <- (image_oriented ns ns' s D RN Inj Over y x Hy Hx), <- Q in Q'.
    destruct (directed_edge_exists g x y), (directed_edge_exists g' (s x) (s y)); try reflexivity; [apply Q'; reflexivity|symmetry; apply Q'; reflexivity].
  - intros e ->. exact F.
Qed.
Print Assumptions C110_partial.

(* PCStable: one arrow among three variables and tests that answer by d-separation.  Which way the one edge of
   the result points is decided by the names of the columns. *)
Definition swap_yz (x : id) : id := if eqb x "y" then "z" else if eqb x "z" then "y" else x.
Definition data3n : rawdata := DDict [("x", [Some 1%Z]); ("z", [Some 2%Z]); ("y", [Some 3%Z])].
Theorem C110_stable_refuted : exists d d' g0 g0' D N c s g g' x y, start_graph d = Ok g0 /\ start_graph d' = Ok g0' /\
  dag_over (dkeys (nodes g0)) D /\ perfect_tests N (values_of g0) (dkeys (nodes g0)) D c /\ set_order dedup /\
  renamed s g0 g0' /\ (forall x y, s x = s y -> x = y) /\
  execute_pipeline 11 (batch_runner no_hooks) no_hooks (pc_stable dedup N) g0 = (g, Ok tt) /\
  execute_pipeline 11 (batch_runner no_hooks) no_hooks (pc_stable dedup N) g0' = (g', Ok tt) /\
  one_way g x y /\ one_way g' (s y) (s x).
Proof.
  destruct (ideal_exists names3 dag3 nodup3 dag3_dag) as (g0 & S0 & _ & DG & PT). assert (G0 := S0). vm_compute in G0. injection G0 as G0.
  assert (S0' : exists g0', start_graph data3n = Ok g0') by (eexists; vm_compute; reflexivity). destruct S0' as [g0' S0']. assert (G0' := S0'). vm_compute in G0'. injection G0' as G0'.
  exists (ideal_data names3), data3n, g0, g0', dag3, (ideal names3 dag3), (ideal_corr names3), swap_yz. eexists. eexists. exists "y", "z".
  split; [exact S0|]. split; [exact S0'|]. split; [exact DG|]. split; [exact PT|]. split; [exact dedup_order|].
  split.
  { split.
    - rewrite <- G0, <- G0'. apply NoDup_Permutation; [repeat constructor; cbn; intuition discriminate|vm_compute; repeat constructor; cbn; intuition discriminate|].
      intros z. cbn. tauto.
    - intros x Hx. rewrite <- G0 in Hx |- *. rewrite <- G0'. cbn in Hx. destruct Hx as [<-|[<-|[<-|[]]]]; vm_compute; reflexivity. }
  split.
  { intros x y. unfold swap_yz. repeat match goal with |- context [eqb ?a ?b] => destruct (eqb_spec a b) end; congruence. }
  split; [rewrite <- G0; vm_compute; reflexivity|]. split; [rewrite <- G0'; vm_compute; reflexivity|]. split; vm_compute; reflexivity.
Qed.
Print Assumptions C110_stable_refuted.

(* a -> c <- b, c -> d under two sets of names, by PC and by PCClassic *)
Definition swap_ad (x : id) : id := if eqb x "a" then "d" else if eqb x "d" then "a" else x.
Definition data4n : rawdata := DDict [("d", [Some 1%Z]); ("b", [Some 2%Z]); ("c", [Some 3%Z]); ("a", [Some 4%Z])].
Example C110_nonvacuous : exists g0 g0' N g g', perfect_run 18 (batch_runner no_hooks) (pc dedup N) g0 dag4o N /\
  start_graph data4n = Ok g0' /\ renamed swap_ad g0 g0' /\ (forall x y, swap_ad x = swap_ad y -> x = y) /\
  exact_algorithm (batch_runner no_hooks) dedup N (pc_classic dedup N) /\ List.length (nodes g0') * List.length (nodes g0') + 2 <= 18 /\
  execute_pipeline 18 (batch_runner no_hooks) no_hooks (pc dedup N) g0 = (g, Ok tt) /\
  execute_pipeline 18 (batch_runner no_hooks) no_hooks (pc_classic dedup N) g0' = (g', Ok tt) /\
  one_way g "c" "d" /\ one_way g' "c" "a".
Proof.
  destruct (ideal_exists names4o dag4o nodup4o dag4o_dag) as (g0 & S0 & _ & DG & PT). assert (G0 := S0). vm_compute in G0. injection G0 as G0.
  assert (S0' : exists g0', start_graph data4n = Ok g0') by (eexists; vm_compute; reflexivity). destruct S0' as [g0' S0']. assert (G0' := S0'). vm_compute in G0'. injection G0' as G0'.
  exists g0, g0', (ideal names4o dag4o). eexists. eexists. split.
  { split; [eexists; exact S0|exact DG|eexists; exact PT|exists dedup; split; [exact dedup_order|constructor]|]. rewrite <- G0. vm_compute. lia. }
  split; [exact S0'|]. split.
  { split.
    - rewrite <- G0, <- G0'. apply NoDup_Permutation; [vm_compute; repeat constructor; cbn; intuition discriminate|vm_compute; repeat constructor; cbn; intuition discriminate|].
      intros z. cbn. tauto.
    - intros x Hx. rewrite <- G0 in Hx |- *. rewrite <- G0'. cbn in Hx. destruct Hx as [<-|[<-|[<-|[<-|[]]]]]; vm_compute; reflexivity. }
  split.
  { intros x y. unfold swap_ad. repeat match goal with |- context [eqb ?a ?b] => destruct (eqb_spec a b) end; congruence. }
  split; [constructor|]. split; [rewrite <- G0'; vm_compute; lia|].
  split; [rewrite <- G0; vm_compute; reflexivity|]. split; [rewrite <- G0'; vm_compute; reflexivity|]. split; vm_compute; reflexivity.
Qed.
