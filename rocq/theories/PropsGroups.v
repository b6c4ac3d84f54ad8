(* Unrelated groups of variables: C112. *)
From Verif Require Import Base PyDict PyDictFacts Graph GraphSpec GraphFacts GraphInv GraphCheck PathSpec Actions ActionSpec ActionMain Generators GenSpec Rules IndepTests Pipeline Parallel PipeSpec PipeMain2
  Construct ConstructFacts Dag DagFacts SkelSpec SkelStart Schedules Ideal SkelTop OrientSpec OrientGraph OrientTop PropsPC PropsOrient NamesFacts GroupsFacts GraphQ.
Open Scope string_scope.
Open Scope list_scope.
Open Scope nat_scope.

(* C112: the tests answer by d-separation in a DAG D over the columns of a table (g0'), and D has no arrow
   between the columns of a smaller table (g0) and the others.  Then the smaller table gives the same arrows and
   two-way edges as the whole table, and the whole table gives no edge between the two groups. *)
Theorem C112_partial : forall fuel fuel' P P' l l' so d g0 g0' D N g g' r r',
  perfect_run fuel' P' l' g0' D N -> start_graph d = Ok g0 ->
  (forall x, In x (dkeys (nodes g0)) -> In x (dkeys (nodes g0')) /\ values_of g0 x = values_of g0' x) ->
  (forall x y, edge_in D x y -> (In x (dkeys (nodes g0)) <-> In y (dkeys (nodes g0)))) ->
  set_order so -> exact_algorithm P so N l -> List.length (nodes g0) * List.length (nodes g0) + 2 <= fuel ->
  execute_pipeline fuel P no_hooks l g0 = (g, r) -> execute_pipeline fuel' P' no_hooks l' g0' = (g', r') ->
  (forall x y, In x (dkeys (nodes g0)) -> directed_edge_exists g x y = directed_edge_exists g' x y) /\
  (forall x y, In x (dkeys (nodes g0)) -> ~ In y (dkeys (nodes g0)) -> edge_exists g' x y = false) /\
  (forall e, r = Err e -> exists xs zs ys, n_effect N xs zs ys = Err e).
Proof.
  intros fuel fuel' P P' l l' so d g0 g0' D N g g' r r' H S0 V Cl SO A FU R R'.
  assert (DG := pr_dag _ _ _ _ _ _ H). destruct (pr_tests _ _ _ _ _ _ H) as [c PT]. set (ns := dkeys (nodes g0)) in *. assert (Ac := do_acyclic _ _ DG).
  assert (H0 : perfect_run fuel P l g0 (within D ns) N).
  { split; [eauto| |exists c; exact (within_tests D ns Cl N (values_of g0) (values_of g0') (dkeys (nodes g0')) c V PT)|eauto|exact FU].
    split; [exact (within_over D ns Cl)|exact (within_acyclic D ns Ac)]. }
  destruct (exact_pattern _ _ _ _ _ _ _ _ H R') as (_ & M' & _). destruct (exact_pattern _ _ _ _ _ _ _ _ H0 R) as (_ & M & F). split; [|split].
  - intros x y Hx. assert (Q := M x y). assert (Q' := M' x y). rewrite (within_adj D ns Cl x y Hx) in Q.
    assert (X : adjacent (edge_in D) x y /\ ~ oriented (within D ns) y x <-> adjacent (edge_in D) x y /\ ~ oriented D y x).
    { split; intros [Ad O]; (split; [exact Ad|]); intros K; apply O; apply (within_oriented D ns Cl y x (adj_stays D ns Cl x y Hx Ad)); exact K. }
    rewrite X, <- Q' in Q. destruct (directed_edge_exists g x y), (directed_edge_exists g' x y); try reflexivity; [symmetry; apply Q; reflexivity|apply Q; reflexivity].
  - intros x y Hx Hy. destruct (edge_exists g' x y) eqn:Ee; [|reflexivity]. exfalso. apply Hy. rewrite edge_exists_or, Bool.orb_true_iff in Ee.
    assert (Ad : adjacent (edge_in D) x y). { destruct Ee as [Ee|Ee]; apply M' in Ee; destruct Ee as [K _]; [exact K|destruct K; [right|left]; assumption]. }
    exact (adj_stays D ns Cl x y Hx Ad).
  - intros e ->. exact F.
Qed.
Print Assumptions C112_partial.

(* PCStable: y and z alone are joined both ways; with an unrelated x in the table there is an arrow between them *)
Definition data2g : rawdata := DDict [("y", [Some 2%Z]); ("z", [Some 3%Z])].
Theorem C112_stable_refuted : exists d d' g0 g0' D N c g g' x y, start_graph d = Ok g0 /\ start_graph d' = Ok g0' /\
  dag_over (dkeys (nodes g0')) D /\ perfect_tests N (values_of g0') (dkeys (nodes g0')) D c /\ set_order dedup /\
  (forall x, In x (dkeys (nodes g0)) -> In x (dkeys (nodes g0')) /\ values_of g0 x = values_of g0' x) /\
  (forall x y, edge_in D x y -> (In x (dkeys (nodes g0)) <-> In y (dkeys (nodes g0)))) /\
  execute_pipeline 11 (batch_runner no_hooks) no_hooks (pc_stable dedup N) g0 = (g, Ok tt) /\
  execute_pipeline 11 (batch_runner no_hooks) no_hooks (pc_stable dedup N) g0' = (g', Ok tt) /\
  two_way g x y /\ one_way g' x y.
Proof.
  destruct (ideal_exists names3 dag3 nodup3 dag3_dag) as (g0' & S0' & _ & DG & PT). assert (G0' := S0'). vm_compute in G0'. injection G0' as G0'.
  assert (S0 : exists g0, start_graph data2g = Ok g0) by (eexists; vm_compute; reflexivity). destruct S0 as [g0 S0]. assert (G0 := S0). vm_compute in G0. injection G0 as G0.
  exists data2g, (ideal_data names3), g0, g0', dag3, (ideal names3 dag3), (ideal_corr names3). eexists. eexists. exists "y", "z".
  split; [exact S0|]. split; [exact S0'|]. split; [exact DG|]. split; [exact PT|]. split; [exact dedup_order|]. split.
  { intros x Hx. rewrite <- G0 in Hx |- *. rewrite <- G0'. cbn in Hx. destruct Hx as [<-|[<-|[]]]; (split; [cbn; auto|vm_compute; reflexivity]). }
  split. { intros x y [E|[]]. injection E as <- <-. rewrite <- G0. cbn. tauto. }
  split; [rewrite <- G0; vm_compute; reflexivity|]. split; [rewrite <- G0'; vm_compute; reflexivity|]. split; vm_compute; reflexivity.
Qed.
Print Assumptions C112_stable_refuted.

(* a -> c <- b beside d -> e *)
Definition names5g : list id := ["a"; "b"; "c"; "d"; "e"].
Definition dag5g : list (id * id) := [("a", "c"); ("b", "c"); ("d", "e")].
Lemma nodup5g : NoDup names5g.
Proof. repeat constructor; cbn; intuition discriminate. Qed.
Lemma dag5g_dag : dag_over names5g dag5g.
Proof. apply dag_by_order; [exact nodup5g|reflexivity]. Qed.
Definition data3g : rawdata := DDict [("a", [Some 1%Z]); ("b", [Some 2%Z]); ("c", [Some 3%Z])].
Example C112_nonvacuous : exists g0 g0' N g g', perfect_run 27 (batch_runner no_hooks) (pc dedup N) g0' dag5g N /\ start_graph data3g = Ok g0 /\
  (forall x, In x (dkeys (nodes g0)) -> In x (dkeys (nodes g0')) /\ values_of g0 x = values_of g0' x) /\
  (forall x y, edge_in dag5g x y -> (In x (dkeys (nodes g0)) <-> In y (dkeys (nodes g0)))) /\
  exact_algorithm (batch_runner no_hooks) dedup N (pc_classic dedup N) /\ List.length (nodes g0) * List.length (nodes g0) + 2 <= 11 /\
  execute_pipeline 11 (batch_runner no_hooks) no_hooks (pc_classic dedup N) g0 = (g, Ok tt) /\
  execute_pipeline 27 (batch_runner no_hooks) no_hooks (pc dedup N) g0' = (g', Ok tt) /\
  one_way g "a" "c" /\ two_way g' "d" "e".
Proof.
  destruct (ideal_exists names5g dag5g nodup5g dag5g_dag) as (g0' & S0' & _ & DG & PT). assert (G0' := S0'). vm_compute in G0'. injection G0' as G0'.
  assert (S0 : exists g0, start_graph data3g = Ok g0) by (eexists; vm_compute; reflexivity). destruct S0 as [g0 S0]. assert (G0 := S0). vm_compute in G0. injection G0 as G0.
  exists g0, g0', (ideal names5g dag5g). eexists. eexists. split.
  { split; [eexists; exact S0'|exact DG|eexists; exact PT|exists dedup; split; [exact dedup_order|constructor]|]. rewrite <- G0'. vm_compute. lia. }
  split; [exact S0|]. split.
  { intros x Hx. rewrite <- G0 in Hx |- *. rewrite <- G0'. cbn in Hx. destruct Hx as [<-|[<-|[<-|[]]]]; (split; [cbn; auto|vm_compute; reflexivity]). }
  split. { intros x y E. rewrite <- G0. cbn in E |- *. destruct E as [E|[E|[E|[]]]]; injection E as <- <-; (split; intros K; repeat (destruct K as [K|K]; [try discriminate K|]); try contradiction; auto). }
  split; [constructor|]. split; [rewrite <- G0; vm_compute; lia|].
  split; [rewrite <- G0; vm_compute; reflexivity|]. split; [rewrite <- G0'; vm_compute; reflexivity|]. split; vm_compute; reflexivity.
Qed.
