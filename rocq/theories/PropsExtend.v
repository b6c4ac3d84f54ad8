(* Pipelines with tests that users have written: C127. *)
From Verif Require Import Base PyDict PyDictFacts Graph GraphSpec GraphFacts GraphInv GraphQ PathSpec Actions ActionSpec Generators GenSpec GenFacts Rules IndepTests Pipeline Parallel
  PipeSpec PipeFacts PipeMain PipeMain2 GraphCheck Construct Dag DagSep SkelSpec SkelFacts SkelStart SkelSteps SkelMain SkelMain2 SkelTop Schedules Toy DsepDec Ideal OrientSpec OrientTop ArrangeSpec ArrangeExact PropsArrange ExtendSpec.
Open Scope string_scope.
Open Scope list_scope.
Open Scope nat_scope.

Section Own.
Variables (P : runner) (so : list id -> list id) (N : numerics) (g0 : graph) (D : list (id * id)) (c : id -> id -> Z).
Hypothesis PT : perfect_tests N (values_of g0) (dkeys (nodes g0)) D c.
Hypothesis SO : set_order so.
Notation sk := (skel g0 D c (good_sep g0 D)).
Lemma sk_seen g : sk g -> seen g0 D c g.
Proof.
  intros K. split; [exact (sk_nodes _ _ _ _ _ K)|]. split.
  - intros x y H. split; [exact (sk_sym _ _ _ _ _ K x y H)|]. destruct (sk_corr _ _ _ _ _ K x y H) as (e & m & E1 & E2 & E3). exists e, m. rewrite get_edge_eget, E1. auto.
  - intros x y A. rewrite (sk_und g0 D c g x y K). exact (sk_adj _ _ _ _ _ K x y A).
Qed.
Lemma true_proposal i : true_result g0 D i -> proposal g0 (good_sep g0 D) i.
Proof.
  intros [H|(x & y & S & -> & Hx & Hy & Ne & R1 & R2 & R3 & R4)]; [left; exact H|]. right. exists x, y, S. split; [reflexivity|]. split; [apply (node_In g0); exact Hx|]. split; [apply (node_In g0); exact Hy|]. split; [exact Ne|].
  split; [intros z Hz; apply (node_In g0); auto|]. auto.
Qed.
Lemma own_good s : own_test P g0 D c s -> exists A, good_step sk noE (proposal g0 (good_sep g0 D)) A s.
Proof.
  intros (A & G & C & _). exists A. split.
  - intros g ns us K Hn _. unfold call. destruct (C g ns (if s_unapplied s then us else None) (sk_seen g K) Hn) as (o & -> & F). apply Forall_forall. intros i Hi. apply true_proposal; auto.
  - intros g K. apply Forall_forall. intros f Hf g' K'. destruct (G g g' f (sk_seen g K) Hf (sk_seen g' K')) as (es & -> & F). apply Forall_forall. intros e He. specialize (F e He). unfold good_em.
    destruct (negb (s_parallel s) && s_chunked s)%bool; [apply Forall_forall; exact F|]. destruct F as (ns & -> & F). exact F.
Qed.
Lemma any_good s : any_test P so N g0 D c s -> exists A, good_step sk noE (proposal g0 (good_sep g0 D)) A s.
Proof. intros [H|H]; [exact (exact_good P so N g0 D c PT SO s H)|exact (own_good s H)]. Qed.
Lemma any_pool s : any_test P so N g0 D c s -> s_parallel s = true -> pool_runner no_hooks P.
Proof. intros [H|(A & _ & _ & H)]; [exact (exact_pool P so N s H)|exact H]. Qed.
Lemma any_parts p : any_part P so N g0 D c p -> part_of (any_test P so N g0 D c) p.
Proof. intros H. destruct H as [s H|name l H]; exact H. Qed.
End Own.

(* C127: tests of users that tell the truth never disturb: whatever they find, in any order with the shipped tests, no
   adjacency is lost and every unconnected pair carries a set that separates it *)
Theorem C127_sound : forall fuel P so N d g0 D c ts, start_graph d = Ok g0 -> dag_over (dkeys (nodes g0)) D -> perfect_tests N (values_of g0) (dkeys (nodes g0)) D c -> set_order so ->
  (forall t, In t ts -> any_part P so N g0 D c t) ->
  exists g, execute_pipeline fuel P no_hooks (PStep (calculate_pearson N) :: ts) g0 = (g, Ok tt) /\
    (forall x y, adjacent (edge_in D) x y -> undirected_edge_exists g x y = true) /\ separators_right g (dkeys (nodes g0)) D.
Proof.
  intros fuel P so N d g0 D c ts S0 DG PT SO Ht.
  destruct (tests_sound fuel P N g0 D c (complete_start d g0 S0) DG PT (any_test P so N g0 D c) (any_pool P so N g0 D c) (any_good P so N g0 D c PT SO) [] ts (or_introl eq_refl) (fun t h => any_parts P so N g0 D c t (Ht t h))) as (g & R & K). exists g. split; [exact R|].
  split; [|exact (sk_separators g0 D c g K)]. intros x y A. rewrite (sk_und g0 D c g x y K). exact (sk_adj _ _ _ _ _ K x y A).
Qed.
Print Assumptions C127_sound.

(* C127: with the tests of PCClassic among them the result is the one of PC, whatever the users' tests find *)
Theorem C127_class : forall fuel P so N d g0 D c ts s, start_graph d = Ok g0 -> dag_over (dkeys (nodes g0)) D -> perfect_tests N (values_of g0) (dkeys (nodes g0)) D c -> set_order so ->
  List.length (nodes g0) * List.length (nodes g0) + 2 <= fuel ->
  (forall t, In t ts -> any_part P so N g0 D c t) -> any_test P so N g0 D c s -> In (PStep (matrix_step so 3 N)) (ts ++ [PStep s]) ->
  exists g r, execute_pipeline fuel P no_hooks (PStep (calculate_pearson N) :: PStep (correlation_step N) :: ts ++ [PStep s] ++ orientation_rules so ++ [PStep (effect_step N)]) g0 = (g, r) /\
    nodes g = nodes g0 /\ meek_pattern g D /\ match r with Ok _ => True | Err e => exists xs zs ys, n_effect N xs zs ys = Err e end.
Proof.
  intros fuel P so N d g0 D c ts s S0 DG PT SO FU Ht Hs Hm.
  assert (Ht' : forall t, In t (ts ++ [PStep s]) -> any_part P so N g0 D c t) by (intros t H; apply in_app_iff in H; destruct H as [H|[<-|[]]]; [auto|constructor; exact Hs]).
  destruct (tests_exact fuel P so N g0 D c (complete_start d g0 S0) DG PT SO (any_test P so N g0 D c) (any_pool P so N g0 D c) (any_good P so N g0 D c PT SO) _ (fun t h => any_parts P so N g0 D c t (Ht' t h)) Hm) as (g1 & R & F).
  assert (FP : Forall (fun p => Forall (par_ok P) (steps_of p)) ((PStep (calculate_pearson N) :: PStep (correlation_step N) :: ts) ++ [PStep s])).
  { cbn [app]. constructor; [repeat constructor; intros X; discriminate X|]. constructor; [repeat constructor; intros X; discriminate X|]. apply Forall_forall. intros p Hp. destruct (Ht' p Hp) as [s' T|name l T].
    - cbn. constructor; [exact (any_pool P so N g0 D c s' T)|constructor].
    - cbn. apply Forall_forall. intros s' Hs'. exact (any_pool P so N g0 D c s' (T s' Hs')). }
  assert (X := finish fuel P so d g0 D N c S0 DG SO FU (PStep (calculate_pearson N) :: PStep (correlation_step N) :: ts) s g1 R F FP).
  unfold reaches_pattern in X. rewrite <- app_assoc in X. exact X.
Qed.
Print Assumptions C127_class.

(* C127: so two pipelines that contain them find the same graph, whatever own tests they have and in whatever order *)
Theorem C127_agree : forall fuel P so N d g0 D c ts s fuel' P' so' N' c' ts' s' g r g' r',
  start_graph d = Ok g0 -> dag_over (dkeys (nodes g0)) D -> perfect_tests N (values_of g0) (dkeys (nodes g0)) D c -> set_order so -> List.length (nodes g0) * List.length (nodes g0) + 2 <= fuel ->
  (forall t, In t ts -> any_part P so N g0 D c t) -> any_test P so N g0 D c s -> In (PStep (matrix_step so 3 N)) (ts ++ [PStep s]) ->
  perfect_tests N' (values_of g0) (dkeys (nodes g0)) D c' -> set_order so' -> List.length (nodes g0) * List.length (nodes g0) + 2 <= fuel' ->
  (forall t, In t ts' -> any_part P' so' N' g0 D c' t) -> any_test P' so' N' g0 D c' s' -> In (PStep (matrix_step so' 3 N')) (ts' ++ [PStep s']) ->
  execute_pipeline fuel P no_hooks (PStep (calculate_pearson N) :: PStep (correlation_step N) :: ts ++ [PStep s] ++ orientation_rules so ++ [PStep (effect_step N)]) g0 = (g, r) ->
  execute_pipeline fuel' P' no_hooks (PStep (calculate_pearson N') :: PStep (correlation_step N') :: ts' ++ [PStep s'] ++ orientation_rules so' ++ [PStep (effect_step N')]) g0 = (g', r') ->
  forall x y, directed_edge_exists g x y = directed_edge_exists g' x y.
Proof.
  intros fuel P so N d g0 D c ts s fuel' P' so' N' c' ts' s' g r g' r' S0 DG PT SO FU Ht Hs Hm PT' SO' FU' Ht' Hs' Hm' R R' x y.
  destruct (C127_class fuel P so N d g0 D c ts s S0 DG PT SO FU Ht Hs Hm) as (h & q & E & _ & M & _). rewrite R in E. injection E as <- <-.
  destruct (C127_class fuel' P' so' N' d g0 D c' ts' s' S0 DG PT' SO' FU' Ht' Hs' Hm') as (h & q & E & _ & M' & _). rewrite R' in E. injection E as <- <-.
  specialize (M x y). specialize (M' x y). destruct (directed_edge_exists g x y), (directed_edge_exists g' x y); try reflexivity; [symmetry; apply M', M; reflexivity|apply M, M'; reflexivity].
Qed.
Print Assumptions C127_agree.

(* C127: and own tests can be added to PC itself, after its test with one conditioning variable *)
Theorem C127_pc : forall fuel P so N d g0 D c ts s, start_graph d = Ok g0 -> dag_over (dkeys (nodes g0)) D -> perfect_tests N (values_of g0) (dkeys (nodes g0)) D c -> set_order so ->
  List.length (nodes g0) * List.length (nodes g0) + 2 <= fuel ->
  (forall t, In t ts -> any_part P so N g0 D c t) -> any_test P so N g0 D c s -> In (PStep (matrix_step so 4 N)) (ts ++ [PStep s]) ->
  exists g r, execute_pipeline fuel P no_hooks (PStep (calculate_pearson N) :: PStep (correlation_step N) :: PStep (partial_step false N) :: ts ++ [PStep s] ++ orientation_rules so ++ [PStep (effect_step N)]) g0 = (g, r) /\
    nodes g = nodes g0 /\ meek_pattern g D /\ match r with Ok _ => True | Err e => exists xs zs ys, n_effect N xs zs ys = Err e end.
Proof.
  intros fuel P so N d g0 D c ts s S0 DG PT SO FU Ht Hs Hm.
  assert (Ht' : forall t, In t (ts ++ [PStep s]) -> any_part P so N g0 D c t) by (intros t H; apply in_app_iff in H; destruct H as [H|[<-|[]]]; [auto|constructor; exact Hs]).
  destruct (tests_pc fuel P so N g0 D c (complete_start d g0 S0) DG PT SO (any_test P so N g0 D c) (any_pool P so N g0 D c) (any_good P so N g0 D c PT SO) _ (fun t h => any_parts P so N g0 D c t (Ht' t h)) Hm) as (g1 & R & F).
  assert (FP : Forall (fun p => Forall (par_ok P) (steps_of p)) ((PStep (calculate_pearson N) :: PStep (correlation_step N) :: PStep (partial_step false N) :: ts) ++ [PStep s])).
  { cbn [app]. do 3 (constructor; [repeat constructor; intros X; discriminate X|]). apply Forall_forall. intros p Hp. destruct (Ht' p Hp) as [s' T|name l T].
    - cbn. constructor; [exact (any_pool P so N g0 D c s' T)|constructor].
    - cbn. apply Forall_forall. intros s' Hs'. exact (any_pool P so N g0 D c s' (T s' Hs')). }
  assert (X := finish fuel P so d g0 D N c S0 DG SO FU (PStep (calculate_pearson N) :: PStep (correlation_step N) :: PStep (partial_step false N) :: ts) s g1 R F FP).
  unfold reaches_pattern in X. rewrite <- app_assoc in X. exact X.
Qed.
Print Assumptions C127_pc.

(* a step for what the user knows: it tells one result *)
Definition tell (r : tresult) : step := mkStep "Tell" (fun _ => [fun _ => Ok [One [t_u r; t_v r]]]) false false false false (fun _ _ _ => Ok (Some [r])).
Lemma tell_own P g0 D c x y S : In x (dkeys (nodes g0)) -> In y (dkeys (nodes g0)) -> x <> y -> right_separator (dkeys (nodes g0)) D x y S -> own_test P g0 D c (tell (separated x y S)).
Proof.
  intros Hx Hy Ne R. exists (fun _ => True). split; [|split].
  - intros g g' f _ [<-|[]] _. eexists. split; [reflexivity|]. intros e [<-|[]]. cbn. eauto.
  - intros g ns us _ _. eexists. split; [reflexivity|]. intros i [<-|[]]. right. exists x, y, S. auto.
  - discriminate.
Qed.
Definition knowing (before after : list pstep) : list pstep := PStep (calculate_pearson late_tests) :: before ++ PStep (correlation_step late_tests) :: after ++ [PStep (matrix_step dedup 3 late_tests)] ++ orientation_rules dedup ++ [PStep (effect_step late_tests)].
(* d -> a -> c <- b; the user tells that a separates d and c *)
Example C127_nonvacuous : exists g0 g, start_graph (ideal_data late_names) = Ok g0 /\ dag_over (dkeys (nodes g0)) late_dag /\ perfect_tests late_tests (values_of g0) (dkeys (nodes g0)) late_dag (ideal_corr late_names) /\ set_order dedup /\
  List.length (nodes g0) * List.length (nodes g0) + 2 <= 18 /\ own_test (batch_runner no_hooks) g0 late_dag (ideal_corr late_names) (tell (separated "d" "c" ["a"])) /\
  execute_pipeline 18 (batch_runner no_hooks) no_hooks (knowing [] [PStep (tell (separated "d" "c" ["a"]))]) g0 = (g, Ok tt) /\ recorded_separator g "d" "c" ["a"] /\ one_way g "a" "c" /\ one_way g "b" "c" /\ two_way g "d" "a" /\ apart g "d" "c".
Proof.
  destruct (ideal_exists late_names late_dag late_nodup late_is_dag) as (g0 & S0 & PE & DG & PT). assert (G0 := S0). vm_compute in G0. injection G0 as G0.
  exists g0. eexists. split; [exact S0|]. split; [exact DG|]. split; [exact PT|]. split; [exact dedup_order|]. split; [rewrite <- G0; vm_compute; lia|]. split.
  { assert (HI : forall x, In x late_names -> In x (dkeys (nodes g0))) by (intros x; apply Permutation_in, Permutation_sym, PE).
    apply tell_own; [apply HI; vm_compute; auto|apply HI; vm_compute; auto|discriminate|]. split; [intros z [<-|[]]; apply HI; vm_compute; auto|]. split; [cbn; intuition discriminate|]. split; [cbn; intuition discriminate|].
    apply (dsepb_iff late_dag (do_acyclic _ _ DG) "d" "c" ["a"]). vm_compute; reflexivity. }
  split; [rewrite <- G0; vm_compute; reflexivity|]. split; [|repeat split; vm_compute; reflexivity]. do 2 eexists. split; [vm_compute; reflexivity|]. split; reflexivity.
Qed.

(* The set has to be told as well. On a -> b -> c, a true removal without it makes a collider of the variable that separates ... *)
Definition line_names : list id := ["a"; "b"; "c"].
Definition line_dag : list (id * id) := [("a", "b"); ("b", "c")].
Definition line_tests : numerics := ideal line_names line_dag.
Lemma line_nodup : NoDup line_names.
Proof. repeat constructor; cbn; intuition discriminate. Qed.
Lemma line_is_dag : dag_over line_names line_dag.
Proof. apply dag_by_order_main; [exact line_nodup|reflexivity]. Qed.
Definition line_run (before after : list pstep) : list pstep := PStep (calculate_pearson line_tests) :: before ++ PStep (correlation_step line_tests) :: after ++ [PStep (matrix_step dedup 3 line_tests)] ++ orientation_rules dedup ++ [PStep (effect_step line_tests)].
Theorem C127_unsaid_refuted : exists g0 g, start_graph (ideal_data line_names) = Ok g0 /\ perfect_tests line_tests (values_of g0) (dkeys (nodes g0)) line_dag (ideal_corr line_names) /\ right_separator (dkeys (nodes g0)) line_dag "a" "c" ["b"] /\
  execute_pipeline 18 (batch_runner no_hooks) no_hooks (line_run [] [PStep (tell (mkT "a" "c" REMOVE_EDGE_UNDIRECTED (Some [])))]) g0 = (g, Ok tt) /\ one_way g "c" "b" /\ ~ edge_in line_dag "c" "b" /\ ~ meek_pattern g line_dag.
Proof.
  destruct (ideal_exists line_names line_dag line_nodup line_is_dag) as (g0 & S0 & PE & DG & PT). assert (G0 := S0). vm_compute in G0. injection G0 as G0.
  assert (HI : forall x, In x line_names -> In x (dkeys (nodes g0))) by (intros x; apply Permutation_in, Permutation_sym, PE).
  assert (NE : ~ edge_in line_dag "c" "b") by (cbn; intuition discriminate).
  exists g0. eexists. split; [exact S0|]. split; [exact PT|]. split.
  { split; [intros z [<-|[]]; apply HI; vm_compute; auto|]. split; [cbn; intuition discriminate|]. split; [cbn; intuition discriminate|]. apply (dsepb_iff line_dag (do_acyclic _ _ DG) "a" "c" ["b"]). vm_compute; reflexivity. }
  split; [rewrite <- G0; vm_compute; reflexivity|]. split; [vm_compute; reflexivity|]. split; [exact NE|]. intros M. apply NE. eapply (mp_one_E line_dag (do_acyclic _ _ DG) _ M). vm_compute. reflexivity.
Qed.
Print Assumptions C127_unsaid_refuted.
(* ... or, without any data, ends the run with an exception. *)
Theorem C127_bare_refuted : exists g0 g, start_graph (ideal_data line_names) = Ok g0 /\ perfect_tests line_tests (values_of g0) (dkeys (nodes g0)) line_dag (ideal_corr line_names) /\
  execute_pipeline 18 (batch_runner no_hooks) no_hooks (line_run [] [PStep (tell (mkT "a" "c" REMOVE_EDGE_UNDIRECTED None))]) g0 = (g, Err TypeError).
Proof.
  destruct (ideal_exists line_names line_dag line_nodup line_is_dag) as (g0 & S0 & PE & DG & PT). assert (G0 := S0). vm_compute in G0. injection G0 as G0.
  exists g0. eexists. split; [exact S0|]. split; [exact PT|]. rewrite <- G0. vm_compute. reflexivity.
Qed.
Print Assumptions C127_bare_refuted.
(* A true removal with its set, but before the correlation test, ends the run with an exception too. *)
Theorem C127_before_refuted : exists g0 g, start_graph (ideal_data line_names) = Ok g0 /\ perfect_tests line_tests (values_of g0) (dkeys (nodes g0)) line_dag (ideal_corr line_names) /\
  own_test (batch_runner no_hooks) g0 line_dag (ideal_corr line_names) (tell (separated "a" "c" ["b"])) /\
  execute_pipeline 18 (batch_runner no_hooks) no_hooks (line_run [PStep (tell (separated "a" "c" ["b"]))] []) g0 = (g, Err TypeError).
Proof.
  destruct (ideal_exists line_names line_dag line_nodup line_is_dag) as (g0 & S0 & PE & DG & PT). assert (G0 := S0). vm_compute in G0. injection G0 as G0.
  assert (HI : forall x, In x line_names -> In x (dkeys (nodes g0))) by (intros x; apply Permutation_in, Permutation_sym, PE).
  exists g0. eexists. split; [exact S0|]. split; [exact PT|]. split; [|rewrite <- G0; vm_compute; reflexivity].
  apply tell_own; [apply HI; vm_compute; auto|apply HI; vm_compute; auto|discriminate|]. split; [intros z [<-|[]]; apply HI; vm_compute; auto|]. split; [cbn; intuition discriminate|]. split; [cbn; intuition discriminate|].
  apply (dsepb_iff line_dag (do_acyclic _ _ DG) "a" "c" ["b"]). vm_compute; reflexivity.
Qed.
Print Assumptions C127_before_refuted.

(* Own tests that tell the truth can spoil PC when they come before its test with one conditioning variable: on a -> b -> c -> d,
   told that b separates a and c and that c separates b and d, it keeps an edge of a and d. *)
Theorem C127_pc_refuted : exists g0 g, start_graph (ideal_data row_names) = Ok g0 /\ dag_over (dkeys (nodes g0)) row_dag /\ perfect_tests row_tests (values_of g0) (dkeys (nodes g0)) row_dag (ideal_corr row_names) /\
  own_test (batch_runner no_hooks) g0 row_dag (ideal_corr row_names) (tell (separated "a" "c" ["b"])) /\ own_test (batch_runner no_hooks) g0 row_dag (ideal_corr row_names) (tell (separated "b" "d" ["c"])) /\
  execute_pipeline 18 (batch_runner no_hooks) no_hooks (PStep (calculate_pearson row_tests) :: PStep (correlation_step row_tests) :: [PStep (tell (separated "a" "c" ["b"])); PStep (tell (separated "b" "d" ["c"]))] ++
    PStep (partial_step false row_tests) :: PStep (matrix_step dedup 4 row_tests) :: orientation_rules dedup ++ [PStep (effect_step row_tests)]) g0 = (g, Ok tt) /\
  edge_exists g "a" "d" = true /\ ~ adjacent (edge_in row_dag) "a" "d".
Proof.
  destruct (ideal_exists row_names row_dag row_nodup row_is_dag) as (g0 & S0 & PE & DG & PT). assert (G0 := S0). vm_compute in G0. injection G0 as G0.
  assert (HI : forall x, In x row_names -> In x (dkeys (nodes g0))) by (intros x; apply Permutation_in, Permutation_sym, PE).
  assert (OT : forall x y z, In x row_names -> In y row_names -> In z row_names -> NoDup [x; y; z] -> dsepb row_dag x y [z] = true -> own_test (batch_runner no_hooks) g0 row_dag (ideal_corr row_names) (tell (separated x y [z]))).
  { intros x y z Hx Hy Hz ND H. destruct (three x y z ND) as (N1 & N2 & N3). apply tell_own; [auto|auto|exact N1|]. split; [intros u [<-|[]]; auto|]. split; [intros [->|[]]; congruence|]. split; [intros [->|[]]; congruence|].
    apply (dsepb_iff row_dag (do_acyclic _ _ DG) x y [z]). exact H. }
  exists g0. eexists. split; [exact S0|]. split; [exact DG|]. split; [exact PT|].
  split; [apply OT; [vm_compute; auto|vm_compute; auto|vm_compute; auto|repeat constructor; cbn; intuition discriminate|vm_compute; reflexivity]|].
  split; [apply OT; [vm_compute; auto|vm_compute; auto 6|vm_compute; auto|repeat constructor; cbn; intuition discriminate|vm_compute; reflexivity]|].
  split; [rewrite <- G0; vm_compute; reflexivity|]. split; [vm_compute; reflexivity|]. intros [H|H]; cbn in H; intuition discriminate.
Qed.
Print Assumptions C127_pc_refuted.
