(* When the graph returned by a PC algorithm has no directed cycle: C106. *)
From Verif Require Import Base PyDict PyDictFacts Graph GraphSpec GraphFacts GraphInv GraphQ PathSpec Actions ActionSpec Generators GenSpec GenFacts Rules IndepTests Pipeline Parallel
  PipeSpec PipeFacts PipeMain PipeMain2 GraphCheck Construct Dag SkelSpec Serve SkelFacts SkelStart SkelSteps SkelMain SkelMain2 SkelTop Schedules Toy TotalSpec TotalFacts TotalMain TestedSpec TestedFacts TestedMain
  OrientSpec OrientMain OrientTop Ideal DsepDec PropsPC.
Open Scope string_scope.
Open Scope list_scope.
Open Scope nat_scope.

Lemma right_found g0 D N b g : skel g0 [] (corr g0 N) (Sep N g0 b) g -> skeleton_is g D -> separators_right g (dkeys (nodes g0)) D -> found g0 D (corr g0 N) g.
Proof.
  intros K SI SR. split.
  - constructor; try apply K.
    + intros u v A. apply (proj1 (SI u v)) in A. rewrite (skel_ee _ _ _ _ g u v K) in A. exact A.
    + intros u v Hu Hv Ne L. destruct (sk_gone _ _ _ _ _ K u v Hu Hv Ne L) as (a & b' & S & H & O & _). exists a, b', S. split; [exact H|]. split; [exact O|].
      assert (EE : edge_exists g u v = false) by (rewrite (skel_ee _ _ _ _ g u v K); exact L).
      destruct (SR u v (proj1 (dmem_In _ _) Hu) (proj1 (dmem_In _ _) Hv) Ne EE) as (S' & (i & dd & R & Hd & Hs) & G1 & G2 & G3 & G4).
      assert (X : [separated a b' S] = [i]).
      { rewrite <- H. unfold retrieve_edge_history in R. unfold history. destruct (dget (ehist g) (u, v)); [|discriminate]. injection R as R. exact R. }
      injection X as <-. cbn in Hd. injection Hd as <-. cbn in Hs. injection Hs as <-. split; [|auto]. intros z Hz. apply dmem_In. auto.
  - intros x y (Hx & Hy & Ne & NA & _) _. unfold gone. destruct (directed_edge_exists g x y) eqn:L; [exfalso|reflexivity]. apply NA. apply (proj1 (SI x y)). rewrite (skel_ee _ _ _ _ g x y K). exact L.
Qed.
Inductive plain_algorithm (P : runner) (so : list id -> list id) (N : numerics) : list pstep -> list pstep -> Prop :=
| pl_pc : plain_algorithm P so N (pc_skeleton so N) (pc so N)
| pl_classic : plain_algorithm P so N (pc_classic_skeleton so N) (pc_classic so N)
| pl_parallel : forall sh sh' coin, is_shuffle (Some sh) -> is_shuffle (Some sh') -> pool_runner no_hooks P ->
    plain_algorithm P so N (pc_parallel_skeleton so sh sh' coin N) (pc_parallel so sh sh' coin N).

(* C106: whatever the tests answered, if the skeleton phase ended with the adjacencies of a DAG and separators
   that are right for it, the arrows are those of that DAG, and they have no cycle *)
Theorem C106_right_skeleton : forall fuel P so N sks l d g0 D g1 g r, start_graph d = Ok g0 -> dag_over (dkeys (nodes g0)) D -> set_order so ->
  plain_algorithm P so N sks l -> List.length (nodes g0) * List.length (nodes g0) + 2 <= fuel ->
  execute_pipeline fuel P no_hooks sks g0 = (g1, Ok tt) -> skeleton_is g1 D -> separators_right g1 (dkeys (nodes g0)) D ->
  execute_pipeline fuel P no_hooks l g0 = (g, r) ->
  (forall x y, edge_exists g x y = true <-> adjacent (edge_in D) x y) /\ (forall x y, one_way g x y -> edge_in D x y) /\ (forall x y, oriented D x y -> one_way g x y) /\ acyclic (one_way g).
Proof.
  intros fuel P so N sks l d g0 D g1 g r S0 DG SO A FU R1 SI SR R.
  assert (B : exists b, skeleton_of P so N b sks) by (destruct A; eexists; constructor; assumption). destruct B as (b & B).
  assert (CP := complete_start d g0 S0). destruct (top fuel P so N g0 CP SO b sks g1 B R1) as (PF & K & _). assert (F := right_found g0 D N b g1 K SI SR).
  assert (X : reaches_pattern fuel P l N g0 D).
  { destruct A as [| |sh sh' coin H1 H2 H3].
    - apply (finish fuel P so d g0 D N (corr g0 N) S0 DG SO FU [PStep (calculate_pearson N); PStep (correlation_step N); PStep (partial_step false N)] (matrix_step so 4 N) g1 R1 F). repeat constructor; intros X; discriminate X.
    - apply (finish fuel P so d g0 D N (corr g0 N) S0 DG SO FU [PStep (calculate_pearson N); PStep (correlation_step N)] (matrix_step so 3 N) g1 R1 F). repeat constructor; intros X; discriminate X.
    - apply (finish fuel P so d g0 D N (corr g0 N) S0 DG SO FU [PStep (calculate_pearson N); PStep (correlation_step N); PStep (partial_step true N); PStep (matrix_step_sampled so sh coin N)] (matrix_step_parallel so sh' N) g1 R1 F).
      repeat constructor; intros _; exact H3. }
  destruct X as (g' & r' & R' & _ & M & _). rewrite R in R'. injection R' as <- <-. assert (Ac := do_acyclic _ _ DG).
  split; [exact (mp_ee D Ac g M)|]. split; [exact (mp_one_E D Ac g M)|]. split; [exact (mp_oriented D Ac g M)|exact (mp_acyclic D Ac g M)].
Qed.
Print Assumptions C106_right_skeleton.


(* a -> c <- b, c -> d.  The tests answer as this DAG says, except for one that is not asked for: a and b are also
   called independent given c and d. *)
Definition dag_c : list (id * id) := [("a", "c"); ("b", "c"); ("c", "d")].
Definition names_c : list id := ["a"; "b"; "c"; "d"].
Definition tests_c : numerics := let I := ideal names_c dag_c in
  mkNum (n_pearson I) (n_corr_test I) (n_partial I) (fun l => if list_eq_dec (list_eq_dec Z.eq_dec) l [[1]; [2]; [3]; [4]]%Z then Ok (Some true) else n_matrix I l) (n_regress I) (n_effect I).
Lemma dag_c_ok : dag_over names_c dag_c. Proof. apply dag_by_order; [exact nodup4|reflexivity]. Qed.
Example C106_nonvacuous : exists d g0 g1 g, start_graph d = Ok g0 /\ dag_over (dkeys (nodes g0)) dag_c /\ set_order dedup /\
  plain_algorithm (batch_runner no_hooks) dedup tests_c (pc_skeleton dedup tests_c) (pc dedup tests_c) /\
  execute_pipeline 20 (batch_runner no_hooks) no_hooks (pc_skeleton dedup tests_c) g0 = (g1, Ok tt) /\ skeleton_is g1 dag_c /\
  separators_right g1 (dkeys (nodes g0)) dag_c /\ execute_pipeline 20 (batch_runner no_hooks) no_hooks (pc dedup tests_c) g0 = (g, Ok tt) /\
  one_way g "c" "d" /\ (forall c, ~ perfect_tests tests_c (values_of g0) (dkeys (nodes g0)) dag_c c).
Proof.
  destruct (ideal_exists names_c dag_c nodup4 dag_c_ok) as (g0 & S0 & _ & DG & PT).
  destruct (C26_pc 20 (batch_runner no_hooks) dedup _ g0 dag_c _ _ S0 DG PT dedup_order) as (g1 & R1 & SI & SR).
  assert (G0 := S0). vm_compute in G0. injection G0 as G0.
  exists (ideal_data names_c), g0, g1. eexists. split; [exact S0|]. split; [exact DG|]. split; [exact dedup_order|]. split; [constructor|].
  split; [rewrite <- R1, <- G0; vm_compute; reflexivity|]. split; [exact SI|]. split; [exact SR|]. split; [rewrite <- G0; vm_compute; reflexivity|]. split; [vm_compute; reflexivity|].
  intros c Q. destruct (pt_matrix _ _ _ _ _ Q "a" "b" ["c"; "d"]) as (b & B1 & B2).
  - exact nodup4.
  - rewrite <- G0. intros z Hz. exact Hz.
  - discriminate.
  - assert (X : b = true) by (rewrite <- G0 in B1; vm_compute in B1; injection B1 as <-; reflexivity). apply B2 in X. apply (dsepb_iff dag_c (do_acyclic _ _ dag_c_ok) "a" "b" ["c"; "d"]) in X. vm_compute in X. discriminate X.
Qed.

(* Tests that no DAG satisfies: the three colliders a -> b <- u, b -> c <- v and c -> a <- w are all found, and
   the arrows form a cycle. *)
Definition cycle6 : numerics := toy (table_ci [(1, 4, []); (2, 5, []); (3, 6, []); (4, 5, []); (4, 6, []); (5, 6, []); (3, 4, [2]); (1, 5, [3]); (2, 6, [1])]%Z).
Definition names6 : list string := ["a"; "b"; "c"; "u"; "v"; "w"].
Theorem C106_cycle_refuted : exists N d g0, start_graph d = Ok g0 /\ forall l, l = pc dedup N \/ l = pc_classic dedup N -> exists g,
  execute_pipeline 40 (batch_runner no_hooks) no_hooks l g0 = (g, Ok tt) /\ one_way g "a" "b" /\ one_way g "b" "c" /\ one_way g "c" "a" /\ ~ acyclic (one_way g).
Proof.
  exists cycle6, (DDict (toy_table names6)), (toy_start names6). split; [vm_compute; reflexivity|].
  intros l [-> | ->]; eexists; (split; [vm_compute; reflexivity|]).
  all: match goal with |- one_way ?g _ _ /\ _ => assert (A : one_way g "a" "b") by (vm_compute; reflexivity); assert (B : one_way g "b" "c") by (vm_compute; reflexivity); assert (C : one_way g "c" "a") by (vm_compute; reflexivity) end.
  all: split; [exact A|split; [exact B|split; [exact C|]]]; intros Ac; apply (Ac "a"); exists "b"; split; [exact A|]; apply (reach_step _ _ "b" "c" "a" B), (reach_step _ _ "c" "a" "a" C); constructor.
Qed.
Print Assumptions C106_cycle_refuted.
