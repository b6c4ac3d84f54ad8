(* Leaving out columns: C115. *)
From Verif Require Import Base PyDict PyDictFacts Graph GraphSpec GraphFacts GraphInv GraphQ GraphCheck PathSpec Actions ActionSpec ActionMain Generators GenSpec Rules IndepTests Pipeline Parallel PipeSpec PipeMain2
  Construct ConstructFacts Dag DagFacts DagSep SkelSpec SkelStart Schedules Ideal SkelTop OrientSpec OrientGraph OrientTop PropsPC CpdagFacts PropsCpdag TotalSpec TestedSpec PropsTested AncestralSpec AncestralFacts.
Open Scope string_scope.
Open Scope list_scope.
Open Scope nat_scope.

(* perfect tests are perfect on fewer columns *)
Lemma fewer_perfect N g0 g0' D c : fewer_columns g0 g0' -> perfect_tests N (values_of g0) (dkeys (nodes g0)) D c -> perfect_tests N (values_of g0') (dkeys (nodes g0')) D c.
Proof.
  intros Fc [T1 T2 T3 T4 T5]. split; [exact T1| | | |].
  - intros x y Hx Hy Ne. destruct (Fc x Hx) as [Kx ->]. destruct (Fc y Hy) as [Ky ->]. auto.
  - intros x y Hx Hy Ne. destruct (Fc x Hx) as [Kx ->]. destruct (Fc y Hy) as [Ky _]. auto.
  - intros x y z Hx Hy Hz Ne. destruct (Fc x Hx) as [Kx ->]. destruct (Fc y Hy) as [Ky _]. destruct (Fc z Hz) as [Kz _]. auto.
  - intros x y S ND HS Ne. assert (M : map (values_of g0') (x :: y :: S) = map (values_of g0) (x :: y :: S)) by (apply map_ext_in; intros z Hz; apply Fc, HS, Hz).
    rewrite M. apply T5; [exact ND| |exact Ne]. intros z Hz. apply Fc, HS, Hz.
Qed.
(* ... and answer by the part of the DAG, if that contains the causes of its variables *)
Lemma part_perfect N vals ns D c : closed_under_causes D ns -> perfect_tests N vals ns D c -> perfect_tests N vals ns (part D ns) c.
Proof.
  intros Cl [T1 T2 T3 T4 T5]. split; [exact T1|exact T2| | |].
  - intros x y Hx Hy Ne. destruct (T3 x y Hx Hy Ne) as (b & E & S). exists b. split; [exact E|]. unfold says in *. rewrite S. apply part_dsep; try assumption. intros z [].
  - intros x y z Hx Hy Hz Ne. destruct (T4 x y z Hx Hy Hz Ne) as (b & E & S). exists b. split; [exact E|]. unfold says in *. rewrite S. apply part_dsep; try assumption. intros w [<-|[]]; exact Hz.
  - intros x y S ND HS Ne. destruct (T5 x y S ND HS Ne) as (b & E & Sy). exists b. split; [exact E|]. unfold says in *. rewrite Sy. apply part_dsep; [exact Cl|apply HS; cbn; auto|apply HS; cbn; auto|].
    intros z Hz. apply HS. right; right; exact Hz.
Qed.

Section Runs.
Variables (fuel fuel' : nat) (P P' : runner) (l l' : list pstep) (g0 g0' : graph) (D : list (id * id)) (N : numerics) (g g' : graph) (r r' : res unit).
Hypothesis full : perfect_run fuel P l g0 D N.
Hypothesis full_run : execute_pipeline fuel P no_hooks l g0 = (g, r).
Hypothesis start' : exists d, start_graph d = Ok g0'.
Hypothesis fewer : fewer_columns g0 g0'.
Hypothesis causes : closed_under_causes D (dkeys (nodes g0')).
Hypothesis algorithm' : exists so, set_order so /\ exact_algorithm P' so N l'.
Hypothesis fuel_enough : (List.length (nodes g0') * List.length (nodes g0') + 2 <= fuel')%nat.
Hypothesis small_run : execute_pipeline fuel' P' no_hooks l' g0' = (g', r').

Lemma part_run : perfect_run fuel' P' l' g0' (part D (dkeys (nodes g0'))) N.
Proof.
  split; [exact start'|exact (part_dag D _ causes _ (pr_dag _ _ _ _ _ _ full))| |exact algorithm'|exact fuel_enough].
  destruct (pr_tests _ _ _ _ _ _ full) as [c T]. exists c. apply part_perfect; [exact causes|]. exact (fewer_perfect N g0 g0' D c fewer T).
Qed.
Lemma same_arrows x y : In x (dkeys (nodes g0')) -> In y (dkeys (nodes g0')) -> directed_edge_exists g' x y = directed_edge_exists g x y.
Proof.
  intros Hx Hy. destruct (exact_pattern _ _ _ _ _ _ _ _ full full_run) as (_ & M & _). destruct (exact_pattern _ _ _ _ _ _ _ _ part_run small_run) as (_ & M' & _).
  assert (Ac := do_acyclic _ _ (pr_dag _ _ _ _ _ _ full)).
  assert (Q : directed_edge_exists g' x y = true <-> directed_edge_exists g x y = true).
  { rewrite (M' x y), (M x y), <- (part_adj D _ x y Hx Hy). split; intros [A O]; (split; [exact A|]); intros K; apply O.
    - apply oriented_part; assumption.
    - exact (part_oriented D _ causes Ac y x K). }
  destruct (directed_edge_exists g' x y), (directed_edge_exists g x y); intuition congruence.
Qed.
(* C115: between the columns that are left, everything is found as with all columns *)
Theorem C115_effects_left_out : forall x y, In x (dkeys (nodes g0')) -> In y (dkeys (nodes g0')) ->
  (one_way g' x y <-> one_way g x y) /\ (two_way g' x y <-> two_way g x y) /\ (apart g' x y <-> apart g x y).
Proof.
  intros x y Hx Hy. assert (A := same_arrows x y Hx Hy). assert (B := same_arrows y x Hy Hx).
  unfold one_way, two_way, apart, only_directed_edge_exists, undirected_edge_exists. rewrite !edge_exists_or, A, B. tauto.
Qed.
End Runs.
Print Assumptions C115_effects_left_out.

(* ---- whatever is left out ---- *)
Section Any.
Variables (N : numerics) (g0 : graph) (D : list (id * id)) (c : id -> id -> Z).
Notation ks := (dkeys (nodes g0)).
Hypothesis PT : perfect_tests N (values_of g0) ks D c.
Lemma coef x y a : In x ks -> In y ks -> x <> y -> coefficient N g0 x y a -> a = c x y.
Proof.
  intros Hx Hy Ne [[_ H]|[_ H]].
  - rewrite (pt_pearson _ _ _ _ _ PT x y Hx Hy Ne) in H. congruence.
  - rewrite (pt_pearson _ _ _ _ _ PT y x Hy Hx (not_eq_sym Ne)) in H. rewrite (pt_sym _ _ _ _ _ PT x y). congruence.
Qed.
Lemma corr_dsep x y : In x ks -> In y ks -> x <> y -> corr_answer N g0 x y true -> dsep D x y [].
Proof.
  intros Hx Hy Ne (a & A & T). apply (coef x y a Hx Hy Ne) in A. subst a. destruct (pt_corr _ _ _ _ _ PT x y Hx Hy Ne) as (b & E & S). apply S. congruence.
Qed.
Lemma partial_dsep x y z : In x ks -> In y ks -> In z ks -> NoDup [x; y; z] -> partial_answer N g0 x y z (Some true) -> dsep D x y [z].
Proof.
  intros Hx Hy Hz ND (a & b & d & A & B & C & T).
  assert (Nxy : x <> y) by (inversion ND as [|? ? I _]; subst; intros ->; apply I; cbn; auto). assert (Nxz : x <> z) by (inversion ND as [|? ? I _]; subst; intros ->; apply I; cbn; auto).
  assert (Nyz : y <> z) by (inversion ND as [|? ? _ ND2]; subst; inversion ND2 as [|? ? I _]; subst; intros ->; apply I; cbn; auto).
  apply (coef x y a Hx Hy Nxy) in A. apply (coef x z b Hx Hz Nxz) in B. apply (coef y z d Hy Hz Nyz) in C. subst.
  destruct (pt_partial _ _ _ _ _ PT x y z Hx Hy Hz ND) as (b & E & S). apply S. congruence.
Qed.
Lemma matrix_dsep x y S : NoDup (x :: y :: S) -> (forall z, In z (x :: y :: S) -> In z ks) -> S <> [] -> matrix_answer N g0 x y S (Some true) -> dsep D x y S.
Proof. intros ND HS Ne M. destruct (pt_matrix _ _ _ _ _ PT x y S ND HS Ne) as (b & E & Q). apply Q. unfold matrix_answer in M. congruence. Qed.
Lemma found_dsep b x y S : In x ks -> In y ks -> other_variables g0 x y S -> found_independent N g0 b x y S -> exists S', dsep D x y S'.
Proof.
  assert (Sy : forall u v T, dsep D u v T -> dsep D v u T) by (intros u v T; apply d_separated_sym).
  intros Hx Hy [ND HS] F. assert (Nxy : x <> y) by (inversion ND as [|? ? I _]; subst; intros ->; apply I; cbn; auto).
  destruct F as [_ A|_ A|z _ _ A|z _ _ A|S S' Pm Ln M].
  - exists []. apply corr_dsep; assumption.
  - exists []. apply Sy, corr_dsep; auto.
  - exists [z]. apply partial_dsep; try assumption. apply HS; cbn; auto.
  - exists [z]. apply Sy, partial_dsep; try assumption; [apply HS; cbn; auto|]. apply (Permutation_NoDup (perm_swap y x [z])), ND.
  - exists S'. assert (Ne : S' <> []) by (intros ->; apply Permutation_nil in Pm; subst S; destruct b; cbn in Ln; lia).
    assert (K : forall z, In z (x :: y :: S') -> In z ks).
    { intros z [<-|[<-|Hz]]; [assumption|assumption|]. apply HS. exact (Permutation_in z Pm Hz). }
    assert (ND' : NoDup (x :: y :: S')) by (apply (Permutation_NoDup (l := x :: y :: S)); [do 2 constructor; apply Permutation_sym, Pm|exact ND]).
    destruct M as [M|M]; [apply matrix_dsep; assumption|]. apply Sy, matrix_dsep; try assumption.
    + exact (Permutation_NoDup (perm_swap y x S') ND').
    + intros z [<-|[<-|Hz]]; apply K; cbn; auto.
Qed.
End Any.
(* C115: whichever columns are left out, two of the remaining that are connected in the graph of all columns are connected
   when the independence tests of any of the algorithms have been made on the remaining columns *)
Theorem C115_never_lost : forall fuel P l g0 D N g r fuel' P' so b sks d g0' g',
  perfect_run fuel P l g0 D N -> execute_pipeline fuel P no_hooks l g0 = (g, r) ->
  start_graph d = Ok g0' -> fewer_columns g0 g0' -> set_order so -> skeleton_of P' so N b sks -> execute_pipeline fuel' P' no_hooks sks g0' = (g', Ok tt) ->
  forall x y, In x (dkeys (nodes g0')) -> In y (dkeys (nodes g0')) -> edge_exists g x y = true -> edge_exists g' x y = true.
Proof.
  intros fuel P l g0 D N g r fuel' P' so b sks d g0' g' H R S0 Fc SO A R' x y Hx Hy E. destruct (exact_pattern _ _ _ _ _ _ _ _ H R) as (_ & M & _).
  assert (Ac := do_acyclic _ _ (pr_dag _ _ _ _ _ _ H)). assert (Ad : adjacent (edge_in D) x y).
  { rewrite edge_exists_or in E. apply orb_true_iff in E. destruct E as [E|E]; apply M in E; destruct E as [E _]; [exact E|apply adjacent_sym, E]. }
  assert (Ne : x <> y) by (intros ->; destruct Ad as [K|K]; exact (no_loop _ Ac y K)).
  destruct (edge_exists g' x y) eqn:G; [reflexivity|]. exfalso.
  destruct (C87_removed fuel' P' so N b sks d g0' g' S0 SO A R' x y Hx Hy Ne G) as (S & _ & Ov & F). destruct (pr_tests _ _ _ _ _ _ H) as [c T].
  destruct (found_dsep N g0' D c (fewer_perfect N g0 g0' D c Fc T) b x y S Hx Hy Ov F) as (S' & K). exact (adjacent_connected _ x y _ Ne Ad K).
Qed.
Print Assumptions C115_never_lost.
(* also with PCStable, the remaining columns are connected as before if only effects are left out *)
Theorem C115_stable : forall fuel P so d g0 D N c fuel' P' so' d' g0' g g', start_graph d = Ok g0 -> dag_over (dkeys (nodes g0)) D -> perfect_tests N (values_of g0) (dkeys (nodes g0)) D c -> set_order so ->
  start_graph d' = Ok g0' -> fewer_columns g0 g0' -> closed_under_causes D (dkeys (nodes g0')) -> set_order so' ->
  execute_pipeline fuel P no_hooks (pc_stable_skeleton so N) g0 = (g, Ok tt) -> execute_pipeline fuel' P' no_hooks (pc_stable_skeleton so' N) g0' = (g', Ok tt) ->
  forall x y, In x (dkeys (nodes g0')) -> In y (dkeys (nodes g0')) -> edge_exists g' x y = edge_exists g x y.
Proof.
  intros fuel P so d g0 D N c fuel' P' so' d' g0' g g' S0 DG PT SO S0' Fc Cl SO' R R' x y Hx Hy.
  destruct (C33_stable_skeleton fuel P so d g0 D N c S0 DG PT SO) as (h & E & Sk & _). rewrite R in E. injection E as <-.
  destruct (C33_stable_skeleton fuel' P' so' d' g0' (part D (dkeys (nodes g0'))) N c S0' (part_dag D _ Cl _ DG) (part_perfect _ _ _ _ _ Cl (fewer_perfect N g0 g0' D c Fc PT)) SO') as (h & E & Sk' & _). rewrite R' in E. injection E as <-.
  assert (Q := proj1 (Sk x y)). assert (Q' := proj1 (Sk' x y)). rewrite <- (part_adj D _ x y Hx Hy) in Q'. destruct (edge_exists g' x y), (edge_exists g x y); intuition congruence.
Qed.
Print Assumptions C115_stable.

(* a -> c <- b and c -> d: d can be left out; leaving out c is another matter *)
Definition cause_names : list id := ["a"; "b"; "c"; "d"].
Definition cause_dag : list (id * id) := [("a", "c"); ("b", "c"); ("c", "d")].
Lemma cause_nodup : NoDup cause_names.
Proof. repeat constructor; cbn; intuition discriminate. Qed.
Lemma cause_is_dag : dag_over cause_names cause_dag.
Proof. apply dag_by_order; [exact cause_nodup|reflexivity]. Qed.
Definition columns_left (l : list id) : rawdata := DDict (map (fun x => (x, [Some (number cause_names x)])) l).
Example C115_nonvacuous : exists g0 N g g0' g', perfect_run 27 (batch_runner no_hooks) (pc dedup N) g0 cause_dag N /\ execute_pipeline 27 (batch_runner no_hooks) no_hooks (pc dedup N) g0 = (g, Ok tt) /\
  start_graph (columns_left ["c"; "b"; "a"]) = Ok g0' /\ fewer_columns g0 g0' /\ closed_under_causes cause_dag (dkeys (nodes g0')) /\ exact_algorithm (batch_runner no_hooks) dedup N (pc_classic dedup N) /\
  (List.length (nodes g0') * List.length (nodes g0') + 2 <= 27)%nat /\ execute_pipeline 27 (batch_runner no_hooks) no_hooks (pc_classic dedup N) g0' = (g', Ok tt) /\ one_way g' "a" "c" /\ apart g' "a" "b" /\ one_way g "c" "d".
Proof.
  destruct (ideal_exists cause_names cause_dag cause_nodup cause_is_dag) as (g0 & S0 & _ & DG & PT). assert (G0 := S0). vm_compute in G0. injection G0 as G0.
  exists g0, (ideal cause_names cause_dag). do 3 eexists. split.
  { split; [eexists; exact S0|exact DG|eexists; exact PT|exists dedup; split; [exact dedup_order|constructor]|]. rewrite <- G0. vm_compute. lia. }
  split; [rewrite <- G0; vm_compute; reflexivity|]. split; [vm_compute; reflexivity|]. split.
  { rewrite <- G0. intros x [<-|[<-|[<-|[]]]]; (split; [cbn; auto|reflexivity]). }
  split; [intros x y H Hy; cbn in H, Hy |- *; destruct H as [H|[H|[H|[]]]]; injection H as <- <-; auto; destruct Hy as [Q|[Q|[Q|[]]]]; discriminate Q|].
  split; [constructor|]. split; [vm_compute; lia|]. split; [vm_compute; reflexivity|]. repeat (split; [vm_compute; reflexivity|]). vm_compute; reflexivity.
Qed.
(* leaving out a column with effects among the remaining ones may connect variables that are not connected with all columns *)
Theorem C115_cause_refuted : exists g0 D N g d g0' g', perfect_run 27 (batch_runner no_hooks) (pc dedup N) g0 D N /\ execute_pipeline 27 (batch_runner no_hooks) no_hooks (pc dedup N) g0 = (g, Ok tt) /\
  start_graph d = Ok g0' /\ fewer_columns g0 g0' /\ execute_pipeline 27 (batch_runner no_hooks) no_hooks (pc dedup N) g0' = (g', Ok tt) /\
  exists x y, In x (dkeys (nodes g0')) /\ In y (dkeys (nodes g0')) /\ apart g x y /\ ~ apart g' x y.
Proof.
  destruct (ideal_exists cause_names cause_dag cause_nodup cause_is_dag) as (g0 & S0 & _ & DG & PT). assert (G0 := S0). vm_compute in G0. injection G0 as G0.
  exists g0, cause_dag, (ideal cause_names cause_dag). eexists. exists (columns_left ["a"; "b"; "d"]). do 2 eexists. split.
  { split; [eexists; exact S0|exact DG|eexists; exact PT|exists dedup; split; [exact dedup_order|constructor]|]. rewrite <- G0. vm_compute. lia. }
  split; [rewrite <- G0; vm_compute; reflexivity|]. split; [vm_compute; reflexivity|]. split.
  { rewrite <- G0. intros x [<-|[<-|[<-|[]]]]; (split; [cbn; auto|reflexivity]). }
  split; [vm_compute; reflexivity|]. exists "a", "d". split; [cbn; auto|]. split; [cbn; auto|]. split; [vm_compute; reflexivity|]. intros K. vm_compute in K. discriminate K.
Qed.
Print Assumptions C115_cause_refuted.

(* without a and b, the causes of c *)
Example C115_never_lost_nonvacuous : exists g0 N g g0' g', perfect_run 27 (batch_runner no_hooks) (pc dedup N) g0 cause_dag N /\ execute_pipeline 27 (batch_runner no_hooks) no_hooks (pc dedup N) g0 = (g, Ok tt) /\
  start_graph (columns_left ["d"; "c"]) = Ok g0' /\ fewer_columns g0 g0' /\ skeleton_of (batch_runner no_hooks) dedup N true (pc_stable_skeleton dedup N) /\
  execute_pipeline 27 (batch_runner no_hooks) no_hooks (pc_stable_skeleton dedup N) g0' = (g', Ok tt) /\ edge_exists g "c" "d" = true /\ edge_exists g' "c" "d" = true.
Proof.
  destruct (ideal_exists cause_names cause_dag cause_nodup cause_is_dag) as (g0 & S0 & _ & DG & PT). assert (G0 := S0). vm_compute in G0. injection G0 as G0.
  exists g0, (ideal cause_names cause_dag). do 3 eexists. split.
  { split; [eexists; exact S0|exact DG|eexists; exact PT|exists dedup; split; [exact dedup_order|constructor]|]. rewrite <- G0. vm_compute. lia. }
  split; [rewrite <- G0; vm_compute; reflexivity|]. split; [vm_compute; reflexivity|]. split; [rewrite <- G0; intros x [<-|[<-|[]]]; (split; [cbn; auto|reflexivity])|].
  split; [constructor|]. split; [vm_compute; reflexivity|]. split; vm_compute; reflexivity.
Qed.
Example C115_stable_nonvacuous : exists g0 N c g g0' g', start_graph (ideal_data cause_names) = Ok g0 /\ dag_over (dkeys (nodes g0)) cause_dag /\ perfect_tests N (values_of g0) (dkeys (nodes g0)) cause_dag c /\ set_order dedup /\
  start_graph (columns_left ["c"; "b"; "a"]) = Ok g0' /\ execute_pipeline 27 (batch_runner no_hooks) no_hooks (pc_stable_skeleton dedup N) g0 = (g, Ok tt) /\
  execute_pipeline 27 (batch_runner no_hooks) no_hooks (pc_stable_skeleton dedup N) g0' = (g', Ok tt) /\ edge_exists g' "a" "b" = false /\ edge_exists g' "a" "c" = true.
Proof.
  destruct (ideal_exists cause_names cause_dag cause_nodup cause_is_dag) as (g0 & S0 & _ & DG & PT). assert (G0 := S0). vm_compute in G0. injection G0 as G0.
  exists g0, (ideal cause_names cause_dag), (ideal_corr cause_names). do 3 eexists. split; [exact S0|]. split; [exact DG|]. split; [exact PT|]. split; [exact dedup_order|]. split; [vm_compute; reflexivity|].
  split; [rewrite <- G0; vm_compute; reflexivity|]. split; [vm_compute; reflexivity|]. split; vm_compute; reflexivity.
Qed.
