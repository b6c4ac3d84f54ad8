(* PC algorithms under tests that are right only where it matters: C122. *)
From Verif Require Import Base PyDict PyDictFacts Graph GraphSpec GraphFacts GraphInv GraphQ PathSpec Actions ActionSpec Generators GenSpec GenFacts Rules IndepTests Pipeline Parallel
  PipeSpec PipeFacts PipeMain PipeMain2 GraphCheck Construct ConstructSpec ConstructFacts Dag DagFacts DagSep SkelSpec SkelFacts SkelStart SkelSteps SkelMain SkelMain2 DsepDec Ideal SkelTop Schedules Serve
  OrientSpec OrientGraph LoopFacts OrientMain OrientTop TotalSpec TotalFacts TotalMain TestedSpec TestedFacts TestedMain PropsTested OwnSpec OwnFacts FaithSpec FaithFacts FaithMain.
Open Scope string_scope.
Open Scope list_scope.
Open Scope nat_scope.

Lemma start_earlier d g0 x y : start_graph d = Ok g0 -> In x (dkeys (nodes g0)) -> In y (dkeys (nodes g0)) -> x <> y -> earlier g0 x y \/ earlier g0 y x.
Proof.
  intros S0 Hx Hy Ne. assert (CP := complete_start d g0 S0). apply dmem_In in Hx, Hy. destruct (pairs_In g0 g0 x y (cp_wf _ CP) eq_refl Hx Hy Ne) as [O|O]; apply ord_before in O; [left|right]; exact O.
Qed.
Lemma answers_swap N g0 x y z : answers_triple N g0 x y z -> answers_triple N g0 y x z.
Proof. intros A u v w Pm. apply A. eapply Permutation_trans; [exact Pm|apply perm_swap]. Qed.
Lemma others_swap g0 x y S : other_variables g0 x y S -> other_variables g0 y x S.
Proof. intros [ND I]. split; [eapply Permutation_NoDup; [apply perm_swap|exact ND]|exact I]. Qed.
Lemma missing_tested fuel P so N b sks d g0 g : start_graph d = Ok g0 -> set_order so -> skeleton_of P so N b sks -> execute_pipeline fuel P no_hooks sks g0 = (g, Ok tt) ->
  (forall x y, edge_exists g x y = directed_edge_exists g x y) /\ (forall x y, edge_exists g x y = edge_exists g y x) /\
  (forall x y, edge_exists g x y = true -> In x (dkeys (nodes g0)) /\ In y (dkeys (nodes g0)) /\ x <> y).
Proof.
  intros S0 SO A R. assert (CP := complete_start d g0 S0). destruct (top fuel P so N g0 CP SO b sks g A R) as (_ & K & _). assert (EE := fun u v => skel_ee _ _ _ _ g u v K). split; [exact EE|]. split.
  - intros x y. rewrite !EE. exact (skel_sym_eq g0 _ _ _ g x y K).
  - intros x y L. rewrite EE in L. destruct (skel_dee_nodes _ _ _ _ g x y K L) as (Hx & Hy & Ne). apply dmem_In in Hx, Hy. auto.
Qed.
Lemma und_ee fuel P so N b sks d g0 g x y : start_graph d = Ok g0 -> set_order so -> skeleton_of P so N b sks -> execute_pipeline fuel P no_hooks sks g0 = (g, Ok tt) ->
  undirected_edge_exists g x y = edge_exists g x y.
Proof.
  intros S0 SO A R. destruct (missing_tested fuel P so N b sks d g0 g S0 SO A R) as (E1 & E2 & _). unfold undirected_edge_exists. rewrite <- !E1, (E2 y x). apply andb_diag.
Qed.
Lemma spared fuel P so N b sks d g0 g D : start_graph d = Ok g0 -> set_order so -> dag_over (dkeys (nodes g0)) D -> skeleton_of P so N b sks ->
  execute_pipeline fuel P no_hooks sks g0 = (g, Ok tt) -> spares_edges N g0 b D -> forall x y, adjacent (edge_in D) x y -> edge_exists g x y = true.
Proof.
  intros S0 SO DG A R SP x y Ad. destruct (edge_exists g x y) eqn:L; [reflexivity|exfalso].
  assert (H : In x (dkeys (nodes g0)) /\ In y (dkeys (nodes g0)) /\ x <> y).
  { destruct Ad as [H|H]; destruct (do_nodes _ _ DG _ _ H); repeat split; auto; intros ->; exact (no_loop _ (do_acyclic _ _ DG) _ H). }
  destruct H as (Hx & Hy & Ne). destruct (C87_removed fuel P so N b sks d g0 g S0 SO A R x y Hx Hy Ne L) as (S & _ & OV & F). exact (SP x y S Ad OV F).
Qed.
(* an edge does not survive a set of final neighbours that is detected *)
Lemma detected fuel P so N b sks d g0 g x y S : start_graph d = Ok g0 -> set_order so -> skeleton_of P so N b sks -> execute_pipeline fuel P no_hooks sks g0 = (g, Ok tt) ->
  other_variables g0 x y S -> detects N g0 b x y S -> (forall z, In z S -> edge_exists g x z = true) ->
  (b = true -> forall z, S = [z] -> edge_exists g y z = true \/ (sks = pc_skeleton so N /\ ~ found_independent N g0 b x z [] /\ ~ found_independent N g0 b y z [])) -> edge_exists g x y = false.
Proof.
  intros S0 SO A R OV Dt Nx Ny. destruct (edge_exists g x y) eqn:L; [exfalso|reflexivity]. destruct (missing_tested fuel P so N b sks d g0 g S0 SO A R) as (E1 & E2 & E3).
  destruct (E3 x y L) as (Hx & Hy & Ne). assert (L' := L). rewrite E2 in L'.
  destruct (C87_kept fuel P so N b sks d g0 g S0 SO A R x y L) as (A1 & A2 & A3). destruct (C87_kept fuel P so N b sks d g0 g S0 SO A R y x L') as (B1 & B2 & _).
  destruct S as [|z [|z' S]]; cbn [detects] in Dt.
  - destruct (start_earlier d g0 x y S0 Hx Hy Ne) as [O|O]; [exact (A1 O (proj1 Dt O))|exact (B1 O (proj2 Dt O))].
  - destruct b.
    + destruct Dt as (An & D1 & D2). assert (Lx := Nx z (or_introl eq_refl)). destruct (Ny eq_refl z eq_refl) as [Ly|(-> & C1 & C2)].
      * destruct (start_earlier d g0 x y S0 Hx Hy Ne) as [O|O].
        -- exact (A2 eq_refl z Lx Ly O An (D1 O)).
        -- exact (B2 eq_refl z Ly Lx O (answers_swap _ _ _ _ _ An) (D2 O)).
      * assert (CP := complete_start d g0 S0). rewrite E1 in L, L'. destruct (start_earlier d g0 x y S0 Hx Hy Ne) as [O|O].
        -- rewrite (pc_asked_top fuel P so N g0 g x y z CP SO R O (D1 O) An C1 C2) in L. discriminate.
        -- rewrite (pc_asked_top fuel P so N g0 g y x z CP SO R O (D2 O) (answers_swap _ _ _ _ _ An) C2 C1) in L'. discriminate.
    + apply (A3 [z] OV Nx); [cbn; lia|exact Dt].
  - apply (A3 (z :: z' :: S) OV Nx); [destruct b; cbn; lia|exact Dt].
Qed.

(* C122: the skeleton is the DAG's as soon as no test separates two variables that the DAG connects and every other two are separated by variables near them. *)
Lemma phase_skeleton P so N g0 D b sk : separating_phase P so N g0 D b sk -> skeleton_of P so N b sk.
Proof. intros [H|H|sh sh' coin H1 H2 H3 H]; constructor; assumption. Qed.
Theorem C122_skeleton : forall fuel P so N b sks d g0 g D, start_graph d = Ok g0 -> set_order so -> dag_over (dkeys (nodes g0)) D -> spares_edges N g0 b D -> separating_phase P so N g0 D b sks ->
  execute_pipeline fuel P no_hooks sks g0 = (g, Ok tt) -> skeleton_is g D.
Proof.
  intros fuel P so N b sks d g0 g D S0 SO DG SP SN R. assert (A := phase_skeleton P so N g0 D b sks SN).
  assert (Sp := spared fuel P so N b sks d g0 g D S0 SO DG A R SP). destruct (missing_tested fuel P so N b sks d g0 g S0 SO A R) as (E1 & E2 & E3).
  assert (SB : forall x y, In x (dkeys (nodes g0)) -> In y (dkeys (nodes g0)) -> x <> y -> ~ adjacent (edge_in D) x y -> exists S, other_variables g0 x y S /\
    (b = true -> forall z, S = [z] -> (adjacent (edge_in D) x z /\ adjacent (edge_in D) y z) \/ (sks = pc_skeleton so N /\ ~ found_independent N g0 b x z [] /\ ~ found_independent N g0 b y z [])) /\
    ((forall z, In z S -> adjacent (edge_in D) x z) /\ detects N g0 b x y S \/ (forall z, In z S -> adjacent (edge_in D) y z) /\ detects N g0 b y x S)).
  { intros x y Hx Hy Ne NA. destruct SN as [H|H|sh sh' coin _ _ _ H]; destruct (H x y Hx Hy Ne NA) as (S & H1); exists S.
    - destruct H1 as (H1 & H2 & H3). split; [exact H1|]. split; [intros _ z h; right; split; [reflexivity|exact (H2 z h)]|exact H3].
    - destruct H1 as (H1 & H3). split; [exact H1|]. split; [discriminate|exact H3].
    - destruct H1 as (H1 & H2 & H3). split; [exact H1|]. split; [intros _ z h; left; exact (H2 z h)|exact H3]. }
  assert (EA : forall x y, edge_exists g x y = true <-> adjacent (edge_in D) x y).
  { intros x y. split; [|apply Sp]. intros L. destruct (adjacent_dec D x y) as [Ad|NA]; [exact Ad|exfalso]. destruct (E3 x y L) as (Hx & Hy & Ne).
    destruct (SB x y Hx Hy Ne NA) as (S & OV & One & [[Nb Dt]|[Nb Dt]]).
    - assert (F := detected fuel P so N b sks d g0 g x y S S0 SO A R OV Dt (fun z h => Sp _ _ (Nb z h))). rewrite F in L; [discriminate|].
      intros hb z h. destruct (One hb z h) as [[_ H]|H]; [left; exact (Sp _ _ H)|right; exact H].
    - assert (F := detected fuel P so N b sks d g0 g y x S S0 SO A R (others_swap _ _ _ _ OV) Dt (fun z h => Sp _ _ (Nb z h))). rewrite E2 in L. rewrite F in L; [discriminate|].
      intros hb z h. destruct (One hb z h) as [[H _]|(H1 & H2 & H3)]; [left; exact (Sp _ _ H)|right; auto]. }
  intros x y. split; [apply EA|]. rewrite (und_ee fuel P so N b sks d g0 g x y S0 SO A R). apply EA.
Qed.
Print Assumptions C122_skeleton.

(* For PCStable it does not matter where the variables are. *)
Theorem C122_stable : forall fuel P so N d g0 g D, start_graph d = Ok g0 -> set_order so -> dag_over (dkeys (nodes g0)) D ->
  spares_edges N g0 true D -> separates_somehow N g0 true D -> execute_pipeline fuel P no_hooks (pc_stable_skeleton so N) g0 = (g, Ok tt) -> skeleton_is g D.
Proof.
  intros fuel P so N d g0 g D S0 SO DG SP SN R. assert (A := so_stable P so N). assert (Sp := spared fuel P so N true _ d g0 g D S0 SO DG A R SP). destruct (missing_tested fuel P so N true _ d g0 g S0 SO A R) as (E1 & E2 & E3).
  assert (Dt : forall x y S, other_variables g0 x y S -> detects N g0 true x y S -> edge_exists g x y = false).
  { intros x y S OV Dt. destruct (edge_exists g x y) eqn:L; [exfalso|reflexivity]. assert (L' := L). rewrite E2 in L'. destruct (E3 x y L) as (Hx & Hy & Ne).
    destruct (C88_stable_kept fuel P so N d g0 g S0 SO R x y L) as (A1 & A2 & A3). destruct (C88_stable_kept fuel P so N d g0 g S0 SO R y x L') as (B1 & B2 & _).
    destruct S as [|z [|z' S]]; cbn [detects] in Dt.
    - destruct (start_earlier d g0 x y S0 Hx Hy Ne) as [O|O]; [exact (A1 O (proj1 Dt O))|exact (B1 O (proj2 Dt O))].
    - destruct Dt as (An & D1 & D2). destruct (start_earlier d g0 x y S0 Hx Hy Ne) as [O|O]; [exact (A2 z O An (D1 O))|exact (B2 z O (answers_swap _ _ _ _ _ An) (D2 O))].
    - apply (A3 (z :: z' :: S) OV); [cbn; lia|exact Dt]. }
  assert (EA : forall x y, edge_exists g x y = true <-> adjacent (edge_in D) x y).
  { intros x y. split; [|apply Sp]. intros L. destruct (adjacent_dec D x y) as [Ad|NA]; [exact Ad|exfalso]. destruct (E3 x y L) as (Hx & Hy & Ne).
    destruct (SN x y Hx Hy Ne NA) as (S & OV & [H|H]); [assert (F := Dt x y S OV H); congruence|]. assert (F := Dt y x S (others_swap _ _ _ _ OV) H). rewrite E2 in F. congruence. }
  intros x y. split; [apply EA|]. rewrite (und_ee fuel P so N true _ d g0 g x y S0 SO A R). apply EA.
Qed.
Print Assumptions C122_stable.

(* If besides the tests tell colliders from other triples, then the arrows are those that follow from the DAG. *)
Theorem C122_pattern : forall fuel P so N b sk rest d g0 g1 g r D, start_graph d = Ok g0 -> set_order so -> dag_over (dkeys (nodes g0)) D -> spares_edges N g0 b D ->
  separating_phase P so N g0 D b sk -> orienting so N rest -> tells_colliders N g0 b D -> List.length (nodes g0) * List.length (nodes g0) + 2 <= fuel ->
  execute_pipeline fuel P no_hooks sk g0 = (g1, Ok tt) -> execute_pipeline fuel P no_hooks (sk ++ rest) g0 = (g, r) ->
  meek_pattern g D /\ meek_closed g /\ (r = Ok tt \/ exists e xs zs ys, r = Err e /\ n_effect N xs zs ys = Err e).
Proof.
  intros fuel P so N b sk rest d g0 g1 g r D S0 SO DG SP Ph Or TC FU R1 R. assert (A := phase_skeleton P so N g0 D b sk Ph). assert (CP := complete_start d g0 S0).
  assert (Sk := C122_skeleton fuel P so N b sk d g0 g1 D S0 SO DG SP Ph R1). destruct (missing_tested fuel P so N b sk d g0 g1 S0 SO A R1) as (E1 & _).
  destruct (top fuel P so N g0 CP SO b sk g1 A R1) as (_ & K & _).
  assert (PG : forall u v, directed_edge_is_soft_deleted g1 u v = false).
  { assert (W0 := cp_wf _ CP). destruct Ph as [_|_|sh sh' coin SH SH' HP _].
    - refine (last_purged fuel P [PStep (calculate_pearson N); PStep (correlation_step N); PStep (partial_step false N)] (matrix_step so 4 N) g0 g1 W0 _ R1). repeat constructor; intros X; discriminate X.
    - refine (last_purged fuel P [PStep (calculate_pearson N); PStep (correlation_step N)] (matrix_step so 3 N) g0 g1 W0 _ R1). repeat constructor; intros X; discriminate X.
    - refine (last_purged fuel P [PStep (calculate_pearson N); PStep (correlation_step N); PStep (partial_step true N); PStep (matrix_step_sampled so sh coin N)] (matrix_step_parallel so sh' N) g0 g1 W0 _ R1).
      repeat constructor; intros _; exact HP. }
  destruct Or as [st first name l last Ff Hl H3 La]. rewrite pipeline_app, R1 in R.
  destruct (f_orient g0 D so DG SO _ _ N st first name l last fuel P g1 K) as (g' & r' & R' & _ & M & H); try assumption.
  - intros x y. rewrite <- E1. apply Sk.
  - intros x z y S A1 A2 Ne NA ((G1 & G2 & G3 & _) & ND & F). apply (TC x z y S A1 A2 Ne NA); [|exact F].
    split; [constructor; [intros [->|I]; [congruence|contradiction]|constructor; assumption]|]. intros w Hw. apply dmem_In. exact (G1 w Hw).
  - rewrite R in R'. injection R' as <- <-. split; [exact M|]. split; [exact (mp_closed D (do_acyclic _ _ DG) g M)|].
    destruct r as [[]|e]; [left; reflexivity|]. destruct H as (xs & zs & ys & H). right. exists e, xs, zs, ys. auto.
Qed.
Print Assumptions C122_pattern.
(* the shipped orientation phases are of this form *)
Theorem C122_shipped : forall so N, exists rest, orienting so N rest /\ pc so N = pc_skeleton so N ++ rest /\ pc_classic so N = pc_classic_skeleton so N ++ rest /\
  forall sh sh' coin, pc_parallel so sh sh' coin N = pc_parallel_skeleton so sh sh' coin N ++ rest.
Proof.
  intros so N. exists (orientation_rules so ++ [PStep (effect_step N)]). split.
  - change (orientation_rules so ++ [PStep (effect_step N)]) with (PStep (collider_step KEEP_FIRST so) :: [] ++ PLoop "Loop" exit_on_no_actions (orientation_steps so) :: [PStep (effect_step N)]).
    constructor; [constructor|intros s H; exact H| |right; reflexivity]. split; [|split]; cbn; tauto.
  - split; [reflexivity|]. split; [reflexivity|]. intros sh sh' coin. reflexivity.
Qed.
Print Assumptions C122_shipped.

(* ---- tests that are right everywhere meet these assumptions ---- *)
Section Perfect.
Variables (d : rawdata) (g0 : graph) (N : numerics) (D : list (id * id)) (c : id -> id -> Z).
Hypothesis S0 : start_graph d = Ok g0.
Hypothesis DG : dag_over (dkeys (nodes g0)) D.
Hypothesis PT : perfect_tests N (values_of g0) (dkeys (nodes g0)) D c.
Let CP := complete_start d g0 S0.
Lemma co_eq x y z : coefficient N g0 x y z -> z = c x y /\ In x (dkeys (nodes g0)) /\ In y (dkeys (nodes g0)) /\ x <> y.
Proof.
  intros H. destruct (coefficient_nodes N g0 CP x y z H) as (Hx & Hy & Ne). apply dmem_In in Hx, Hy. split; [|auto]. destruct H as [[_ H]|[_ H]].
  - rewrite (pt_pearson _ _ _ _ _ PT x y Hx Hy Ne) in H. congruence.
  - rewrite (pt_pearson _ _ _ _ _ PT y x Hy Hx ltac:(congruence)) in H. injection H as <-. apply (pt_sym _ _ _ _ _ PT).
Qed.
Lemma co_ex x y : In x (dkeys (nodes g0)) -> In y (dkeys (nodes g0)) -> x <> y -> coefficient N g0 x y (c x y).
Proof.
  intros Hx Hy Ne. destruct (start_earlier d g0 x y S0 Hx Hy Ne) as [O|O]; [left|right]; (split; [exact O|]).
  - exact (pt_pearson _ _ _ _ _ PT x y Hx Hy Ne).
  - rewrite (pt_sym _ _ _ _ _ PT x y). exact (pt_pearson _ _ _ _ _ PT y x Hy Hx ltac:(congruence)).
Qed.
Lemma dsep_perm x y S S' : Permutation S S' -> dsep D x y S -> dsep D x y S'.
Proof.
  intros Pm H p Hp O. apply (H p Hp). intros a b e T. destruct (O a b e T) as [O1 O2]. split.
  - intros K. destruct (O1 K) as (w & Rw & Sw). exists w. split; [exact Rw|]. eapply Permutation_in; [apply Permutation_sym; exact Pm|exact Sw].
  - intros K Sb. apply (O2 K). eapply Permutation_in; [exact Pm|exact Sb].
Qed.
Lemma dsep_swap x y S : dsep D x y S -> dsep D y x S.
Proof. apply d_separated_sym. Qed.
Lemma found_dsep b x y S : other_variables g0 x y S -> In x (dkeys (nodes g0)) -> In y (dkeys (nodes g0)) -> found_independent N g0 b x y S -> dsep D x y S.
Proof.
  intros OV Hx Hy F. destruct F as [_ (a & Ca & T)|_ (a & Ca & T)|z _ _ (a & e & f & Ca & Ce & Cf & T)|z _ _ (a & e & f & Ca & Ce & Cf & T)|S S' Pm Ln T].
  - destruct (co_eq _ _ _ Ca) as (-> & _ & _ & Ne). destruct (pt_corr _ _ _ _ _ PT x y Hx Hy Ne) as (q & Q & Sy). rewrite T in Q. injection Q as <-. apply Sy; reflexivity.
  - destruct (co_eq _ _ _ Ca) as (-> & _ & _ & Ne). destruct (pt_corr _ _ _ _ _ PT y x Hy Hx Ne) as (q & Q & Sy). rewrite T in Q. injection Q as <-. apply dsep_swap, Sy; reflexivity.
  - destruct (co_eq _ _ _ Ca) as (-> & _). destruct (co_eq _ _ _ Ce) as (-> & _). destruct (co_eq _ _ _ Cf) as (-> & _). destruct OV as [ND I].
    destruct (pt_partial _ _ _ _ _ PT x y z Hx Hy (I z (or_introl eq_refl)) ND) as (q & Q & Sy). rewrite T in Q. injection Q as <-. apply Sy; reflexivity.
  - destruct (co_eq _ _ _ Ca) as (-> & _). destruct (co_eq _ _ _ Ce) as (-> & _). destruct (co_eq _ _ _ Cf) as (-> & _). destruct (others_swap _ _ _ _ OV) as [ND I].
    destruct (pt_partial _ _ _ _ _ PT y x z Hy Hx (I z (or_introl eq_refl)) ND) as (q & Q & Sy). rewrite T in Q. injection Q as <-. apply dsep_swap, Sy; reflexivity.
  - apply (dsep_perm x y S' S Pm). assert (NE : S' <> []) by (intros ->; apply Permutation_nil in Pm; subst S; destruct b; cbn in Ln; lia).
    assert (OV' : forall u v, other_variables g0 u v S -> In u (dkeys (nodes g0)) -> In v (dkeys (nodes g0)) -> NoDup (u :: v :: S') /\ forall z, In z (u :: v :: S') -> In z (dkeys (nodes g0))).
    { intros u v [ND I] Hu Hv. split; [eapply Permutation_NoDup; [|exact ND]; do 2 apply perm_skip; apply Permutation_sym; exact Pm|].
      intros z [<-|[<-|Hz]]; auto. apply I. eapply Permutation_in; [exact Pm|exact Hz]. }
    destruct T as [T|T].
    + destruct (OV' x y OV Hx Hy) as [ND I]. destruct (pt_matrix _ _ _ _ _ PT x y S' ND I NE) as (q & Q & Sy). unfold matrix_answer in T. rewrite T in Q. injection Q as <-. apply Sy; reflexivity.
    + destruct (OV' y x (others_swap _ _ _ _ OV) Hy Hx) as [ND I]. destruct (pt_matrix _ _ _ _ _ PT y x S' ND I NE) as (q & Q & Sy). unfold matrix_answer in T. rewrite T in Q. injection Q as <-. apply dsep_swap, Sy; reflexivity.
Qed.
Lemma dsep_detects b x y S : other_variables g0 x y S -> In x (dkeys (nodes g0)) -> In y (dkeys (nodes g0)) -> dsep D x y S -> detects N g0 b x y S.
Proof.
  intros OV Hx Hy Ds. assert (OV2 := others_swap _ _ _ _ OV). destruct OV as [ND I]. assert (Ne : x <> y) by (inversion ND as [|? ? N1 _]; cbn in N1; intuition).
  assert (Al : S <> [] -> always_independent N g0 x y S).
  { intros NE S' Pm. destruct (pt_matrix _ _ _ _ _ PT x y S') as (q & Q & Sy).
    - eapply Permutation_NoDup; [|exact ND]. do 2 apply perm_skip. apply Permutation_sym; exact Pm.
    - intros z [<-|[<-|Hz]]; auto. apply I. eapply Permutation_in; [exact Pm|exact Hz].
    - intros ->. apply Permutation_nil in Pm. contradiction.
    - unfold matrix_answer. rewrite Q. rewrite (proj2 Sy (dsep_perm x y S S' (Permutation_sym Pm) Ds)). reflexivity. }
  destruct S as [|z [|z' S]]; cbn [detects].
  - split; intros _; [exists (c x y)|exists (c y x)]; (split; [apply co_ex; auto|]).
    + destruct (pt_corr _ _ _ _ _ PT x y Hx Hy Ne) as (q & Q & Sy). rewrite Q, (proj2 Sy Ds). reflexivity.
    + destruct (pt_corr _ _ _ _ _ PT y x Hy Hx ltac:(congruence)) as (q & Q & Sy). rewrite Q, (proj2 Sy (dsep_swap _ _ _ Ds)). reflexivity.
  - destruct b; [|apply Al; discriminate]. assert (Hz := I z (or_introl eq_refl)).
    assert (PA : forall u v, other_variables g0 u v [z] -> In u (dkeys (nodes g0)) -> In v (dkeys (nodes g0)) -> dsep D u v [z] -> partial_answer N g0 u v z (Some true)).
    { intros u v [NDu Iu] Hu Hv Du. exists (c u v), (c u z), (c v z). inversion NDu as [|? ? M1 M2]. inversion M2 as [|? ? M3 _]. cbn in M1, M3.
      split; [apply co_ex; auto; intros ->; tauto|]. split; [apply co_ex; auto; intros ->; tauto|]. split; [apply co_ex; auto; intros ->; tauto|].
      destruct (pt_partial _ _ _ _ _ PT u v z Hu Hv Hz NDu) as (q & Q & Sy). rewrite Q, (proj2 Sy Du). reflexivity. }
    split; [|split; intros _; [apply PA; [exact (conj ND I)|exact Hx|exact Hy|exact Ds]|apply PA; [exact OV2|exact Hy|exact Hx|apply dsep_swap; exact Ds]]].
    intros u v w Pm _ (a & e & f & Ca & Ce & Cf & T). destruct (co_eq _ _ _ Ca) as (-> & Hu & Hv & _). destruct (co_eq _ _ _ Ce) as (-> & _ & Hw & _). destruct (co_eq _ _ _ Cf) as (-> & _).
    destruct (pt_partial _ _ _ _ _ PT u v w Hu Hv Hw) as (q & Q & _); [eapply Permutation_NoDup; [apply Permutation_sym; exact Pm|exact ND]|congruence].
  - apply Al; discriminate.
Qed.
Lemma adj_nodes x y : adjacent (edge_in D) x y -> In x (dkeys (nodes g0)) /\ In y (dkeys (nodes g0)) /\ x <> y.
Proof. intros [H|H]; destruct (do_nodes _ _ DG _ _ H); repeat split; auto; intros ->; exact (no_loop _ (do_acyclic _ _ DG) _ H). Qed.
Lemma perfect_spares b : spares_edges N g0 b D.
Proof. intros x y S Ad OV F. destruct (adj_nodes x y Ad) as (Hx & Hy & Ne). exact (adjacent_connected _ x y _ Ne Ad (found_dsep b x y S OV Hx Hy F)). Qed.
Lemma perfect_tells b : tells_colliders N g0 b D.
Proof.
  intros x z y S A1 A2 Ne NA OV F. destruct (adj_nodes x z A1) as (Hx & Hz & N1). destruct (adj_nodes y z A2) as (Hy & _ & N2). assert (Ds := found_dsep b x y S OV Hx Hy F). split.
  - intros Hin (V1 & V2 & _). exact (sep_collider _ x z y _ Ne N1 (fun h => N2 (eq_sym h)) (conj V1 V2) Ds Hin).
  - intros NV. destruct (in_dec string_dec z S) as [Hin|Hout]; [exact Hin|exfalso]. apply (sep_non_collider _ x z y _ Ne N1 (fun h => N2 (eq_sym h)) A1 (adjacent_sym _ _ _ A2)) in Ds; [exact (Ds Hout)|].
    intros [V1 V2]. apply NV. repeat split; auto.
Qed.
Lemma hard_near b u v : hard g0 D u v -> other_variables g0 u v (pars D u) /\ (forall z, In z (pars D u) -> adjacent (edge_in D) u z) /\ detects N g0 b u v (pars D u).
Proof.
  intros Hh. assert (OV : other_variables g0 u v (pars D u)).
  { split; [exact (pars_NoDup g0 D DG u v Hh)|]. intros z Hz. apply dmem_In. apply (pars_nodes g0 D DG u v z Hh). right; right; exact Hz. }
  split; [exact OV|]. split; [intros z Hz; right; apply pars_In; exact Hz|]. destruct Hh as (Hu & Hv & Hh). apply dsep_detects; [exact OV|apply dmem_In; exact Hu|apply dmem_In; exact Hv|apply (pars_sep g0 D DG u v (conj Hu (conj Hv Hh)))].
Qed.
Lemma hard_one x y : In x (dkeys (nodes g0)) -> In y (dkeys (nodes g0)) -> x <> y -> ~ adjacent (edge_in D) x y -> hard g0 D x y \/ hard g0 D y x.
Proof.
  intros Hx Hy Ne NA. assert (Nx := proj2 (dmem_In _ _) Hx). assert (Ny := proj2 (dmem_In _ _) Hy).
  destruct (reachb D x y) eqn:RB; [|left; refine (conj Nx (conj Ny (conj Ne (conj NA _)))); intros R1; apply reachb_iff in R1; [congruence|exact (do_acyclic _ _ DG)]].
  assert (R1 : reach (edge_in D) x y) by (apply reachb_iff; [exact (do_acyclic _ _ DG)|exact RB]).
  right. refine (conj Ny (conj Nx (conj (fun h => Ne (eq_sym h)) (conj (fun h => NA (adjacent_sym _ _ _ h)) _)))). intros R2. exact (Ne (reach_antisym _ (do_acyclic _ _ DG) x y R1 R2)).
Qed.
Lemma perfect_nearby b : separates_nearby N g0 b D.
Proof.
  intros x y Hx Hy Ne NA. destruct (hard_one x y Hx Hy Ne NA) as [H|H].
  - destruct (hard_near b x y H) as (H1 & H2 & H3). exists (pars D x). split; [exact H1|]. left; auto.
  - destruct (hard_near b y x H) as (H1 & H2 & H3). exists (pars D y). split; [apply others_swap; exact H1|]. right; auto.
Qed.
Lemma hard_correlated b u v : hard g0 D u v -> exists S, other_variables g0 u v S /\ (forall z, S = [z] -> ~ found_independent N g0 b u z [] /\ ~ found_independent N g0 b v z []) /\
  (forall z, In z S -> adjacent (edge_in D) u z) /\ detects N g0 b u v S.
Proof.
  intros Hh. destruct (hard_near b u v Hh) as (OV & Nb & Dt). assert (Hh' := Hh). destruct Hh' as (Hu & Hv & Ne & NA & NR). apply dmem_In in Hu, Hv.
  destruct (pars D u) as [|z [|z' S]] eqn:Pu.
  - exists []. split; [exact OV|]. split; [discriminate|]. auto.
  - assert (Hz := proj2 OV z (or_introl eq_refl)). assert (Ez : forall w, edge_in D w u <-> w = z) by (intros w; rewrite <- pars_In, Pu; cbn; intuition).
    assert (OE : forall a b, In b (dkeys (nodes g0)) -> a <> b -> other_variables g0 a b []) by (intros a e _ n; split; [constructor; [intros [h|[]]; exact (n (eq_sym h))|constructor; [intros []|constructor]]|intros w []]).
    assert (Nvz : v <> z) by (intros ->; destruct OV as [ND _]; inversion ND as [|? ? _ N2]; inversion N2 as [|? ? N3 _]; apply N3; left; reflexivity).
    destruct (dsepb D z v []) eqn:Db.
    + assert (Ds : dsep D z v []) by (apply (dsepb_iff D (do_acyclic _ _ DG)); exact Db). exists []. split; [apply OE; assumption|]. split; [discriminate|]. split; [intros w []|]. apply dsep_detects; [apply OE; assumption|exact Hu|exact Hv|].
      exact (single_parent (edge_in D) u v z Ne NA NR Ez Ds).
    + exists [z]. split; [exact OV|]. split; [|auto]. intros w Ew. injection Ew as <-.
      assert (Auz : adjacent (edge_in D) u z) by (right; apply Ez; reflexivity). destruct (adj_nodes u z Auz) as (_ & _ & Nuz). split.
      * intros F. exact (adjacent_connected _ u z _ Nuz Auz (found_dsep b u z [] (OE u z Hz Nuz) Hu Hz F)).
      * intros F. assert (Ds := found_dsep b v z [] (OE v z Hz Nvz) Hv Hz F). apply dsep_swap in Ds. apply (dsepb_iff D (do_acyclic _ _ DG)) in Ds. congruence.
  - exists (z :: z' :: S). split; [exact OV|]. split; [discriminate|]. auto.
Qed.
Lemma perfect_correlated b : separates_correlated N g0 b D.
Proof.
  intros x y Hx Hy Ne NA. destruct (hard_one x y Hx Hy Ne NA) as [H|H].
  - destruct (hard_correlated b x y H) as (S & H1 & H2 & H3 & H4). exists S. split; [exact H1|]. split; [exact H2|]. left; auto.
  - destruct (hard_correlated b y x H) as (S & H1 & H2 & H3 & H4). exists S. split; [apply others_swap; exact H1|]. split; [intros z Ez; destruct (H2 z Ez); auto|]. right; auto.
Qed.
End Perfect.
Theorem C122_weaker : forall d g0 N D c b, start_graph d = Ok g0 -> dag_over (dkeys (nodes g0)) D -> perfect_tests N (values_of g0) (dkeys (nodes g0)) D c ->
  spares_edges N g0 b D /\ separates_nearby N g0 b D /\ separates_correlated N g0 b D /\ tells_colliders N g0 b D.
Proof.
  intros d g0 N D c b S0 DG PT. split; [exact (perfect_spares d g0 N D c S0 DG PT b)|]. split; [exact (perfect_nearby d g0 N D c S0 DG PT b)|].
  split; [exact (perfect_correlated d g0 N D c S0 DG PT b)|exact (perfect_tells d g0 N D c S0 DG PT b)].
Qed.
Print Assumptions C122_weaker.


(* ---- p -> x and y on its own, with one wrong answer: the correlation test does not find x and y independent ---- *)
Definition nf : list id := ["p"; "x"; "y"].
Definition df : list (id * id) := [("p", "x")].
Lemma nf_nodup : NoDup nf.
Proof. repeat constructor; cbn; intuition discriminate. Qed.
Lemma df_dag : dag_over nf df.
Proof. exact (dag_by_order_main nf df nf_nodup eq_refl). Qed.
Definition blind : numerics :=
  let I := ideal nf df in
  mkNum (n_pearson I) (fun n c => if Z.eqb c 11 then Ok false else n_corr_test I n c) (n_partial I) (n_matrix I) (n_regress I) (n_effect I).
Definition gf : graph := Eval vm_compute in match start_graph (ideal_data nf) with Ok g => g | Err _ => empty_graph end.
Lemma gf_start : start_graph (ideal_data nf) = Ok gf.
Proof. vm_compute. reflexivity. Qed.
Lemma gf_ideal : dag_over (dkeys (nodes gf)) df /\ perfect_tests (ideal nf df) (values_of gf) (dkeys (nodes gf)) df (ideal_corr nf).
Proof. destruct (ideal_exists nf df nf_nodup df_dag) as (g0 & S0 & _ & DG & PT). rewrite gf_start in S0. injection S0 as <-. auto. Qed.
Lemma blind_found b x y S : found_independent blind gf b x y S -> found_independent (ideal nf df) gf b x y S.
Proof.
  assert (HP : forall u v, corr_answer blind gf u v true -> corr_answer (ideal nf df) gf u v true).
  { intros u v (a & Ca & T). exists a. split; [exact Ca|]. unfold blind, n_corr_test at 1 in T. destruct (Z.eqb a 11); [discriminate|exact T]. }
  intros [B T|B T|z H B T|z H B T|S0 S' Pm Ln T].
  - apply fi_none; auto.
  - apply fi_none'; auto.
  - apply fi_one; auto.
  - apply fi_one'; auto.
  - apply (fi_set _ _ _ _ _ _ _ Pm Ln). destruct T as [T|T]; [left|right]; exact T.
Qed.
Lemma blind_detects b u v z : In u nf -> In v nf -> In z nf -> NoDup [u; v; z] -> dsepb df u v [z] = true -> detects blind gf b u v [z].
Proof.
  intros Hu Hv Hz ND Ds. destruct gf_ideal as [DG PT]. apply (dsepb_iff df (do_acyclic _ _ DG)) in Ds.
  assert (X := dsep_detects (ideal_data nf) gf (ideal nf df) df (ideal_corr nf) gf_start PT b u v [z]). apply X; [|exact Hu|exact Hv|exact Ds]. split; [exact ND|]. intros w [<-|[]]; exact Hz.
Qed.
Lemma blind_detects0 b u v : In u nf -> In v nf -> u <> v -> Z.eqb (ideal_corr nf u v) 11 = false -> dsepb df u v [] = true -> detects blind gf b u v [].
Proof.
  intros Hu Hv Ne NC Ds. destruct gf_ideal as [DG PT]. apply (dsepb_iff df (do_acyclic _ _ DG)) in Ds.
  assert (X := dsep_detects (ideal_data nf) gf (ideal nf df) df (ideal_corr nf) gf_start PT b u v []).
  assert (OV : other_variables gf u v []) by (split; [repeat constructor; cbn; intuition|intros w []]).
  destruct (X OV Hu Hv Ds) as [X1 X2]. cbn [detects]. assert (H : forall s t, ideal_corr nf s t = ideal_corr nf u v -> corr_answer (ideal nf df) gf s t true -> corr_answer blind gf s t true).
  { intros s t Est (a & Ca & T). exists a. split; [exact Ca|]. destruct (co_eq (ideal_data nf) gf (ideal nf df) df (ideal_corr nf) gf_start PT s t a Ca) as (-> & _). unfold blind, n_corr_test at 1. rewrite Est, NC, <- Est. exact T. }
  split; intros O; apply H; auto. exact (pt_sym _ _ _ _ _ PT v u).
Qed.
Lemma blind_assumptions b : spares_edges blind gf b df /\ separates_nearby blind gf b df /\ tells_colliders blind gf b df.
Proof.
  destruct gf_ideal as [DG PT]. destruct (C122_weaker _ gf _ df _ b gf_start DG PT) as (H1 & _ & _ & H3). split; [|split].
  - intros x y S Ad OV F. exact (H1 x y S Ad OV (blind_found b x y S F)).
  - assert (D1 : detects blind gf b "x" "y" ["p"]) by (apply blind_detects; [cbn; tauto|cbn; tauto|cbn; tauto|repeat constructor; cbn; intuition discriminate|vm_compute; reflexivity]).
    assert (D2 : detects blind gf b "p" "y" []) by (apply blind_detects0; [cbn; tauto|cbn; tauto|discriminate|vm_compute; reflexivity|vm_compute; reflexivity]).
    assert (O1 : forall u v, NoDup [u; v; "p"] -> other_variables gf u v ["p"]) by (intros u v ND; split; [exact ND|]; intros z [<-|[]]; cbn; tauto).
    assert (O2 : forall u v, NoDup [u; v] -> other_variables gf u v []) by (intros u v ND; split; [exact ND|]; intros z []).
    assert (E1 : edge_in df "p" "x") by (unfold edge_in; cbn; tauto).
    intros x y Hx Hy Ne NA. change (dkeys (nodes gf)) with nf in Hx, Hy.
    destruct Hx as [<-|[<-|[<-|[]]]]; destruct Hy as [<-|[<-|[<-|[]]]]; try (exfalso; apply Ne; reflexivity); try (exfalso; apply NA; left; assumption); try (exfalso; apply NA; right; assumption).
    + exists []. split; [apply O2; repeat constructor; cbn; intuition discriminate|]. left. split; [intros z []|exact D2].
    + exists ["p"]. split; [apply O1; repeat constructor; cbn; intuition discriminate|]. left. split; [intros z [<-|[]]; right; exact E1|exact D1].
    + exists []. split; [apply O2; repeat constructor; cbn; intuition discriminate|]. right. split; [intros z []|exact D2].
    + exists ["p"]. split; [apply O1; repeat constructor; cbn; intuition discriminate|]. right. split; [intros z [<-|[]]; right; exact E1|exact D1].
  - intros x z y S A1 A2 Ne NA OV F. exact (H3 x z y S A1 A2 Ne NA OV (blind_found b x y S F)).
Qed.

(* PC keeps x - y although the partial correlation test would find them independent given p: it is not asked, because p - y is gone.
   PCClassic on the same data is right. *)
Theorem C122_pc_refuted : exists d g0 N D g g', start_graph d = Ok g0 /\ dag_over (dkeys (nodes g0)) D /\ (forall b, spares_edges N g0 b D /\ separates_nearby N g0 b D /\ tells_colliders N g0 b D) /\
  execute_pipeline 40 (batch_runner no_hooks) no_hooks (pc_skeleton dedup N) g0 = (g, Ok tt) /\ ~ skeleton_is g D /\
  execute_pipeline 40 (batch_runner no_hooks) no_hooks (pc_classic_skeleton dedup N) g0 = (g', Ok tt) /\ skeleton_is g' D.
Proof.
  destruct (execute_pipeline 40 (batch_runner no_hooks) no_hooks (pc_skeleton dedup blind) gf) as [g r] eqn:R. destruct (execute_pipeline 40 (batch_runner no_hooks) no_hooks (pc_classic_skeleton dedup blind) gf) as [g' r'] eqn:R'.
  assert (X : r = Ok tt /\ edge_exists g "x" "y" = true) by (symmetry in R; vm_compute in R; injection R as -> ->; split; vm_compute; reflexivity). destruct X as [-> X].
  assert (X' : r' = Ok tt) by (symmetry in R'; vm_compute in R'; injection R' as -> ->; reflexivity). subst r'.
  exists (ideal_data nf), gf, blind, df, g, g'. split; [exact gf_start|]. split; [exact (proj1 gf_ideal)|]. split; [exact blind_assumptions|]. split; [exact R|].
  split; [intros Sk; apply (Sk "x" "y") in X; destruct X as [H|H]; unfold edge_in in H; cbn in H; intuition discriminate|]. split; [exact R'|].
  destruct (blind_assumptions false) as (H1 & H2 & _).
  exact (C122_skeleton 40 _ dedup blind false _ _ gf g' df gf_start dedup_order (proj1 gf_ideal) H1 (sp_classic_phase _ _ _ _ _ H2) R').
Qed.
Print Assumptions C122_pc_refuted.

(* the tests of this data are not right everywhere, PCClassic is nevertheless *)
Example C122_nonvacuous : exists g1 g, spares_edges blind gf false df /\ separating_phase (batch_runner no_hooks) dedup blind gf df false (pc_classic_skeleton dedup blind) /\ tells_colliders blind gf false df /\
  execute_pipeline 40 (batch_runner no_hooks) no_hooks (pc_classic_skeleton dedup blind) gf = (g1, Ok tt) /\ execute_pipeline 40 (batch_runner no_hooks) no_hooks (pc_classic dedup blind) gf = (g, Ok tt) /\
  dsep df "x" "y" [] /\ corr_answer blind gf "x" "y" false /\ List.length (nodes gf) * List.length (nodes gf) + 2 <= 40.
Proof.
  destruct (blind_assumptions false) as (H1 & H2 & H3). eexists. eexists. split; [exact H1|]. split; [constructor; exact H2|]. split; [exact H3|].
  split; [vm_compute; reflexivity|]. split; [vm_compute; reflexivity|]. split; [apply (dsepb_iff df (do_acyclic _ _ (proj1 gf_ideal))); vm_compute; reflexivity|].
  split; [|vm_compute; lia]. exists 11%Z. split; [|vm_compute; reflexivity]. left. split; [|vm_compute; reflexivity]. exists ["p"], [], []. reflexivity.
Qed.
