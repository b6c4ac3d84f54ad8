(* Whole runs on tables in which a column may be calculated from two others: C120. *)
From Coq Require Import Reals List Lra Lia.
From Verif Require Import Base PyDict PyDictFacts Graph GraphCheck PathSpec Actions ActionSpec Generators GenSpec GenFacts IndepTests Pipeline Parallel PipeMain2 SkelFacts SkelSteps Construct ConstructFacts TotalSpec TotalFacts TotalMain TestedSpec TestedFacts TestedMain PropsTested
  Numeric NumericSpec NumericFacts NumericFacts2 PropsNumeric Nan NanSpec NanFacts PropsNan PlaneSpec PlaneFacts PlaneRun PlaneEnd PlaneRunSpec PropsPlane.
Import ListNotations.
Open Scope R_scope.

(* the test with larger conditioning sets never raises: it gives up, or there are enough rows and the correlation is not 1 *)
Theorem C120_matrix : forall dec code Phi th n vals ns N l, python_run dec code Phi th n vals ns N -> (2 <= n)%nat -> NoDup l -> (forall z, In z l -> In z ns) -> (3 <= List.length l)%nat ->
  exists o, n_matrix N (map vals l) = Ok o.
Proof.
  intros dec code Phi th n vals ns N l PR Hn ND Hl L3. destruct (Classical_Prop.classic (exists P, inverts (List.length l) P (cov (map (fun v => map dec (vals v)) l)))) as [(P & I)|No].
  - rewrite (pr_matrix _ _ _ _ _ _ _ _ PR l P ND Hl L3 I). destruct l as [|x [|y zs]]; cbn [List.length] in L3; try lia.
    assert (Ob : observations n (map (fun v => map dec (vals v)) (x :: y :: zs))).
    { intros c Hc. apply in_map_iff in Hc. destruct Hc as (v & <- & Hv). rewrite map_length. exact (po_length _ _ _ _ _ _ _ _ (pr_python _ _ _ _ _ _ _ _ PR) v (Hl v Hv)). }
    assert (Le : List.length (map dec (vals x) :: map dec (vals y) :: map (fun v => map dec (vals v)) zs) = List.length (x :: y :: zs)) by (cbn [List.length]; rewrite map_length; reflexivity).
    assert (I' : inverts (List.length (map dec (vals x) :: map dec (vals y) :: map (fun v => map dec (vals v)) zs)) P (cov (map dec (vals x) :: map dec (vals y) :: map (fun v => map dec (vals v)) zs))) by (rewrite Le; exact I).
    destruct (C62_matrix_answers Phi th n (map dec (vals x)) (map dec (vals y)) (map (fun v => map dec (vals v)) zs) P Hn Ob I') as (b & H). rewrite Le, map_length in H. apply fisher_same in H.
    replace (List.length (x :: y :: zs) - 2)%nat with (List.length zs) by (cbn; lia). rewrite H. exists (Some b). reflexivity.
  - exists None. apply (po_singular _ _ _ _ _ _ _ _ (pr_python _ _ _ _ _ _ _ _ PR) l ND Hl L3). intros P I. apply No. exists P; exact I.
Qed.
Print Assumptions C120_matrix.

Section Runs.
Variables (fuel : nat) (P : runner) (so : list id -> list id) (d : rawdata) (g0 : graph) (dec : Z -> R) (code : option R -> Z) (Phi : R -> R) (th : R) (n : nat) (N : numerics).
Hypothesis S0 : start_graph d = Ok g0.
Hypothesis SO : set_order so.
Hypothesis L2 : (2 <= List.length (dkeys (nodes g0)))%nat.
Hypothesis Fu : (List.length (nodes g0) * List.length (nodes g0) + 2 <= fuel)%nat.
Hypothesis PR : python_run dec code Phi th n (values_of g0) (dkeys (nodes g0)) N.
Notation ids := (dkeys (nodes g0)).
Notation col x := (map dec (values_of g0 x)).
Let CP := SkelStart.complete_start d g0 S0.
Let PO := pr_python _ _ _ _ _ _ _ _ PR.
Lemma columns x y : ord g0 x y -> exists z, col_ans g0 N x y = Ok z.
Proof. intros O. eexists. exact (cols_all dec code Phi th n g0 N CP PO x y O). Qed.
Lemma matrices : (2 <= n)%nat -> forall l, NoDup l -> (forall z, In z l -> SkelFacts.node g0 z) -> (3 <= List.length l)%nat -> exists o, n_matrix N (map (values_of g0) l) = Ok o.
Proof. intros Hn l ND Hl L. apply (C120_matrix dec code Phi th n (values_of g0) ids N l PR Hn ND); [|exact L]. intros z Hz. apply dmem_In. exact (Hl z Hz). Qed.
Lemma effects xs zs ys e : n_effect N xs zs ys <> Err e.
Proof. destruct (pr_effect _ _ _ _ _ _ _ _ PR xs zs ys) as (c & ->). discriminate. Qed.

Lemma run_classic : exists g r, execute_pipeline fuel P no_hooks (pc_classic so N) g0 = (g, r) /\ (r = Ok tt \/ r = Err ZeroDivisionError \/ r = Err ValueError) /\
  (r = Ok tt <-> (3 <= n)%nat /\ no_repeats (fun x => col x) ids).
Proof.
  assert (AA := all_answers dec code Phi th n g0 N CP PO L2). destruct (first_cases g0 CP fuel P N columns) as [(A & _)|(x & y & e & g & O & He & R)].
  - destruct (proj1 AA A) as [Hn NR]. destruct (classic_ends g0 N so fuel P CP SO Fu (matrices ltac:(lia)) effects columns A) as (g & R). exists g, (Ok tt). split; [exact R|]. split; [auto|]. tauto.
  - exists g, (Err e). split; [|split].
    + unfold pc_classic, pc_classic_skeleton. cbn [app].
      match goal with |- execute_pipeline _ _ _ (?a :: ?b :: ?l) _ = _ => change (a :: b :: l) with (first_two N ++ l) end. rewrite PipeMain.pipeline_app, R. reflexivity.
    + rewrite (corr_is dec code Phi th n g0 N CP PO x y O) in He. destruct (fisher_errors _ _ _ _ _ _ He) as [-> | ->]; auto.
    + split; [discriminate|]. intros H. destruct (proj2 AA H x y O) as (b & Hb). congruence.
Qed.
Lemma run_pc : exists g r, execute_pipeline fuel P no_hooks (pc so N) g0 = (g, r) /\ (r = Ok tt \/ r = Err ZeroDivisionError \/ r = Err ValueError) /\
  (r = Ok tt <-> (3 <= n)%nat /\ no_repeats (fun x => col x) ids /\
     forall x y z, In x ids -> In y ids -> In z ids -> NoDup [x; y; z] -> mutually_dependent Phi th n (col x) (col y) (col z) -> answerable n (col x) (col y) (col z)).
Proof.
  destruct (C104_phase_partial fuel P d g0 dec code Phi th n N S0 L2 PO) as (g1 & r1 & R1 & C1 & I1).
  destruct r1 as [[]|e].
  - destruct (proj1 I1 eq_refl) as (Hn & NR & F). assert (A := proj2 (all_answers dec code Phi th n g0 N CP PO L2) (conj Hn NR)).
    destruct (pc_ends g0 N so fuel P CP SO Fu (matrices ltac:(lia)) effects columns A) as (g & R).
    { intros p q r Hc D. destruct (triples_ord g0 _ Hc) as (p' & q' & r' & Ep & O1 & O2 & O3). injection Ep as <- <- <-. destruct (triple_nd g0 CP p q r O1 O2 O3) as (Hp & Hq & Hr & ND).
      apply dmem_In in Hp, Hq, Hr. apply (chain_fine dec code Phi th n g0 N CP PO Hn NR p q r Hp Hq Hr ND). apply (F p q r Hp Hq Hr ND).
      unfold all_dependent in D. unfold mutually_dependent. rewrite !(corr_is dec code Phi th n g0 N CP PO) in D by assumption. exact D. }
    exists g, (Ok tt). split; [exact R|]. split; [auto|]. split; [intros _; split; [exact Hn|split; [exact NR|exact F]]|reflexivity].
  - exists g1, (Err e). split; [|split; [exact C1|exact I1]].
    unfold pc, pc_skeleton. cbn [app].
    match goal with |- execute_pipeline _ _ _ (?a :: ?b :: ?c :: ?l) _ = _ => change (a :: b :: c :: l) with ([a; b; c] ++ l) end. rewrite PipeMain.pipeline_app, R1. reflexivity.
Qed.
Lemma partials : (3 <= n)%nat -> no_repeats (fun x => col x) ids -> (forall x y z, In x ids -> In y ids -> In z ids -> NoDup [x; y; z] -> answerable n (col x) (col y) (col z)) ->
  forall x y z, SkelFacts.node g0 x -> SkelFacts.node g0 y -> SkelFacts.node g0 z -> NoDup [x; y; z] -> exists o, n_partial N (List.length (values_of g0 x)) 1 (corr g0 N x y) (corr g0 N x z) (corr g0 N y z) = Ok o.
Proof.
  intros Hn NR F x y z Hx Hy Hz ND. apply dmem_In in Hx, Hy, Hz. exact (proj2 (proj2 (pans_fine dec code Phi th n g0 N CP PO Hn NR x y z Hx Hy Hz ND)) (F x y z Hx Hy Hz ND)).
Qed.
Lemma run_stable g r : execute_pipeline fuel P no_hooks (pc_stable so N) g0 = (g, r) ->
  (r = Ok tt <-> (3 <= n)%nat /\ no_repeats (fun x => col x) ids /\ forall x y z, In x ids -> In y ids -> In z ids -> NoDup [x; y; z] -> answerable n (col x) (col y) (col z)).
Proof.
  intros R. split.
  - intros ->. unfold pc_stable in R. assert (R0 := R). rewrite PipeMain.pipeline_app in R. destruct (execute_pipeline fuel P no_hooks (pc_stable_skeleton so N) g0) as [g1 [[]|e]] eqn:R1; [|discriminate].
    destruct (skeleton_all g0 CP fuel P so N true _ g1 (so_stable P so N) R1) as [_ H]. apply (all_answers dec code Phi th n g0 N CP PO L2) in H. destruct H as [Hn NR]. split; [exact Hn|]. split; [exact NR|].
    intros x y z Hx Hy Hz ND. assert (T := C104_stable_fails fuel P so d g0 dec code Phi th n N _ g (Ok tt) x y z S0 PO R0 Hx Hy Hz ND). unfold answerable.
    destruct (Compare_dec.le_lt_dec 4 n) as [L|L]; [|destruct (T (or_introl L) eq_refl)]. split; [exact L|].
    destruct (Classical_Prop.classic (constant (col x))) as [Cx|Cx]; [tauto|]. destruct (Classical_Prop.classic (constant (col y))) as [Cy|Cy]; [tauto|]. destruct (Classical_Prop.classic (constant (col z))) as [Cz|Cz]; [tauto|].
    right; right; right. intros Pl. apply T; [|reflexivity]. right. auto.
  - intros (Hn & NR & F). assert (A := proj2 (all_answers dec code Phi th n g0 N CP PO L2) (conj Hn NR)).
    destruct (stable_ends g0 N so fuel P CP SO Fu (matrices ltac:(lia)) effects columns A (partials Hn NR F)) as (g' & R'). rewrite R in R'. injection R' as _ ->. reflexivity.
Qed.
Lemma run_parallel sh sh' coin : is_shuffle (Some sh) -> is_shuffle (Some sh') -> pool_runner no_hooks P ->
  (3 <= n)%nat -> no_repeats (fun x => col x) ids -> (forall x y z, In x ids -> In y ids -> In z ids -> NoDup [x; y; z] -> answerable n (col x) (col y) (col z)) ->
  exists g, execute_pipeline fuel P no_hooks (pc_parallel so sh sh' coin N) g0 = (g, Ok tt).
Proof.
  intros S1 S2 HP Hn NR F. assert (A := proj2 (all_answers dec code Phi th n g0 N CP PO L2) (conj Hn NR)).
  exact (parallel_ends g0 N so fuel P CP SO Fu (matrices ltac:(lia)) effects columns A (partials Hn NR F) sh sh' coin S1 S2 HP).
Qed.
End Runs.

(* PCClassic ends well exactly on tables with three rows or more in which no varying column repeats another; *)
Theorem C120_classic : forall fuel P so d g0 dec code Phi th n N, start_graph d = Ok g0 -> set_order so -> (2 <= List.length (dkeys (nodes g0)))%nat ->
  (List.length (nodes g0) * List.length (nodes g0) + 2 <= fuel)%nat -> python_run dec code Phi th n (values_of g0) (dkeys (nodes g0)) N ->
  exists g r, execute_pipeline fuel P no_hooks (pc_classic so N) g0 = (g, r) /\ (r = Ok tt \/ r = Err ZeroDivisionError \/ r = Err ValueError) /\
    (r = Ok tt <-> (3 <= n)%nat /\ no_repeats (fun x => map dec (values_of g0 x)) (dkeys (nodes g0))).
Proof. intros fuel P so d g0 dec code Phi th n N S0 SO L2 Fu PR. exact (run_classic fuel P so d g0 dec code Phi th n N S0 SO L2 Fu PR). Qed.
Print Assumptions C120_classic.
(* PC ends well if moreover there are four rows or more, and no plane, wherever three columns are all correlated with each other; *)
Theorem C120_pc : forall fuel P so d g0 dec code Phi th n N, start_graph d = Ok g0 -> set_order so -> (2 <= List.length (dkeys (nodes g0)))%nat ->
  (List.length (nodes g0) * List.length (nodes g0) + 2 <= fuel)%nat -> python_run dec code Phi th n (values_of g0) (dkeys (nodes g0)) N ->
  exists g r, execute_pipeline fuel P no_hooks (pc so N) g0 = (g, r) /\ (r = Ok tt \/ r = Err ZeroDivisionError \/ r = Err ValueError) /\
    (r = Ok tt <-> (3 <= n)%nat /\ no_repeats (fun x => map dec (values_of g0 x)) (dkeys (nodes g0)) /\
       forall x y z, In x (dkeys (nodes g0)) -> In y (dkeys (nodes g0)) -> In z (dkeys (nodes g0)) -> NoDup [x; y; z] ->
         mutually_dependent Phi th n (map dec (values_of g0 x)) (map dec (values_of g0 y)) (map dec (values_of g0 z)) ->
         answerable n (map dec (values_of g0 x)) (map dec (values_of g0 y)) (map dec (values_of g0 z))).
Proof. intros fuel P so d g0 dec code Phi th n N S0 SO L2 Fu PR. exact (run_pc fuel P so d g0 dec code Phi th n N S0 SO L2 Fu PR). Qed.
Print Assumptions C120_pc.
(* PCStable ends well if that holds for all triples of columns; *)
Theorem C120_stable : forall fuel P so d g0 dec code Phi th n N g r, start_graph d = Ok g0 -> set_order so -> (2 <= List.length (dkeys (nodes g0)))%nat ->
  (List.length (nodes g0) * List.length (nodes g0) + 2 <= fuel)%nat -> python_run dec code Phi th n (values_of g0) (dkeys (nodes g0)) N ->
  execute_pipeline fuel P no_hooks (pc_stable so N) g0 = (g, r) ->
  (r = Ok tt <-> (3 <= n)%nat /\ no_repeats (fun x => map dec (values_of g0 x)) (dkeys (nodes g0)) /\
     forall x y z, In x (dkeys (nodes g0)) -> In y (dkeys (nodes g0)) -> In z (dkeys (nodes g0)) -> NoDup [x; y; z] ->
       answerable n (map dec (values_of g0 x)) (map dec (values_of g0 y)) (map dec (values_of g0 z))).
Proof. intros fuel P so d g0 dec code Phi th n N g r S0 SO L2 Fu PR R. exact (run_stable fuel P so d g0 dec code Phi th n N S0 SO L2 Fu PR g r R). Qed.
Print Assumptions C120_stable.
(* and so does ParallelPC, for every pool and every order in which the tests are drawn *)
Theorem C120_parallel : forall fuel P so sh sh' coin d g0 dec code Phi th n N, start_graph d = Ok g0 -> set_order so -> (2 <= List.length (dkeys (nodes g0)))%nat ->
  (List.length (nodes g0) * List.length (nodes g0) + 2 <= fuel)%nat -> python_run dec code Phi th n (values_of g0) (dkeys (nodes g0)) N ->
  is_shuffle (Some sh) -> is_shuffle (Some sh') -> pool_runner no_hooks P ->
  (3 <= n)%nat -> no_repeats (fun x => map dec (values_of g0 x)) (dkeys (nodes g0)) ->
  (forall x y z, In x (dkeys (nodes g0)) -> In y (dkeys (nodes g0)) -> In z (dkeys (nodes g0)) -> NoDup [x; y; z] ->
     answerable n (map dec (values_of g0 x)) (map dec (values_of g0 y)) (map dec (values_of g0 z))) ->
  exists g, execute_pipeline fuel P no_hooks (pc_parallel so sh sh' coin N) g0 = (g, Ok tt).
Proof. intros fuel P so sh sh' coin d g0 dec code Phi th n N S0 SO L2 Fu PR S1 S2 HP Hn NR F. exact (run_parallel fuel P so d g0 dec code Phi th n N S0 SO L2 Fu PR sh sh' coin S1 S2 HP Hn NR F). Qed.
Print Assumptions C120_parallel.

(* There are such routines for every table of two rows or more: *)
Fixpoint words {A} (k : nat) (l : list A) : list (list A) := match k with O => [[]] | S k' => [] :: flat_map (fun w => map (fun a => a :: w) l) (words k' l) end.
Lemma words_in {A} (l : list A) : forall k w, (List.length w <= k)%nat -> incl w l -> In w (words k l).
Proof.
  induction k as [|k IH]; intros [|a w] L I; cbn [List.length] in L; cbn [words]; try lia; try (left; reflexivity). right. apply in_flat_map. exists w. split; [apply IH; [lia|intros b Hb; apply I; right; exact Hb]|].
  apply in_map_iff. exists a. split; [reflexivity|apply I; left; reflexivity].
Qed.
Lemma finite_choice {A B} (dec : forall a b : A, {a = b} + {a <> b}) (R : A -> B -> Prop) (b0 : B) (l : list A) : (forall a, In a l -> exists b, R a b) -> exists f, forall a, In a l -> R a (f a).
Proof.
  induction l as [|a l IH]; intros H; [exists (fun _ => b0); intros a []|]. destruct (IH (fun x Hx => H x (or_intror Hx))) as (f & Hf). destruct (H a (or_introl eq_refl)) as (b & Hb).
  exists (fun x => if dec x a then b else f x). intros x Hx. destruct (dec x a) as [->|Ne]; [exact Hb|]. destruct Hx as [<-|Hx]; [congruence|exact (Hf x Hx)].
Qed.
Definition ropt_dec (a b : option R) : {a = b} + {a <> b}.
Proof. destruct a as [a|], b as [b|]; try (right; discriminate); [|left; reflexivity]. destruct (Req_EM_T a b) as [->|Ne]; [left; reflexivity|right; congruence]. Defined.
Fixpoint place (o : option R) (l : list (option R)) : nat := match l with [] => O | a :: m => if ropt_dec o a then O else S (place o m) end.
Lemma place_nth o l : In o l -> nth (place o l) l None = o.
Proof. induction l as [|a l IH]; intros H; [destruct H|]. cbn [place]. destruct (ropt_dec o a) as [->|Ne]; [reflexivity|]. destruct H as [<-|H]; [congruence|]. cbn [nth]. exact (IH H). Qed.

Theorem C120_routines : forall dec Phi th n vals ns, (2 <= n)%nat -> (forall x, In x ns -> List.length (vals x) = n) -> exists code N, python_run dec code Phi th n vals ns N.
Proof.
  intros dec Phi th n vals ns Hn Len.
  set (cor := fun x y => pearson (map dec (vals x)) (map dec (vals y))).
  set (L := flat_map (fun x => map (cor x) ns) ns).
  assert (HL : forall x y, In x ns -> In y ns -> nth (Z.to_nat (Z.of_nat (place (cor x y) L))) L None = cor x y).
  { intros x y Hx Hy. rewrite Znat.Nat2Z.id. apply place_nth. apply in_flat_map. exists x. split; [exact Hx|]. apply in_map. exact Hy. }
  set (back := fun z => nth (Z.to_nat z) L None).
  set (R := fun (k : list (list Z)) (o : res (option bool)) =>
    (forall P, inverts (List.length k) P (cov (map (map dec) k)) -> o = rbind (fisher_py Phi th n (List.length k - 2) (Some (matrix_par (List.length k) P))) (fun b => Ok (Some b))) /\
    ((forall P, ~ inverts (List.length k) P (cov (map (map dec) k))) -> o = Ok None)).
  set (keys := filter (fun k => Nat.leb 3 (List.length k)) (map (map vals) (words (List.length ns) ns))).
  assert (Kin : forall l, NoDup l -> (forall z, In z l -> In z ns) -> (3 <= List.length l)%nat -> In (map vals l) keys).
  { intros l ND I L3. apply filter_In. split; [|apply Nat.leb_le; rewrite map_length; exact L3]. apply in_map. apply words_in; [|exact I]. apply NoDup_incl_length; assumption. }
  destruct (finite_choice (list_eq_dec (list_eq_dec Z.eq_dec)) R (Ok None) keys) as (M & HM).
  { intros k Hk. apply filter_In in Hk. destruct Hk as [Hk L3]. apply Nat.leb_le in L3. apply in_map_iff in Hk. destruct Hk as (w & <- & Hw).
    destruct (Classical_Prop.classic (exists P, inverts (List.length (map vals w)) P (cov (map (map dec) (map vals w))))) as [(P & I)|No].
    - eexists. split; [|intros H; exfalso; exact (H P I)]. intros P' I'. rewrite map_length in *. rewrite map_map in *.
      replace (matrix_par (List.length w) P') with (matrix_par (List.length w) P); [reflexivity|].
      assert (Wn : incl w ns). { clear - Hw. revert w Hw. induction (List.length ns) as [|k IH]; cbn [words]; [intros w [<-|[]] a []|]. intros w [<-|Hw]; [intros a []|]. apply in_flat_map in Hw. destruct Hw as (v & Hv & Hw). apply in_map_iff in Hw. destruct Hw as (a & <- & Ha). intros b [<-|Hb]; [exact Ha|exact (IH v Hv b Hb)]. }
      destruct w as [|x [|y zs]]; cbn [List.length] in L3; try lia. cbn [map] in I, I'.
      assert (Ob : observations n (map dec (vals x) :: map dec (vals y) :: map (fun v => map dec (vals v)) zs)).
      { intros c Hc. change (In c (map (fun v => map dec (vals v)) (x :: y :: zs))) in Hc. apply in_map_iff in Hc. destruct Hc as (v & <- & Hv). rewrite map_length. apply Len, Wn, Hv. }
      assert (Le : List.length (map dec (vals x) :: map dec (vals y) :: map (fun v => map dec (vals v)) zs) = List.length (x :: y :: zs)) by (cbn [List.length]; rewrite map_length; reflexivity).
      destruct (residuals_exist n (map dec (vals x)) (map dec (vals y)) (map (fun v => map dec (vals v)) zs) P Hn Ob ltac:(rewrite Le; exact I)) as [[e0 R0] [e1 R1]].
      rewrite <- Le. rewrite (matrix_residuals n _ _ _ P e0 e1 Hn Ob ltac:(rewrite Le; exact I) R0 R1), (matrix_residuals n _ _ _ P' e0 e1 Hn Ob ltac:(rewrite Le; exact I') R0 R1). reflexivity.
    - exists (Ok None). split; [|reflexivity]. intros P I. exfalso. apply No. exists P. exact I. }
  exists (fun o => Z.of_nat (place o L)), (mkNum (fun xs ys => Ok (Z.of_nat (place (pearson (map dec xs) (map dec ys)) L))) (fun k a => fisher_py Phi th k 0 (back a))
    (fun k j a b c => partial_py Phi th k j (back a) (back b) (back c)) M (fun _ _ _ => Ok true) (fun _ _ _ => Ok 0%Z)).
  split; [split|..].
  - exact Len.
  - reflexivity.
  - intros x y Hx Hy _. cbn [n_corr_test]. unfold back. fold (cor x y). rewrite HL by assumption. reflexivity.
  - intros x y z Hx Hy Hz _ cor'. subst cor'. cbn [n_partial]. unfold back. fold (cor x y) (cor x z) (cor y z). rewrite !HL by assumption. reflexivity.
  - intros l ND I L3 H. cbn [n_matrix]. apply (HM _ (Kin l ND I L3)). rewrite map_length, map_map. exact H.
  - intros l P ND I L3 H. cbn [n_matrix]. destruct (HM _ (Kin l ND I L3)) as [H1 _]. rewrite map_length, map_map in H1. exact (H1 P H).
  - intros xs zs ys. exists 0%Z. reflexivity.
Qed.
Print Assumptions C120_routines.

(* four rows, no column is calculated from the others: whatever the exact routines are, all four algorithms end well *)
Definition col5 (v : id) : list Z := if eqb v "x" then [1; 1; -1; -1]%Z else if eqb v "y" then [1; -1; 1; -1]%Z else [1; -1; -1; 1]%Z.
Definition table5 : rawdata := DDict (map (fun v => (v, map Some (col5 v))) ["x"; "y"; "z"]%string).
Definition start5 : graph := Eval vm_compute in match start_graph table5 with Ok g => g | Err _ => empty_graph end.
Example C120_nonvacuous : start_graph table5 = Ok start5 /\ (exists code N, python_run IZR code (fun _ => 1) (1 / 100) 4 (values_of start5) (dkeys (nodes start5)) N) /\
  forall code N, python_run IZR code (fun _ => 1) (1 / 100) 4 (values_of start5) (dkeys (nodes start5)) N ->
    (exists g, execute_pipeline 11 (batch_runner no_hooks) no_hooks (pc_classic dedup N) start5 = (g, Ok tt)) /\
    (exists g, execute_pipeline 11 (batch_runner no_hooks) no_hooks (pc dedup N) start5 = (g, Ok tt)) /\
    (exists g, execute_pipeline 11 (batch_runner no_hooks) no_hooks (pc_stable dedup N) start5 = (g, Ok tt)) /\
    (exists g, execute_pipeline 11 (batch_runner no_hooks) no_hooks (pc_parallel dedup (fun _ l => l) (fun _ l => rev l) (fun _ _ => true) N) start5 = (g, Ok tt)).
Proof.
  assert (S5 : start_graph table5 = Ok start5) by (vm_compute; reflexivity). assert (I5 : dkeys (nodes start5) = ["x"; "y"; "z"]%string) by (vm_compute; reflexivity).
  assert (V5 : forall v, In v ["x"; "y"; "z"]%string -> values_of start5 v = col5 v) by (intros v [H|[H|[H|[]]]]; subst v; vm_compute; reflexivity).
  split; [exact S5|]. split.
  { apply C120_routines; [lia|]. rewrite I5. intros v Hv. rewrite (V5 v Hv). destruct Hv as [H|[H|[H|[]]]]; subst v; reflexivity. }
  intros code N PR.
  assert (X5 : map IZR (values_of start5 "x"%string) = [1; 1; -1; -1]) by reflexivity. assert (Y5 : map IZR (values_of start5 "y"%string) = [1; -1; 1; -1]) by reflexivity. assert (Z5 : map IZR (values_of start5 "z"%string) = [1; -1; -1; 1]) by reflexivity.
  assert (NR : no_repeats (fun v => map IZR (values_of start5 v)) (dkeys (nodes start5))).
  { rewrite I5. intros u v Hu Hv Ne _ _ (a & b & H). destruct Hu as [Q|[Q|[Q|[]]]], Hv as [Q'|[Q'|[Q'|[]]]]; subst u v; try congruence; rewrite ?X5, ?Y5, ?Z5 in H;
      assert (H0 := H 0%nat ltac:(cbn; lia)); assert (H1 := H 1%nat ltac:(cbn; lia)); assert (H2 := H 2%nat ltac:(cbn; lia)); assert (H3 := H 3%nat ltac:(cbn; lia)); unfold at_ in *; cbn [nth] in *; lra. }
  assert (F : forall x y z, In x (dkeys (nodes start5)) -> In y (dkeys (nodes start5)) -> In z (dkeys (nodes start5)) -> NoDup [x; y; z] ->
    answerable 4 (map IZR (values_of start5 x)) (map IZR (values_of start5 y)) (map IZR (values_of start5 z))).
  { rewrite I5. intros u v w Hu Hv Hw ND. destruct (three u v w ND) as (N1 & N2 & N3). split; [lia|]. right; right; right. intros (a & b & c & k & Nz & H). apply Nz. clear Nz ND.
    destruct Hu as [Q|[Q|[Q|[]]]], Hv as [Q'|[Q'|[Q'|[]]]], Hw as [Q2|[Q2|[Q2|[]]]]; subst u v w; try congruence; rewrite ?X5, ?Y5, ?Z5 in H;
      assert (H0 := H 0%nat ltac:(cbn; lia)); assert (H1 := H 1%nat ltac:(cbn; lia)); assert (H2 := H 2%nat ltac:(cbn; lia)); assert (H3 := H 3%nat ltac:(cbn; lia)); unfold at_ in *; cbn [nth] in *; repeat split; lra. }
  assert (L2 : (2 <= List.length (dkeys (nodes start5)))%nat) by (rewrite I5; cbn; lia). assert (Fu : (List.length (nodes start5) * List.length (nodes start5) + 2 <= 11)%nat) by (vm_compute; lia).
  split; [|split; [|split]].
  - destruct (C120_classic 11 (batch_runner no_hooks) dedup table5 start5 IZR code _ _ 4 N S5 dedup_order L2 Fu PR) as (g & r & R & _ & I). exists g. rewrite R, (proj2 I); [reflexivity|split; [lia|exact NR]].
  - destruct (C120_pc 11 (batch_runner no_hooks) dedup table5 start5 IZR code _ _ 4 N S5 dedup_order L2 Fu PR) as (g & r & R & _ & I). exists g. rewrite R, (proj2 I); [reflexivity|]. split; [lia|]. split; [exact NR|]. intros; apply F; assumption.
  - destruct (execute_pipeline 11 (batch_runner no_hooks) no_hooks (pc_stable dedup N) start5) as [g r] eqn:R. exists g.
    rewrite (proj2 (C120_stable 11 (batch_runner no_hooks) dedup table5 start5 IZR code _ _ 4 N g r S5 dedup_order L2 Fu PR R)); [reflexivity|]. split; [lia|]. split; [exact NR|exact F].
  - apply (C120_parallel 11 (batch_runner no_hooks) dedup (fun _ l => l) (fun _ l => rev l) (fun _ _ => true) table5 start5 IZR code (fun _ => 1) (1 / 100) 4 N S5 dedup_order L2 Fu PR); [| |apply batch_pool|lia|exact NR|exact F].
    + intros k l. apply Permutation_refl.
    + intros k l. apply Permutation_sym, Permutation_rev.
Qed.
