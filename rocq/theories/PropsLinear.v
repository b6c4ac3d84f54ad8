(* Data that follow linear structural equations: C91, C92. *)
From Coq Require Import Reals List Lia Lra.
From Verif Require Import Base PyDict PyDictFacts Graph GraphSpec GraphFacts GraphInv GraphCheck PathSpec Actions IndepTests Pipeline Parallel PipeSpec PipeMain2 Construct ConstructFacts
  SampleGen SampleSpec Dag DagFacts SkelSpec SkelStart Schedules OrientSpec OrientTop PropsPC PropsCpdag DsepDec Ideal
  Numeric NumericSpec NumericFacts NumericFacts2 PropsNumeric LinearSpec UnitsFacts LinearFacts LinearFacts2 LinearFacts3 LinearFacts4 LinearThree.
Import ListNotations.
Open Scope R_scope.

(* C91: in linear data, what regression on S leaves of two variables that S d-separates is orthogonal; *)
Theorem C91_residuals : forall n ns es col x y S ex ey, (0 < n)%nat -> NoDup ns -> linear_data n ns es col ->
  In x ns -> In y ns -> (forall s, In s S -> In s ns) -> x <> y -> ~ In x S -> ~ In y S -> dsep (arrows es) x y S ->
  residual n (col x) (map col S) ex -> residual n (col y) (map col S) ey -> sumn n (fun t => at_ ex t * at_ ey t) = 0.
Proof. intros n ns es col x y S ex ey Hn ND LD Ix Iy IS Ne Sx Sy Sep Ex Ey. exact (residuals_orthogonal n ns es col Hn ND LD x y S Ix Iy IS Ne Sx Sy Sep ex ey Ex Ey). Qed.
Print Assumptions C91_residuals.
(* the correlation of d-separated variables is 0; *)
Theorem C91_correlation : forall n ns es col x y r, (0 < n)%nat -> NoDup ns -> linear_data n ns es col -> In x ns -> In y ns -> x <> y -> dsep (arrows es) x y [] ->
  pearson (col x) (col y) = Some r -> r = 0.
Proof. intros n ns es col x y r Hn ND LD. exact (separated_pearson n ns es col Hn ND LD x y r). Qed.
Print Assumptions C91_correlation.
(* so is the partial correlation given a variable that separates them, *)
Theorem C91_one_control : forall n ns es col x y z rxy rxz ryz p, (0 < n)%nat -> NoDup ns -> linear_data n ns es col -> In x ns -> In y ns -> In z ns -> NoDup [x; y; z] -> dsep (arrows es) x y [z] ->
  pearson (col x) (col y) = Some rxy -> pearson (col x) (col z) = Some rxz -> pearson (col y) (col z) = Some ryz -> partial3 rxy rxz ryz = Some p -> p = 0.
Proof.
  intros n ns es col x y z rxy rxz ryz p Hn ND LD Ix Iy Iz NDl Sep Exy Exz Eyz Pa.
  assert (N1 : x <> y) by (intros ->; inversion NDl as [|a l A B]; subst; apply A; left; reflexivity). assert (N2 : x <> z) by (intros ->; inversion NDl as [|a l A B]; subst; apply A; right; left; reflexivity).
  assert (N3 : y <> z) by (intros ->; inversion NDl as [|a l A B]; subst; inversion B as [|a l A' B']; subst; apply A'; left; reflexivity).
  rewrite (separated_partial n ns es col Hn ND LD x y z rxy rxz ryz Ix Iy Iz N1 N2 N3 Sep Exy Exz Eyz) in Pa. unfold partial3 in Pa. destruct (Req_EM_T _ 0); [discriminate|]. injection Pa as <-. unfold Rdiv. ring.
Qed.
Print Assumptions C91_one_control.
(* and the number calculated from the inverse covariance matrix, given any separating set. *)
Theorem C91_matrix : forall n ns es col x y S P, (2 <= n)%nat -> NoDup ns -> linear_data n ns es col -> NoDup (x :: y :: S) -> (forall z, In z (x :: y :: S) -> In z ns) -> dsep (arrows es) x y S ->
  inverts (List.length (x :: y :: S)) P (cov (map col (x :: y :: S))) -> matrix_par (List.length (x :: y :: S)) P = 0.
Proof.
  intros n ns es col x y S P H2 ND LD NDl Il Sep Inv. assert (NX := NDl). apply NoDup_cons_iff in NX. destruct NX as [Nx NY]. apply NoDup_cons_iff in NY. destruct NY as [Ny _].
  apply (separated_par n ns es col ltac:(lia) ND LD x y S); [apply Il; left; reflexivity|apply Il; right; left; reflexivity|intros s Hs; apply Il; right; right; exact Hs|intros ->; apply Nx; left; reflexivity|intros I; apply Nx; right; exact I|exact Ny|exact Sep|exact H2|exact Inv].
Qed.
Print Assumptions C91_matrix.
(* The inverse exists for all variables, in any choice, if every variable has noise of its own. *)
Theorem C91_invertible : forall n ns es col l, (2 <= n)%nat -> NoDup ns -> linear_data n ns es col -> (forall v, In v ns -> varies n (noise es col v)) -> NoDup l -> (forall v, In v l -> In v ns) ->
  exists P, inverts (List.length l) P (cov (map col l)).
Proof. intros n ns es col l H2 ND LD Va NDl Il. exact (covariance_inverse n ns es col ltac:(lia) ND LD Va l H2 NDl Il). Qed.
Print Assumptions C91_invertible.
(* The sample generator makes linear data out of noise columns that are uncorrelated. *)
Theorem C91_generated : forall es fuel so rnd size, set_order so -> acyclic (cause es) -> (2 * List.length es <= fuel)%nat ->
  exists vs d, iid_variables fuel so es = Ok vs /\ generate_data Rplus Rmult rnd es vs size = Ok d /\ dkeys d = vs /\
    ((forall i j, (i < List.length vs)%nat -> (j < List.length vs)%nat -> i <> j -> uncorrelated size (fun t => rnd (i * size + t)%nat) (fun t => rnd (j * size + t)%nat)) ->
     linear_data size vs es (fun k => match dget d k with Some c => c | None => [] end)).
Proof. intros es fuel so rnd size SO AC F. destruct (generated_linear es fuel so rnd size SO AC F) as (vs & d & A & B & C & _ & _ & E). exists vs, d. auto. Qed.
Print Assumptions C91_generated.

(* C92: on linear data with noise in every variable and dependences strong enough to be seen, exact tests answer by
   d-separation, *)
Theorem C92_tests : forall dec code Phi th n vals ns es N, (2 <= n)%nat -> NoDup ns -> linear_data n ns es (fun v => map dec (vals v)) -> (forall v, In v ns -> varies n (noise es (fun v => map dec (vals v)) v)) ->
  Phi 0 = 1 / 2 -> th < 1 -> detected Phi th n ns (arrows es) (fun v => map dec (vals v)) -> exact_tests dec code Phi th n vals ns N -> exists c, perfect_tests N vals ns (arrows es) c.
Proof. intros dec code Phi th n vals ns es N H2 ND LD Va P0 Ht De EX. eexists. exact (linear_perfect dec code Phi th n vals ns es N H2 ND LD Va P0 Ht De EX). Qed.
Print Assumptions C92_tests.
(* so that PC, PCClassic and ParallelPC return the graph of the structural equations up to the directions that no test
   can tell. *)
Theorem C92_recovers : forall fuel P l d g0 dec code Phi th n so es N g r, start_graph d = Ok g0 -> (2 <= n)%nat ->
  linear_data n (dkeys (nodes g0)) es (fun v => map dec (values_of g0 v)) -> (forall v, In v (dkeys (nodes g0)) -> varies n (noise es (fun v => map dec (values_of g0 v)) v)) ->
  Phi 0 = 1 / 2 -> th < 1 -> detected Phi th n (dkeys (nodes g0)) (arrows es) (fun v => map dec (values_of g0 v)) -> exact_tests dec code Phi th n (values_of g0) (dkeys (nodes g0)) N ->
  set_order so -> exact_algorithm P so N l -> (List.length (nodes g0) * List.length (nodes g0) + 2 <= fuel)%nat -> execute_pipeline fuel P no_hooks l g0 = (g, r) ->
  (forall x y, two_way g x y <-> exists D1 D2, dag_over (dkeys (nodes g0)) D1 /\ dag_over (dkeys (nodes g0)) D2 /\ equivalent (arrows es) D1 /\ equivalent (arrows es) D2 /\ edge_in D1 x y /\ edge_in D2 y x) /\
  (forall x y, one_way g x y <-> forall D', dag_over (dkeys (nodes g0)) D' -> equivalent (arrows es) D' -> edge_in D' x y).
Proof.
  intros fuel P l d g0 dec code Phi th n so es N g r S0 H2 LD Va P0 Ht De EX SO EA F Ru. assert (ND := wf_nodes _ (cp_wf _ (complete_start d g0 S0))).
  destruct (C92_tests dec code Phi th n (values_of g0) (dkeys (nodes g0)) es N H2 ND LD Va P0 Ht De EX) as [c PT].
  assert (PR : perfect_run fuel P l g0 (arrows es) N) by (split; [exists d; exact S0|exact (ld_dag _ _ _ _ LD)|exists c; exact PT|exists so; split; assumption|exact F]).
  split; [exact (C31_two_way fuel P l g0 (arrows es) N g r PR Ru)|exact (C31_one_way fuel P l g0 (arrows es) N g r PR Ru)].
Qed.
Print Assumptions C92_recovers.

(* ---- three variables, eight observations ---- *)
Open Scope string_scope.
Open Scope list_scope.
(* c = a + b + noise *)
Definition joint_es : list (sedge R) := [mkSE "a" 0%Z "c" 1; mkSE "b" 0%Z "c" 1].
Definition joint : rawdata := DDict [("a", map Some [1; 1; 1; 1; -1; -1; -1; -1]); ("b", map Some [1; 1; -1; -1; 1; 1; -1; -1]); ("c", map Some [3; 1; 1; -1; 1; -1; -1; -3])]%Z.
(* b = a + noise, c = b - a + noise *)
Definition cancel_es : list (sedge R) := [mkSE "a" 0%Z "b" 1; mkSE "b" 0%Z "c" 1; mkSE "a" 0%Z "c" (-1)].
Definition cancel : rawdata := DDict [("a", map Some [1; 1; 1; 1; -1; -1; -1; -1]); ("b", map Some [2; 2; 0; 0; 0; 0; -2; -2]); ("c", map Some [2; 0; 0; -2; 2; 0; 0; -2])]%Z.
Lemma nodup3 : NoDup names3.
Proof. repeat constructor; cbn; intuition discriminate. Qed.
Definition start (d : rawdata) : graph := match start_graph d with Ok g => g | Err _ => empty_graph end.
Ltac each_name := repeat match goal with H : In _ names3 |- _ => cbn [names3 In] in H | H : _ \/ _ |- _ => destruct H as [<-|H] | H : False |- _ => destruct H end.
Lemma joint_facts : start_graph joint = Ok (start joint) /\ dkeys (nodes (start joint)) = names3 /\
  values_of (start joint) "a" = [1; 1; 1; 1; -1; -1; -1; -1]%Z /\ values_of (start joint) "b" = [1; 1; -1; -1; 1; 1; -1; -1]%Z /\ values_of (start joint) "c" = [3; 1; 1; -1; 1; -1; -1; -3]%Z.
Proof. repeat (split; [vm_compute; reflexivity|]). vm_compute. reflexivity. Qed.
Lemma cancel_facts : start_graph cancel = Ok (start cancel) /\ dkeys (nodes (start cancel)) = names3 /\
  values_of (start cancel) "a" = [1; 1; 1; 1; -1; -1; -1; -1]%Z /\ values_of (start cancel) "b" = [2; 2; 0; 0; 0; 0; -2; -2]%Z /\ values_of (start cancel) "c" = [2; 0; 0; -2; 2; 0; 0; -2]%Z.
Proof. repeat (split; [vm_compute; reflexivity|]). vm_compute. reflexivity. Qed.
(* linear data from integer columns of noise *)
Lemma zuncorrelated x y (e f : nat -> R) : List.length x = 8%nat -> List.length y = 8%nat -> (forall t, (t < 8)%nat -> e t = at_ (map IZR x) t) -> (forall t, (t < 8)%nat -> f t = at_ (map IZR y) t) ->
  (uncorrelated 8 e f <-> zc x y = 0%Z).
Proof.
  intros Lx Ly He Hf. unfold uncorrelated. rewrite (sumn_ext 8 _ (fun t => at_ (map IZR x) t * at_ (map IZR y) t)) by (intros t Ht; rewrite He, Hf by exact Ht; reflexivity). rewrite (sumn_ext 8 e _ He), (sumn_ext 8 f _ Hf).
  assert (A : sumn 8 (fun t => at_ (map IZR x) t * at_ (map IZR y) t) = IZR (zdot x y)) by (rewrite <- zdot_R; symmetry; apply (dot_ip (map IZR x) (map IZR y) 8); rewrite map_length; assumption).
  assert (B : forall z, List.length z = 8%nat -> sumn 8 (at_ (map IZR z)) = IZR (zsum z)) by (intros z Lz; rewrite <- zsum_R, vsum_sumn, map_length, Lz; reflexivity).
  rewrite A, !B by assumption. replace (INR 8) with 8 by (cbn; ring). rewrite <- !mult_IZR. unfold zc. split; [intros H; apply eq_IZR in H; lia|intros H; apply f_equal; lia].
Qed.
Lemma table_linear es vals (z : id -> list Z) : dag_over names3 (arrows es) -> (forall v, In v names3 -> List.length (vals v) = 8%nat /\ List.length (z v) = 8%nat) ->
  (forall v t, In v names3 -> (t < 8)%nat -> noise es (fun v => map IZR (vals v)) v t = at_ (map IZR (z v)) t) -> (forall u v, In u names3 -> In v names3 -> u <> v -> zc (z u) (z v) = 0%Z) -> (forall v, In v names3 -> zc (z v) (z v) <> 0%Z) ->
  linear_data 8 names3 es (fun v => map IZR (vals v)) /\ (forall v, In v names3 -> varies 8 (noise es (fun v => map IZR (vals v)) v)).
Proof.
  intros DO Len Nz Z0 Zn. split; [split; [exact DO|intros v I; rewrite map_length; apply Len; exact I|]|].
  - intros u v Iu Iv Ne. apply (zuncorrelated (z u) (z v)); [apply Len; exact Iu|apply Len; exact Iv|intros t Ht; apply Nz; assumption|intros t Ht; apply Nz; assumption|]. apply Z0; assumption.
  - intros v I H. apply (zuncorrelated (z v) (z v)) in H; [exact (Zn v I H)|apply Len; exact I|apply Len; exact I|intros t Ht; apply Nz; assumption|intros t Ht; apply Nz; assumption].
Qed.
Definition own (v : id) : list Z := if eqb v "a" then [1; 1; 1; 1; -1; -1; -1; -1]%Z else if eqb v "b" then [1; 1; -1; -1; 1; 1; -1; -1]%Z else [1; -1; 1; -1; 1; -1; 1; -1]%Z.
Lemma own_facts : (forall u v, In u names3 -> In v names3 -> u <> v -> zc (own u) (own v) = 0%Z) /\ (forall v, In v names3 -> zc (own v) (own v) <> 0%Z).
Proof. split; [intros u v Iu Iv Ne|intros v Iv]; each_name; try contradiction; vm_compute; congruence. Qed.
Ltac eight t Ht := do 8 (destruct t as [|t]; [cbn; lra|]); lia.
Section Joint.
Variable vals : id -> list Z.
Hypothesis Va : vals "a" = [1; 1; 1; 1; -1; -1; -1; -1]%Z.
Hypothesis Vb : vals "b" = [1; 1; -1; -1; 1; 1; -1; -1]%Z.
Hypothesis Vc : vals "c" = [3; 1; 1; -1; 1; -1; -1; -3]%Z.
Lemma joint_linear : linear_data 8 names3 joint_es (fun v => map IZR (vals v)) /\ (forall v, In v names3 -> varies 8 (noise joint_es (fun v => map IZR (vals v)) v)).
Proof.
  destruct own_facts as [O1 O2]. apply (table_linear joint_es vals own); [apply dag_by_order; [exact nodup3|reflexivity]|intros v I; each_name; rewrite ?Va, ?Vb, ?Vc; split; reflexivity| |exact O1|exact O2].
  intros v t I Ht. unfold noise. each_name.
  - change (incoming joint_es "a") with (@nil (sedge R)). rewrite Va. change (own "a") with [1; 1; 1; 1; -1; -1; -1; -1]%Z. unfold at_. eight t Ht.
  - change (incoming joint_es "b") with (@nil (sedge R)). rewrite Vb. change (own "b") with [1; 1; -1; -1; 1; 1; -1; -1]%Z. unfold at_. eight t Ht.
  - change (incoming joint_es "c") with joint_es. cbn [joint_es map vsum se_value se_from]. rewrite Va, Vb, Vc. change (own "c") with [1; -1; 1; -1; 1; -1; 1; -1]%Z. unfold at_. eight t Ht.
Qed.
Lemma joint_len : forall v, In v names3 -> List.length (vals v) = 8%nat.
Proof. intros v I. each_name; rewrite ?Va, ?Vb, ?Vc; reflexivity. Qed.
Lemma joint_var : forall v, In v names3 -> (0 < zc (vals v) (vals v))%Z.
Proof. intros v I. each_name; rewrite ?Va, ?Vb, ?Vc; reflexivity. Qed.
Lemma distinct3 (x y z : id) : NoDup [x; y; z] -> x <> y /\ x <> z /\ y <> z.
Proof. intros ND. apply NoDup_cons_iff in ND. destruct ND as [A B]. apply NoDup_cons_iff in B. destruct B as [B _]. cbn in A, B. intuition congruence. Qed.
Lemma joint_par : forall x y z, In x names3 -> In y names3 -> In z names3 -> NoDup [x; y; z] -> (zc (vals x) (vals y) * zc (vals z) (vals z) <> zc (vals x) (vals z) * zc (vals y) (vals z))%Z.
Proof. intros x y z Ix Iy Iz ND. destruct (distinct3 x y z ND) as (N1 & N2 & N3). clear ND. each_name; try contradiction; rewrite ?Va, ?Vb, ?Vc; vm_compute; congruence. Qed.
Lemma joint_sep : forall x y, In x names3 -> In y names3 -> x <> y -> zc (vals x) (vals y) = 0%Z -> dsep (arrows joint_es) x y [].
Proof.
  assert (Ac := do_acyclic _ _ (ld_dag _ _ _ _ (proj1 joint_linear))). intros x y Ix Iy Ne Z. apply (dsepb_iff _ Ac). each_name; try contradiction; rewrite ?Va, ?Vb, ?Vc in Z; try (vm_compute in Z; discriminate Z); reflexivity.
Qed.
End Joint.
Section Cancel.
Variable vals : id -> list Z.
Hypothesis Va : vals "a" = [1; 1; 1; 1; -1; -1; -1; -1]%Z.
Hypothesis Vb : vals "b" = [2; 2; 0; 0; 0; 0; -2; -2]%Z.
Hypothesis Vc : vals "c" = [2; 0; 0; -2; 2; 0; 0; -2]%Z.
Lemma cancel_linear : linear_data 8 names3 cancel_es (fun v => map IZR (vals v)) /\ (forall v, In v names3 -> varies 8 (noise cancel_es (fun v => map IZR (vals v)) v)).
Proof.
  destruct own_facts as [O1 O2]. apply (table_linear cancel_es vals own); [apply dag_by_order; [exact nodup3|reflexivity]|intros v I; each_name; rewrite ?Va, ?Vb, ?Vc; split; reflexivity| |exact O1|exact O2].
  intros v t I Ht. unfold noise. each_name.
  - change (incoming cancel_es "a") with (@nil (sedge R)). rewrite Va. change (own "a") with [1; 1; 1; 1; -1; -1; -1; -1]%Z. unfold at_. eight t Ht.
  - change (incoming cancel_es "b") with [mkSE "a" 0%Z "b" 1]. cbn [map vsum se_value se_from]. rewrite Va, Vb. change (own "b") with [1; 1; -1; -1; 1; 1; -1; -1]%Z. unfold at_. eight t Ht.
  - change (incoming cancel_es "c") with [mkSE "b" 0%Z "c" 1; mkSE "a" 0%Z "c" (-1)]. cbn [map vsum se_value se_from]. rewrite Va, Vb, Vc. change (own "c") with [1; -1; 1; -1; 1; -1; 1; -1]%Z. unfold at_. eight t Ht.
Qed.
Lemma cancel_exact : exact_tests IZR code3 Phi3 (1 / 100) 8 vals names3 exact3.
Proof.
  apply exact3_exact; [intros v I|intros v I|intros x y z Ix Iy Iz ND; destruct (distinct3 x y z ND) as (N1 & N2 & N3); clear ND]; each_name; try contradiction; rewrite ?Va, ?Vb, ?Vc; first [reflexivity | vm_compute; congruence].
Qed.
End Cancel.
Example C91_nonvacuous : exists vals, linear_data 8 names3 joint_es (fun v => map IZR (vals v)) /\ (forall v, In v names3 -> varies 8 (noise joint_es (fun v => map IZR (vals v)) v)) /\
  dsep (arrows joint_es) "a" "b" [] /\ ~ dsep (arrows joint_es) "a" "b" ["c"] /\ (exists r, pearson (map IZR (vals "a")) (map IZR (vals "b")) = Some r) /\ exists P, inverts 3 P (cov (map (fun v => map IZR (vals v)) ["a"; "b"; "c"])).
Proof.
  set (vals := fun v : id => if eqb v "a" then [1; 1; 1; 1; -1; -1; -1; -1]%Z else if eqb v "b" then [1; 1; -1; -1; 1; 1; -1; -1]%Z else [3; 1; 1; -1; 1; -1; -1; -3]%Z).
  exists vals. destruct (joint_linear vals eq_refl eq_refl eq_refl) as [LD Va]. split; [exact LD|]. split; [exact Va|]. assert (Ac := do_acyclic _ _ (ld_dag _ _ _ _ LD)).
  split; [apply (dsepb_iff _ Ac); reflexivity|]. split; [intros H; apply (dsepb_iff _ Ac) in H; discriminate H|]. split.
  - eexists. apply (pearson3 vals (joint_len vals eq_refl eq_refl eq_refl) (joint_var vals eq_refl eq_refl eq_refl)); [left; reflexivity|right; left; reflexivity].
  - apply (C91_invertible 8 names3 joint_es (fun v => map IZR (vals v)) ["a"; "b"; "c"]); [lia|exact nodup3|exact LD|exact Va|exact nodup3|intros v I; exact I].
Qed.
Example C91_generated_nonvacuous : exists rnd vs d, iid_variables 4 dedup joint_es = Ok vs /\ generate_data Rplus Rmult rnd joint_es vs 8 = Ok d /\ vs = names3 /\ linear_data 8 vs joint_es (fun k => match dget d k with Some c => c | None => [] end).
Proof.
  set (z := own "a" ++ own "b" ++ own "c"). set (rnd := fun k => at_ (map IZR z) k). exists rnd.
  assert (AC : acyclic (cause joint_es)). { assert (A := do_acyclic _ _ (ld_dag _ _ _ _ (proj1 (joint_linear (fun v : id => if eqb v "a" then [1; 1; 1; 1; -1; -1; -1; -1]%Z else if eqb v "b" then [1; 1; -1; -1; 1; 1; -1; -1]%Z else [3; 1; 1; -1; 1; -1; -1; -3]%Z) eq_refl eq_refl eq_refl)))).
    intros v (u & B & C). apply (A v). exists u. split; [apply arrow_cause; exact B|]. clear B. induction C as [|p q s E R IH]; [apply reach_refl|]. eapply reach_step; [apply arrow_cause; exact E|exact IH]. }
  destruct (C91_generated joint_es 4 dedup rnd 8 dedup_order AC ltac:(cbn; lia)) as (vs & d & V & G & K & L). exists vs, d. split; [exact V|]. split; [exact G|].
  assert (E : vs = names3) by (assert (W : iid_variables 4 dedup joint_es = Ok names3) by (vm_compute; reflexivity); congruence). split; [exact E|]. apply L. rewrite E. intros i j Hi Hj Ne. cbn in Hi, Hj.
  assert (B : forall i t, (i < 3)%nat -> (t < 8)%nat -> rnd (i * 8 + t)%nat = at_ (map IZR (own (nth i names3 ""))) t).
  { intros k t Hk Ht. unfold rnd, z. destruct k as [|[|[|k]]]; [| | |lia]; do 8 (destruct t as [|t]; [reflexivity|]); lia. }
  destruct own_facts as [O1 _]. apply (zuncorrelated (own (nth i names3 "")) (own (nth j names3 ""))); try (intros t Ht; apply B; assumption).
  - destruct i as [|[|[|i]]]; [reflexivity|reflexivity|reflexivity|lia].
  - destruct j as [|[|[|j]]]; [reflexivity|reflexivity|reflexivity|lia].
  - apply O1; [apply nth_In; exact Hi|apply nth_In; exact Hj|]. intros Q. apply Ne. exact (proj1 (NoDup_nth names3 "") nodup3 i j Hi Hj Q).
Qed.
Example C92_nonvacuous : exists g0 g, start_graph joint = Ok g0 /\ linear_data 8 (dkeys (nodes g0)) joint_es (fun v => map IZR (values_of g0 v)) /\ (forall v, In v (dkeys (nodes g0)) -> varies 8 (noise joint_es (fun v => map IZR (values_of g0 v)) v)) /\
  Phi3 0 = 1 / 2 /\ detected Phi3 (1 / 100) 8 (dkeys (nodes g0)) (arrows joint_es) (fun v => map IZR (values_of g0 v)) /\ exact_tests IZR code3 Phi3 (1 / 100) 8 (values_of g0) (dkeys (nodes g0)) exact3 /\
  execute_pipeline 11 (batch_runner no_hooks) no_hooks (pc dedup exact3) g0 = (g, Ok tt) /\ one_way g "a" "c" /\ one_way g "b" "c" /\ edge_exists g "a" "b" = false.
Proof.
  destruct joint_facts as (S & K & Va & Vb & Vc). exists (start joint). rewrite K. destruct (joint_linear (values_of (start joint)) Va Vb Vc) as [LD Vr]. eexists. split; [exact S|]. split; [exact LD|]. split; [exact Vr|].
  split; [unfold Phi3; destruct (Req_EM_T 0 0); [reflexivity|contradiction]|].
  split; [apply (detected3 (values_of (start joint)) (joint_len _ Va Vb Vc) (joint_var _ Va Vb Vc) (joint_par _ Va Vb Vc) joint_es LD (joint_sep _ Va Vb Vc))|].
  split; [apply (exact3_exact (values_of (start joint)) (joint_len _ Va Vb Vc) (joint_var _ Va Vb Vc) (joint_par _ Va Vb Vc))|]. split; [vm_compute; reflexivity|]. repeat (split; [vm_compute; reflexivity|]). vm_compute. reflexivity.
Qed.
(* The dependences must be strong enough to be seen.  If two ways from a to c cancel out, PC takes their correlation for
   independence: it drops the edge between a and c and turns b -> c around. *)
Theorem C92_cancelling_refuted : exists d g0 es N g, start_graph d = Ok g0 /\ linear_data 8 (dkeys (nodes g0)) es (fun v => map IZR (values_of g0 v)) /\ (forall v, In v (dkeys (nodes g0)) -> varies 8 (noise es (fun v => map IZR (values_of g0 v)) v)) /\
  Phi3 0 = 1 / 2 /\ exact_tests IZR code3 Phi3 (1 / 100) 8 (values_of g0) (dkeys (nodes g0)) N /\
  execute_pipeline 11 (batch_runner no_hooks) no_hooks (pc dedup N) g0 = (g, Ok tt) /\ edge_in (arrows es) "a" "c" /\ edge_exists g "a" "c" = false /\ edge_in (arrows es) "b" "c" /\ one_way g "c" "b".
Proof.
  destruct cancel_facts as (S & K & Va & Vb & Vc). exists cancel, (start cancel), cancel_es, exact3. rewrite K. destruct (cancel_linear (values_of (start cancel)) Va Vb Vc) as [LD Vr]. eexists. split; [exact S|]. split; [exact LD|]. split; [exact Vr|].
  split; [unfold Phi3; destruct (Req_EM_T 0 0); [reflexivity|contradiction]|]. split; [apply (cancel_exact _ Va Vb Vc)|]. split; [vm_compute; reflexivity|].
  split; [right; right; left; reflexivity|]. split; [vm_compute; reflexivity|]. split; [right; left; reflexivity|]. vm_compute. reflexivity.
Qed.
Print Assumptions C92_cancelling_refuted.
