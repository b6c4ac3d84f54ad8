(* Tables with columns that do not vary or that repeat another one: C98. *)
From Coq Require Import Reals List Lra Lia.
From Verif Require Import Base PyDict PyDictFacts Graph GraphCheck PathSpec Actions IndepTests Pipeline Parallel PipeMain2 SkelFacts Construct ConstructFacts TotalSpec TotalFacts TotalMain TestedSpec TestedMain PropsTested
  Numeric NumericSpec NumericFacts NumericFacts2 PropsNumeric Nan NanSpec NanFacts.
Import ListNotations.
Open Scope R_scope.

Lemma fisher_same Phi th n k r b : fisher_py Phi th n k (Some r) = Ok b <-> fisher_test Phi th n k r = Some b.
Proof.
  unfold fisher_py, fisher_test. destruct (Req_EM_T (1 - r) 0); [split; discriminate|]. destruct (Rle_dec _ 0); [split; discriminate|]. destruct (Rlt_dec (INR n - INR k - 3) 0); [split; discriminate|].
  split; intros H; injection H as <-; reflexivity.
Qed.
Lemma fisher_errors Phi th n k o e : fisher_py Phi th n k o = Err e -> e = ZeroDivisionError \/ e = ValueError.
Proof.
  unfold fisher_py. destruct o as [r|].
  - destruct (Req_EM_T (1 - r) 0); [intros H; injection H as <-; auto|]. destruct (Rle_dec _ 0); [intros H; injection H as <-; auto|]. destruct (Rlt_dec _ 0); [intros H; injection H as <-; auto|discriminate].
  - destruct (Rlt_dec _ 0); [intros H; injection H as <-; auto|discriminate].
Qed.
Lemma few n : INR n - INR 0 - 3 < 0 <-> (n < 3)%nat.
Proof.
  assert (T : INR 3 = 3) by (cbn; ring). assert (Z : INR 0 = 0) by reflexivity. split; intros H.
  - apply INR_lt. lra.
  - apply lt_INR in H. lra.
Qed.
Lemma pearson_swap n x y : List.length x = n -> List.length y = n -> pearson x y = pearson y x.
Proof.
  intros Lx Ly. destruct n as [|n']; [destruct x; [|discriminate]; destruct y; [reflexivity|discriminate]|]. set (n := S n') in *. assert (Hn : (0 < n)%nat) by (unfold n; lia).
  destruct (pearson x y) as [r|] eqn:E1, (pearson y x) as [s|] eqn:E2; [|exfalso|exfalso|reflexivity].
  - rewrite (pearson_cosine n) in E1, E2 by assumption. destruct (Req_EM_T _ 0) in E1; [discriminate|]. destruct (Req_EM_T _ 0) in E2; [discriminate|]. injection E1 as <-. injection E2 as <-. f_equal.
    apply (cosine_sym n); rewrite center_length; assumption.
  - apply (C45_constant n y x Hn Ly Lx) in E2. assert (Z : pearson x y = None) by (apply (C45_constant n x y Hn Lx Ly); tauto). congruence.
  - apply (C45_constant n x y Hn Lx Ly) in E1. assert (Z : pearson y x = None) by (apply (C45_constant n y x Hn Ly Lx); tauto). congruence.
Qed.

Lemma two_of (l : list id) : NoDup l -> (2 <= List.length l)%nat -> exists x y, In x l /\ In y l /\ x <> y.
Proof.
  intros ND L. destruct l as [|x [|y l]]; [cbn in L; lia|cbn in L; lia|]. exists x, y. inversion ND as [|? ? Nx _]; subst. split; [left; reflexivity|]. split; [right; left; reflexivity|].
  intros E. apply Nx. left. symmetry. exact E.
Qed.
Section Table.
Variables (dec : Z -> R) (code : option R -> Z) (Phi : R -> R) (th : R) (n : nat) (g0 : graph) (N : numerics).
Notation ids := (dkeys (nodes g0)).
Notation col x := (map dec (values_of g0 x)).
Hypothesis CP : SkelStart.complete g0.
Hypothesis PO : python_on dec code Phi th n (values_of g0) ids N.
Lemma col_length x : In x ids -> List.length (col x) = n.
Proof. intros H. rewrite map_length. exact (po_length _ _ _ _ _ _ _ _ PO x H). Qed.
Lemma ord_nodes x y : ord g0 x y -> In x ids /\ In y ids /\ x <> y.
Proof. intros O. destruct (ord_ok g0 CP x y O) as (Hx & Hy & Ne). split; [apply dmem_In; exact Hx|]. split; [apply dmem_In; exact Hy|exact Ne]. Qed.
Lemma cols_all x y : ord g0 x y -> col_ans g0 N x y = Ok (code (pearson (col x) (col y))).
Proof. intros O. destruct (ord_nodes x y O) as (Hx & Hy & Ne). exact (po_pearson _ _ _ _ _ _ _ _ PO x y Hx Hy Ne). Qed.
Lemma corr_is x y : ord g0 x y -> corr_ans g0 N x y = fisher_py Phi th n 0 (pearson (col x) (col y)).
Proof.
  intros O. destruct (ord_nodes x y O) as (Hx & Hy & Ne). unfold corr_ans. rewrite (corr_ord g0 N x y O). unfold pc_corr. assert (C := cols_all x y O). unfold col_ans in C. rewrite C. cbn [num].
  rewrite (po_length _ _ _ _ _ _ _ _ PO x Hx). apply (po_corr _ _ _ _ _ _ _ _ PO); assumption.
Qed.
Lemma const_n x : In x ids -> (constant (col x) <-> forall s t, (s < n)%nat -> (t < n)%nat -> at_ (col x) s = at_ (col x) t).
Proof. intros H. unfold constant. rewrite (col_length x H). tauto. Qed.
Lemma answers x y : In x ids -> In y ids -> (exists b, fisher_py Phi th n 0 (pearson (col x) (col y)) = Ok b) <->
  (3 <= n)%nat /\ (constant (col x) \/ constant (col y) \/ ~ on_a_line (col x) (col y)).
Proof.
  intros Hx Hy. assert (Lx := col_length x Hx). assert (Ly := col_length y Hy). rewrite (const_n x Hx), (const_n y Hy). unfold on_a_line. rewrite Lx.
  assert (SM : (n < 3)%nat -> forall b, fisher_py Phi th n 0 (pearson (col x) (col y)) <> Ok b).
  { intros L b. apply few in L. unfold fisher_py. destruct (pearson _ _) as [r|]; [destruct (Req_EM_T _ 0); [discriminate|]; destruct (Rle_dec _ 0); [discriminate|]|]; (destruct (Rlt_dec _ 0); [discriminate|lra]). }
  destruct (Compare_dec.le_lt_dec 3 n) as [L|L].
  2:{ split; [intros (b & H); destruct (SM L b H)|intros [H _]; lia]. }
  assert (Hn : (0 < n)%nat) by lia. assert (NF : ~ INR n - INR 0 - 3 < 0) by (rewrite few; lia). destruct (pearson (col x) (col y)) as [r|] eqn:Pr.
  - assert (B : -1 <= r <= 1).
    { rewrite (pearson_cosine n) in Pr by assumption. destruct (Req_EM_T _ 0) as [|Q] in Pr; [discriminate|]. injection Pr as <-. rewrite (cosine_ip n) by (rewrite center_length; assumption).
      apply cosine_bound; destruct (ip_nonneg n (at_ (center (col x)))) as [|Z], (ip_nonneg n (at_ (center (col y)))) as [|Z']; try assumption; exfalso; apply Q; rewrite <- ?Z, <- ?Z'; ring. }
    assert (C := C45_line n (col x) (col y) r Hn Lx Ly Pr). assert (A := C62_answers Phi th n 0 r B).
    assert (NC : ~ ((forall s t, (s < n)%nat -> (t < n)%nat -> at_ (col x) s = at_ (col x) t) \/ (forall s t, (s < n)%nat -> (t < n)%nat -> at_ (col y) s = at_ (col y) t))).
    { intros H. apply (C45_constant n (col x) (col y) Hn Lx Ly) in H. congruence. }
    assert (One : Rabs r = 1 <-> r = 1 \/ r = -1) by (unfold Rabs; destruct (Rcase_abs r); split; intros H; [right; lra|destruct H; lra|left; lra|destruct H; lra]).
    split.
    + intros (b & H). apply fisher_same in H. split; [exact L|]. right; right. intros Li. apply C, One in Li. assert (Z : fisher_test Phi th n 0 r = None) by (apply A; tauto). congruence.
    + intros (_ & [H|[H|H]]); [tauto|tauto|]. destruct (fisher_test Phi th n 0 r) as [b|] eqn:T; [exists b; apply fisher_same; exact T|]. exfalso. assert (T' := proj1 A eq_refl). clear T. rename T' into T.
      destruct T as [T|[T|T]]; [apply H, C, One; left; exact T|apply H, C, One; right; exact T|lia].
  - split; [intros _|intros _].
    + split; [exact L|]. apply (C45_constant n (col x) (col y) Hn Lx Ly) in Pr. tauto.
    + exists false. cbn [fisher_py]. destruct (Rlt_dec _ 0); [contradiction|reflexivity].
Qed.
Lemma all_answers : (2 <= List.length ids)%nat -> ((forall x y, ord g0 x y -> exists b, corr_ans g0 N x y = Ok b) <-> (3 <= n)%nat /\ no_repeats (fun x => col x) ids).
Proof.
  intros L2. split.
  - intros H.
    assert (G : forall x y, In x ids -> In y ids -> x <> y -> exists b, fisher_py Phi th n 0 (pearson (col x) (col y)) = Ok b).
    { intros x y Hx Hy Ne. destruct (SkelStart.pairs_In g0 g0 x y (SkelStart.cp_wf _ CP) eq_refl (proj2 (dmem_In _ _) Hx) (proj2 (dmem_In _ _) Hy) Ne) as [O|O].
      - rewrite <- (corr_is x y O). exact (H x y O).
      - rewrite (pearson_swap n) by (apply col_length; assumption). rewrite <- (corr_is y x O). exact (H y x O). }
    split.
    + destruct (two_of ids (GraphInv.wf_nodes _ (SkelStart.cp_wf _ CP)) L2) as (x & y & Hx & Hy & Ne). exact (proj1 (proj1 (answers x y Hx Hy) (G x y Hx Hy Ne))).
    + intros x y Hx Hy Ne C1 C2 Li. destruct (proj1 (answers x y Hx Hy) (G x y Hx Hy Ne)) as [_ [Q|[Q|Q]]]; tauto.
  - intros [L H] x y O. destruct (ord_nodes x y O) as (Hx & Hy & Ne). rewrite (corr_is x y O). apply answers; [assumption|assumption|]. split; [exact L|].
    destruct (Classical_Prop.classic (constant (col x))) as [A|A]; [tauto|]. destruct (Classical_Prop.classic (constant (col y))) as [B|B]; [tauto|]. right; right. exact (H x y Hx Hy Ne A B).
Qed.
End Table.

(* C98: with exact arithmetic and Python's nan, the first two steps of every PC algorithm succeed exactly for tables with
   three or more rows in which no varying column repeats another one in other units; otherwise they raise *)
Theorem C98_phase_partial : forall fuel P d g0 dec code Phi th n N, start_graph d = Ok g0 -> (2 <= List.length (dkeys (nodes g0)))%nat ->
  python_on dec code Phi th n (values_of g0) (dkeys (nodes g0)) N ->
  exists g r, execute_pipeline fuel P no_hooks [PStep (calculate_pearson N); PStep (correlation_step N)] g0 = (g, r) /\
    (r = Ok tt \/ r = Err ZeroDivisionError \/ r = Err ValueError) /\
    (r = Ok tt <-> (3 <= n)%nat /\ no_repeats (fun x => map dec (values_of g0 x)) (dkeys (nodes g0))).
Proof.
  intros fuel P d g0 dec code Phi th n N S0 L2 PO. assert (CP := SkelStart.complete_start d g0 S0).
  assert (H1 : forall x y, ord g0 x y -> exists z, col_ans g0 N x y = Ok z) by (intros x y O; eexists; exact (cols_all dec code Phi th n g0 N CP PO x y O)).
  assert (AA := all_answers dec code Phi th n g0 N CP PO L2). destruct (first_cases g0 CP fuel P N H1) as [(A & g & R)|(x & y & e & g & O & He & R)].
  - exists g, (Ok tt). split; [exact R|]. split; [auto|]. tauto.
  - exists g, (Err e). split; [exact R|]. split.
    + rewrite (corr_is dec code Phi th n g0 N CP PO x y O) in He. destruct (fisher_errors _ _ _ _ _ _ He) as [Z|Z]; rewrite Z; auto.
    + rewrite <- AA. split; [discriminate|]. intros H. destruct (H x y O) as (b & Hb). congruence.
Qed.
Print Assumptions C98_phase_partial.
(* so a table with a repeated column or with fewer than three rows makes all PC algorithms fail *)
Theorem C98_fails : forall fuel P so d g0 dec code Phi th n N b sks rest g r, start_graph d = Ok g0 -> (2 <= List.length (dkeys (nodes g0)))%nat ->
  python_on dec code Phi th n (values_of g0) (dkeys (nodes g0)) N -> skeleton_of P so N b sks ->
  execute_pipeline fuel P no_hooks (sks ++ rest) g0 = (g, r) ->
  (n < 3)%nat \/ (exists x y, In x (dkeys (nodes g0)) /\ In y (dkeys (nodes g0)) /\ x <> y /\ ~ constant (map dec (values_of g0 x)) /\ ~ constant (map dec (values_of g0 y)) /\
    on_a_line (map dec (values_of g0 x)) (map dec (values_of g0 y))) -> r <> Ok tt.
Proof.
  intros fuel P so d g0 dec code Phi th n N b sks rest g r S0 L2 PO A R C E. assert (CP := SkelStart.complete_start d g0 S0).
  rewrite PipeMain.pipeline_app in R. destruct (execute_pipeline fuel P no_hooks sks g0) as [g1 [[]|e]] eqn:R1; [|rewrite E in R; discriminate R].
  destruct (skeleton_all g0 CP fuel P so N b sks g1 A R1) as [_ H]. apply (all_answers dec code Phi th n g0 N CP PO L2) in H. destruct H as [H1 H2].
  destruct C as [C|(x & y & Hx & Hy & Ne & Vx & Vy & Li)]; [lia|exact (H2 x y Hx Hy Ne Vx Vy Li)].
Qed.
Print Assumptions C98_fails.

Lemma zero_column (vs : list (list R)) j P : (j < List.length vs)%nat -> (forall i, (i < List.length vs)%nat -> cov vs i j = 0) -> ~ inverts (List.length vs) P (cov vs).
Proof.
  intros Hj Z I. specialize (I j j Hj Hj). destruct (Nat.eq_dec j j) as [_|X]; [|contradiction].
  assert (Q : forall m, (m <= List.length vs)%nat -> sumn m (fun k => P j k * cov vs k j) = 0).
  { induction m as [|m IH]; intros L; [reflexivity|]. cbn [sumn]. rewrite IH by lia. rewrite Z by lia. ring. }
  rewrite Q in I by lia. lra.
Qed.

Section Constant.
Variables (dec : Z -> R) (code : option R -> Z) (Phi : R -> R) (th : R) (n : nat) (g0 : graph) (N : numerics).
Notation ids := (dkeys (nodes g0)).
Notation col x := (map dec (values_of g0 x)).
Hypothesis CP : SkelStart.complete g0.
Hypothesis PO : python_on dec code Phi th n (values_of g0) ids N.
Hypothesis Hn : (0 < n)%nat.
Lemma nan_l k y : In k ids -> In y ids -> constant (col k) -> pearson (col k) (col y) = None /\ pearson (col y) (col k) = None.
Proof.
  intros Hk Hy C. assert (Lk := col_length dec code Phi th n g0 N PO k Hk). assert (Ly := col_length dec code Phi th n g0 N PO y Hy). assert (C' := proj1 (const_n dec code Phi th n g0 N PO k Hk) C).
  split; [apply (C45_constant n (col k) (col y) Hn Lk Ly)|apply (C45_constant n (col y) (col k) Hn Ly Lk)]; tauto.
Qed.
Lemma coefficient_is x y z : coefficient N g0 x y z -> In x ids -> In y ids -> x <> y -> z = code (pearson (col x) (col y)).
Proof.
  intros [[_ H]|[_ H]] Hx Hy Ne.
  - rewrite (po_pearson _ _ _ _ _ _ _ _ PO x y Hx Hy Ne) in H. injection H as <-. reflexivity.
  - rewrite (po_pearson _ _ _ _ _ _ _ _ PO y x Hy Hx (fun h => Ne (eq_sym h))) in H. injection H as <-. f_equal. apply (pearson_swap n); apply (col_length dec code Phi th n g0 N PO); assumption.
Qed.
Lemma nan_no n' k : fisher_py Phi th n' k None <> Ok true.
Proof. cbn [fisher_py]. destruct (Rlt_dec _ 0); discriminate. Qed.
Lemma corr_no x y : In x ids -> In y ids -> x <> y -> pearson (col x) (col y) = None -> ~ corr_answer N g0 x y true.
Proof.
  intros Hx Hy Ne Pn (a & C & T). rewrite (coefficient_is x y a C Hx Hy Ne), (po_length _ _ _ _ _ _ _ _ PO x Hx), (po_corr _ _ _ _ _ _ _ _ PO x y Hx Hy Ne), Pn in T. exact (nan_no _ _ T).
Qed.
Lemma partial_no x y z : In x ids -> In y ids -> In z ids -> NoDup [x; y; z] -> pearson (col x) (col y) = None -> ~ partial_answer N g0 x y z (Some true).
Proof.
  intros Hx Hy Hz ND Pn (a & b & c & C1 & C2 & C3 & T).
  assert (N1 : x <> y /\ x <> z /\ y <> z).
  { inversion ND as [|? ? A B]; subst. inversion B as [|? ? A' _]; subst. cbn in A, A'. repeat split; intros E; subst; tauto. }
  destruct N1 as (Nxy & Nxz & Nyz).
  rewrite (coefficient_is x y a C1 Hx Hy Nxy), (coefficient_is x z b C2 Hx Hz Nxz), (coefficient_is y z c C3 Hy Hz Nyz), (po_length _ _ _ _ _ _ _ _ PO x Hx) in T.
  assert (Q := po_partial _ _ _ _ _ _ _ _ PO x y z Hx Hy Hz ND). cbn zeta in Q. rewrite Q, Pn in T. unfold partial_py in T. assert (F := nan_no n 1).
  assert (F' : rbind (fisher_py Phi th n 1 None) (fun b => Ok (Some b)) <> Ok (Some true)) by (destruct (fisher_py Phi th n 1 None) as [[]|]; cbn; try discriminate; contradiction).
  destruct (pearson (col x) (col z)) as [r|]; [|exact (F' T)]. destruct (pearson (col y) (col z)) as [s|]; [|exact (F' T)]. destruct (Req_EM_T _ 0); [discriminate T|exact (F' T)].
Qed.
Lemma matrix_no k x y S : In k ids -> constant (col k) -> k = x \/ k = y -> In x ids -> In y ids -> (forall z, In z S -> In z ids) -> NoDup (x :: y :: S) -> (1 <= List.length S)%nat ->
  ~ matrix_answer N g0 x y S (Some true).
Proof.
  intros Hk C E Hx Hy HS ND L T. unfold matrix_answer in T.
  assert (A : forall z, In z (x :: y :: S) -> In z ids) by (intros z [Q|[Q|Q]]; [rewrite <- Q; exact Hx|rewrite <- Q; exact Hy|exact (HS z Q)]).
  rewrite (po_singular _ _ _ _ _ _ _ _ PO (x :: y :: S) ND A) in T; [discriminate T|cbn; lia|].
  intros P. rewrite <- (map_length (fun v => col v) (x :: y :: S)). set (vs := map (fun v => col v) (x :: y :: S)).
  assert (J : exists j, (j < List.length vs)%nat /\ nth j vs [] = col k) by (destruct E as [E|E]; [exists 0%nat|exists 1%nat]; (split; [cbn; lia|rewrite E; reflexivity])).
  destruct J as (j & Hj & Ej). apply (zero_column vs j P Hj). intros i Hi. unfold cov.
  assert (Li : List.length (nth i vs []) = n).
  { assert (I := nth_In vs [] Hi). unfold vs in I at 2. apply in_map_iff in I. destruct I as (v & Ev & Hv). rewrite <- Ev. apply (col_length dec code Phi th n g0 N PO). exact (A v Hv). }
  rewrite Ej. assert (Lk := col_length dec code Phi th n g0 N PO k Hk).
  assert (Z : dot (center (nth i vs [])) (center (col k)) = 0).
  { rewrite (dot_ip _ _ n) by (rewrite center_length; assumption). rewrite ip_sym. apply ip_zero_l. apply (centered_zero n (col k) Hn Lk). apply (const_n dec code Phi th n g0 N PO k Hk). exact C. }
  rewrite Z. unfold Rdiv. ring.
Qed.
End Constant.
(* a column that does not vary has no correlation with any other column (C45_constant), and yet the skeleton phase leaves it
   adjacent to every other variable: nan never exceeds a threshold, and the covariance matrix is singular *)
Theorem C98_constant : forall fuel P so d g0 dec code Phi th n N b sks g k, start_graph d = Ok g0 -> set_order so ->
  python_on dec code Phi th n (values_of g0) (dkeys (nodes g0)) N -> skeleton_of P so N b sks -> execute_pipeline fuel P no_hooks sks g0 = (g, Ok tt) ->
  In k (dkeys (nodes g0)) -> constant (map dec (values_of g0 k)) -> forall y, In y (dkeys (nodes g0)) -> y <> k -> edge_exists g k y = true /\ edge_exists g y k = true.
Proof.
  intros fuel P so d g0 dec code Phi th n N b sks g k S0 SO PO A R Hk C. assert (CP := SkelStart.complete_start d g0 S0).
  assert (G : forall x y, In x (dkeys (nodes g0)) -> In y (dkeys (nodes g0)) -> x <> y -> k = x \/ k = y -> edge_exists g x y = true).
  { intros x y Hx Hy Ne E. destruct (edge_exists g x y) eqn:X; [reflexivity|exfalso].
    assert (Hn : (0 < n)%nat).
    { destruct (skeleton_all g0 CP fuel P so N b sks g A R) as [_ H]. apply (all_answers dec code Phi th n g0 N CP PO) in H; [lia|]. destruct (dkeys (nodes g0)) as [|u [|v l]]; [destruct Hx| |cbn; lia].
      destruct Hx as [Hx|[]], Hy as [Hy|[]]. congruence. }
    destruct (C87_removed fuel P so N b sks d g0 g S0 SO A R x y Hx Hy Ne X) as (S & _ & (ND & HS) & F).
    assert (Pn : pearson (map dec (values_of g0 x)) (map dec (values_of g0 y)) = None /\ pearson (map dec (values_of g0 y)) (map dec (values_of g0 x)) = None).
    { destruct E as [E|E]; rewrite <- E; [|apply and_comm]; apply (nan_l dec code Phi th n g0 N PO Hn); assumption. }
    destruct Pn as [P1 P2]. assert (Ne' : y <> x) by congruence.
    inversion F as [B T HQ|B T HQ|z Q B T HQ|z Q B T HQ|S1 S' Pe L T HQ]; subst.
    - exact (corr_no dec code Phi th n g0 N PO x y Hx Hy Ne P1 T).
    - exact (corr_no dec code Phi th n g0 N PO y x Hy Hx Ne' P2 T).
    - exact (partial_no dec code Phi th n g0 N PO x y z Hx Hy (HS z (or_introl eq_refl)) ND P1 T).
    - assert (ND' : NoDup [y; x; z]) by (eapply Permutation_NoDup; [|exact ND]; apply perm_swap). exact (partial_no dec code Phi th n g0 N PO y x z Hy Hx (HS z (or_introl eq_refl)) ND' P2 T).
    - assert (L' : (1 <= List.length S')%nat) by (rewrite (Permutation_length Pe); destruct b; lia). assert (HS' : forall z, In z S' -> In z (dkeys (nodes g0))) by (intros z Hz; apply HS; exact (Permutation_in z Pe Hz)).
      assert (N1 : NoDup (x :: y :: S')) by (eapply Permutation_NoDup; [|exact ND]; do 2 constructor; apply Permutation_sym; exact Pe).
      assert (N2 : NoDup (y :: x :: S')) by (eapply Permutation_NoDup; [apply perm_swap|exact N1]).
      destruct T as [T|T]; [exact (matrix_no dec code Phi th n g0 N PO Hn k x y S' Hk C E Hx Hy HS' N1 L' T)|].
      exact (matrix_no dec code Phi th n g0 N PO Hn k y x S' Hk C (match E with or_introl h => or_intror h | or_intror h => or_introl h end) Hy Hx HS' N2 L' T). }
  intros y Hy Ne. split; apply G; auto.
Qed.
Print Assumptions C98_constant.

(* x and y are uncorrelated, k is constant *)
Definition col3 (v : id) : list Z := if eqb v "x" then [1; 1; -1; -1]%Z else if eqb v "y" then [1; -1; 1; -1]%Z else [5; 5; 5; 5]%Z.
Definition table3 : rawdata := DDict (map (fun v => (v, map Some (col3 v))) ["x"; "y"; "k"]).
Definition is_k (a : list Z) : bool := if list_eq_dec Z.eq_dec a (col3 "k") then true else false.
Definition num3 : numerics := mkNum (fun a b => Ok (if is_k a || is_k b then 2 else 0)%Z) (fun _ z => Ok (Z.eqb z 0)) (fun _ _ _ _ _ => Ok (Some false)) (fun _ => Ok None)
  (fun _ _ _ => Ok false) (fun _ _ _ => Ok 0%Z).
Definition code3 (o : option R) : Z := match o with Some _ => 0%Z | None => 2%Z end.
Definition cols3 (v : id) : list R := map IZR (col3 v).
Lemma cols3_length v : List.length (cols3 v) = 4%nat.
Proof. unfold cols3, col3. destruct (eqb v "x"); [reflexivity|]. destruct (eqb v "y"); reflexivity. Qed.
Lemma cols3_k : constant (cols3 "k").
Proof. intros s t Hs Ht. rewrite cols3_length in Hs, Ht. do 4 (destruct s as [|s]; [do 4 (destruct t as [|t]; [reflexivity|]); lia|]). lia. Qed.
Lemma pearson_k v : pearson (cols3 v) (cols3 "k") = None /\ pearson (cols3 "k") (cols3 v) = None.
Proof.
  assert (C := cols3_k). unfold constant in C. rewrite cols3_length in C. split.
  - apply (C45_constant 4 _ _ ltac:(lia) (cols3_length v) (cols3_length "k")). right. exact C.
  - apply (C45_constant 4 _ _ ltac:(lia) (cols3_length "k") (cols3_length v)). left. exact C.
Qed.
Lemma pearson_xy : pearson (cols3 "x") (cols3 "y") = Some 0 /\ pearson (cols3 "y") (cols3 "x") = Some 0.
Proof.
  destruct (C45_correlation 4 (cols3 "x") (cols3 "y") (cols3_length "x") (cols3_length "y")) as (r & P1 & P2 & _ & Er).
  - exists 0%nat, 2%nat. split; [lia|]. split; [lia|]. change (1 <> -1). lra.
  - exists 0%nat, 1%nat. split; [lia|]. split; [lia|]. change (1 <> -1). lra.
  - assert (Z : r = 0); [|rewrite Z in P1, P2; auto]. rewrite Er. unfold cosine, Rdiv. assert (C : forall l, vsum l = 0 -> center l = l).
    { intros l H. unfold center, mean. rewrite H. erewrite map_ext; [apply map_id|]. intros u. unfold Rdiv. ring. }
    assert (Z : sumn (List.length (cols3 "x")) (fun t => at_ (cols3 "x") t * at_ (cols3 "y") t) = 0) by (change (0 + 1 * 1 + 1 * -1 + -1 * 1 + -1 * -1 = 0); ring).
    rewrite (C (cols3 "x")), (C (cols3 "y")) by (first [change (1 + (1 + (-1 + (-1 + 0))) = 0)|change (1 + (-1 + (1 + (-1 + 0))) = 0)]; ring). rewrite Z. ring.
Qed.

Definition start3 : graph := match start_graph table3 with Ok g => g | Err _ => empty_graph end.
Lemma start3_ok : start_graph table3 = Ok start3.
Proof. vm_compute. reflexivity. Qed.
Lemma ids3 : dkeys (nodes start3) = ["k"; "x"; "y"]%string.
Proof. vm_compute. reflexivity. Qed.
Lemma vals3 v : In v ["k"; "x"; "y"]%string -> values_of start3 v = col3 v.
Proof. intros [H|[H|[H|[]]]]; subst v; vm_compute; reflexivity. Qed.
Lemma small3 Phi th k : (k <= 1)%nat -> fisher_py Phi th 4 k None = Ok false.
Proof. intros L. cbn [fisher_py]. destruct k as [|[|k]]; [| |lia]; (destruct (Rlt_dec _ 0) as [H|H]; [exfalso; cbn in H; lra|reflexivity]). Qed.
Lemma python3 Phi th : Phi 0 = 1 / 2 -> th < 1 -> python_on IZR code3 Phi th 4 (values_of start3) (dkeys (nodes start3)) num3.
Proof.
  intros HP Ht. rewrite ids3.
  assert (PX : forall x y, In x ["k"; "x"; "y"]%string -> In y ["k"; "x"; "y"]%string -> x <> y ->
     (x = "k" \/ y = "k")%string /\ pearson (cols3 x) (cols3 y) = None \/ (x <> "k" /\ y <> "k")%string /\ pearson (cols3 x) (cols3 y) = Some 0).
  { intros x y Hx Hy Ne. destruct (string_dec x "k") as [E|E]; [left; subst x; split; [auto|apply pearson_k]|]. destruct (string_dec y "k") as [E'|E']; [left; subst y; split; [auto|apply pearson_k]|].
    right. split; [auto|]. destruct Hx as [Hx|[Hx|[Hx|[]]]], Hy as [Hy|[Hy|[Hy|[]]]]; subst; try congruence; apply pearson_xy. }
  assert (VX : forall x, In x ["k"; "x"; "y"]%string -> map IZR (values_of start3 x) = cols3 x) by (intros x Hx; rewrite (vals3 x Hx); reflexivity).
  constructor.
  - intros x Hx. rewrite (vals3 x Hx). unfold col3. destruct (eqb x "x"); [reflexivity|]. destruct (eqb x "y"); reflexivity.
  - intros x y Hx Hy Ne. rewrite (VX x Hx), (VX y Hy), (vals3 x Hx), (vals3 y Hy). cbn [num3 n_pearson]. destruct (PX x y Hx Hy Ne) as [[E ->]|[[E1 E2] ->]].
    + destruct E as [E|E]; subst; cbn [code3]; [reflexivity|]. rewrite Bool.orb_true_r. reflexivity.
    + destruct Hx as [Hx|[Hx|[Hx|[]]]], Hy as [Hy|[Hy|[Hy|[]]]]; subst; try congruence; vm_compute; reflexivity.
  - intros x y Hx Hy Ne. rewrite (VX x Hx), (VX y Hy). destruct (PX x y Hx Hy Ne) as [[_ ->]|[_ ->]].
    + rewrite small3 by lia. reflexivity.
    + cbn [code3 num3 n_corr_test]. symmetry. apply fisher_same. apply C62_zero; [exact HP|exact Ht|lia].
  - intros x y z Hx Hy Hz ND. cbn beta zeta. rewrite (VX x Hx), (VX y Hy), (VX z Hz). cbn [num3 n_partial]. symmetry.
    assert (NN : x <> y /\ x <> z /\ y <> z) by (inversion ND as [|? ? A B]; subst; inversion B as [|? ? A' _]; subst; cbn in A, A'; repeat split; intros Q; subst; tauto). destruct NN as (Nxy & Nxz & Nyz).
    assert (Q : pearson (cols3 x) (cols3 z) = None \/ pearson (cols3 y) (cols3 z) = None).
    { destruct (PX x z Hx Hz Nxz) as [[_ E]|[[E1 E2] _]]; [auto|]. destruct (PX y z Hy Hz Nyz) as [[_ E]|[[E3 _] _]]; [auto|]. exfalso.
      destruct Hx as [Hx|[Hx|[Hx|[]]]], Hy as [Hy|[Hy|[Hy|[]]]], Hz as [Hz|[Hz|[Hz|[]]]]; subst; congruence. }
    unfold partial_py. destruct (pearson (cols3 x) (cols3 z)) as [r|], (pearson (cols3 y) (cols3 z)) as [s|]; try (rewrite small3 by lia; reflexivity). destruct Q; discriminate.
  - intros l ND Hl L _. reflexivity.
Qed.
(* PC reports both uncorrelated variables as causes of the constant *)
Theorem C98_arrows_refuted : exists d g0 g k x y, start_graph d = Ok g0 /\ constant (map IZR (values_of g0 k)) /\
  (forall Phi th, Phi 0 = 1 / 2 -> th < 1 -> python_on IZR code3 Phi th 4 (values_of g0) (dkeys (nodes g0)) num3) /\
  execute_pipeline 30 (batch_runner no_hooks) no_hooks (pc dedup num3) g0 = (g, Ok tt) /\
  directed_edge_exists g x k = true /\ directed_edge_exists g k x = false /\ directed_edge_exists g y k = true /\ directed_edge_exists g k y = false /\ edge_exists g x y = false.
Proof.
  exists table3, start3. eexists. exists "k", "x", "y". split; [exact start3_ok|]. split; [rewrite (vals3 "k"); [exact cols3_k|left; reflexivity]|]. split; [exact python3|].
  split; [vm_compute; reflexivity|]. repeat (split; [vm_compute; reflexivity|]). vm_compute; reflexivity.
Qed.
Print Assumptions C98_arrows_refuted.
Example C98_nonvacuous : exists g, start_graph table3 = Ok start3 /\ (2 <= List.length (dkeys (nodes start3)))%nat /\
  python_on IZR code3 (fun _ => 1 / 2) (1 / 20) 4 (values_of start3) (dkeys (nodes start3)) num3 /\ skeleton_of (batch_runner no_hooks) dedup num3 true (pc_skeleton dedup num3) /\
  execute_pipeline 30 (batch_runner no_hooks) no_hooks (pc_skeleton dedup num3) start3 = (g, Ok tt) /\ no_repeats (fun x => map IZR (values_of start3 x)) (dkeys (nodes start3)) /\ edge_exists g "x" "y" = false.
Proof.
  assert (PY := python3 (fun _ => 1 / 2) (1 / 20) eq_refl ltac:(lra)). eexists. split; [exact start3_ok|]. split; [vm_compute; lia|]. split; [exact PY|]. split; [constructor|]. split; [vm_compute; reflexivity|]. split.
  - destruct (C98_phase_partial 30 (batch_runner no_hooks) table3 start3 IZR code3 _ _ 4 num3 start3_ok ltac:(vm_compute; lia) PY) as (g & r & R & _ & I).
    apply (proj1 I). vm_compute in R. injection R as _ <-. reflexivity.
  - vm_compute; reflexivity.
Qed.
