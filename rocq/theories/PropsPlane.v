(* Tables in which a column is calculated from two others: C104. *)
From Coq Require Import Reals List Lra Lia Psatz.
From Verif Require Import Base PyDict PyDictFacts Graph GraphCheck PathSpec Actions ActionSpec Generators GenSpec GenFacts IndepTests Pipeline Parallel PipeMain2 SkelFacts SkelSteps Construct ConstructFacts TotalSpec TotalFacts TotalMain TestedSpec TestedFacts TestedMain PropsTested
  Numeric NumericSpec NumericFacts NumericFacts2 PropsNumeric Nan NanSpec NanFacts PropsNan PlaneSpec PlaneFacts PlaneRun.
Import ListNotations.
Open Scope R_scope.

Lemma few1 n : INR n - INR 1 - 3 < 0 <-> (n < 4)%nat.
Proof.
  assert (T : INR 4 = 4) by (cbn; ring). assert (Z : INR 1 = 1) by reflexivity. split; intros H.
  - apply INR_lt. lra.
  - apply lt_INR in H. lra.
Qed.
Lemma line_swap x y : List.length x = List.length y -> ~ constant y -> on_a_line x y -> on_a_line y x.
Proof.
  intros L C (a & b & H). destruct (Req_dec a 0) as [A|A].
  - exfalso. apply C. intros s t Hs Ht. rewrite <- L in Hs, Ht. rewrite (H s Hs), (H t Ht), A. ring.
  - exists (/ a), (- b / a). intros t Ht. rewrite <- L in Ht. rewrite (H t Ht). field. exact A.
Qed.
Lemma partial_errors Phi th n k a b c e : partial_py Phi th n k a b c = Err e -> e = ZeroDivisionError \/ e = ValueError.
Proof.
  assert (F : forall o, rbind (fisher_py Phi th n k o) (fun b => Ok (Some b)) = Err e -> e = ZeroDivisionError \/ e = ValueError).
  { intros o H. destruct (fisher_py Phi th n k o) as [b'|e'] eqn:E; cbn [rbind] in H; [discriminate|]. injection H as <-. exact (fisher_errors _ _ _ _ _ _ E). }
  unfold partial_py. destruct b as [b|]; [|apply F]. destruct c as [c|]; [|apply F]. destruct (Req_EM_T _ 0); [discriminate|]. destruct a; apply F.
Qed.
Section Cols.
Variables (Phi : R -> R) (th : R) (n : nat) (x y z : list R).
Hypothesis Lx : List.length x = n.
Hypothesis Ly : List.length y = n.
Hypothesis Lz : List.length z = n.
Lemma nan_case : constant x \/ constant y \/ constant z -> (0 < n)%nat -> partial_py Phi th n 1 (pearson x y) (pearson x z) (pearson y z) = if Nat.ltb n 4 then Err ValueError else Ok (Some false).
Proof.
  intros C Hn. unfold constant in C. rewrite Lx, Ly, Lz in C.
  assert (F : rbind (fisher_py Phi th n 1 None) (fun b => Ok (Some b)) = if Nat.ltb n 4 then Err ValueError else Ok (Some false)).
  { cbn [fisher_py]. destruct (Rlt_dec _ 0) as [H|H]; rewrite few1 in H.
    - rewrite (proj2 (Nat.ltb_lt n 4) H). reflexivity.
    - rewrite (proj2 (Nat.ltb_ge n 4) ltac:(lia)). reflexivity. }
  unfold partial_py. destruct (pearson x z) as [b|] eqn:E1; [|exact F]. destruct (pearson y z) as [c|] eqn:E2; [|exact F]. exfalso.
  assert (Q1 : ~ pearson x z = None) by congruence. assert (Q2 : ~ pearson y z = None) by congruence. rewrite (C45_constant n x z Hn Lx Lz) in Q1. rewrite (C45_constant n y z Hn Ly Lz) in Q2. tauto.
Qed.
Lemma number_case : ~ constant x -> ~ constant y -> ~ constant z -> ~ on_a_line x z -> ~ on_a_line y z -> (0 < n)%nat ->
  partial_py Phi th n 1 (pearson x y) (pearson x z) (pearson y z) <> Ok None /\
  ((exists o, partial_py Phi th n 1 (pearson x y) (pearson x z) (pearson y z) = Ok o) <-> (4 <= n)%nat /\ ~ on_a_plane x y z).
Proof.
  intros Cx Cy Cz N1 N2 Hn. destruct (par_is n x y z Hn Lx Ly Lz Cx Cy Cz N1 N2) as (a & b & c & E1 & E2 & E3 & Nz & Ep).
  assert (Pl := par_plane n x y z Hn Lx Ly Lz Cx Cy Cz N1 N2). assert (Pb := par_bound n x y z Hn Lx Ly Lz Cx Cy Cz N1 N2). rewrite E1, E2, E3. unfold partial_py. destruct (Req_EM_T _ 0) as [Q|_]; [contradiction|]. rewrite Ep.
  set (r := par n x y z) in *. assert (A := C62_answers Phi th n 1 r Pb). assert (One : r * r = 1 <-> r = 1 \/ r = -1) by (split; [intros H; assert ((r - 1) * (r + 1) = 0) by lra; destruct (Rmult_integral _ _ H0); [left|right]; lra|intros [-> | ->]; ring]).
  split.
  - destruct (fisher_py Phi th n 1 (Some r)); cbn [rbind]; discriminate.
  - split.
    + intros (o & H). destruct (fisher_py Phi th n 1 (Some r)) as [b'|e] eqn:F; cbn [rbind] in H; [|discriminate]. apply fisher_same in F.
      assert (NF : fisher_test Phi th n 1 r <> None) by congruence. rewrite A in NF. split; [lia|]. rewrite <- Pl, One. tauto.
    + intros [L NP]. destruct (fisher_test Phi th n 1 r) as [b'|] eqn:F; [apply fisher_same in F; rewrite F; eexists; reflexivity|]. exfalso. assert (F' := proj1 A eq_refl). rewrite <- Pl, One in NP. destruct F' as [H|[H|H]]; [tauto|tauto|lia].
Qed.
End Cols.

(* C104: the partial correlation test of three varying columns, none a multiple of the conditioning one, raises exactly if a
   column can be calculated from the other two *)
Theorem C104_test : forall Phi th n x y z, (4 <= n)%nat -> List.length x = n -> List.length y = n -> List.length z = n -> ~ constant x -> ~ constant y -> ~ constant z -> ~ on_a_line x z -> ~ on_a_line y z ->
  ((exists e, partial_py Phi th n 1 (pearson x y) (pearson x z) (pearson y z) = Err e) <-> on_a_plane x y z).
Proof.
  intros Phi th n x y z L Lx Ly Lz Cx Cy Cz N1 N2. destruct (number_case Phi th n x y z Lx Ly Lz Cx Cy Cz N1 N2 ltac:(lia)) as [_ H].
  destruct (partial_py Phi th n 1 _ _ _) as [o|e]; split.
  - intros (e & E); discriminate.
  - intros Pl. destruct (proj1 H ltac:(eexists; reflexivity)) as [_ NP]. contradiction.
  - intros _. destruct (Classical_Prop.classic (on_a_plane x y z)) as [Pl|NP]; [exact Pl|]. destruct (proj2 H (conj L NP)) as (o & E); discriminate.
  - intros _. exists e; reflexivity.
Qed.
Print Assumptions C104_test.

Section Table.
Variables (dec : Z -> R) (code : option R -> Z) (Phi : R -> R) (th : R) (n : nat) (g0 : graph) (N : numerics).
Notation ids := (dkeys (nodes g0)).
Notation col x := (map dec (values_of g0 x)).
Hypothesis CP : SkelStart.complete g0.
Hypothesis PO : python_on dec code Phi th n (values_of g0) ids N.
Hypothesis Hn : (3 <= n)%nat.
Hypothesis NR : no_repeats (fun x => col x) ids.
Notation len x := (col_length dec code Phi th n g0 N PO x).
Lemma corr_code x y : In x ids -> In y ids -> x <> y -> corr g0 N x y = code (pearson (col x) (col y)).
Proof.
  intros Hx Hy Ne. destruct (SkelStart.pairs_In g0 g0 x y (SkelStart.cp_wf _ CP) eq_refl (proj2 (dmem_In _ _) Hx) (proj2 (dmem_In _ _) Hy) Ne) as [O|O].
  - rewrite (corr_ord g0 N x y O). unfold pc_corr. assert (C := cols_all dec code Phi th n g0 N CP PO x y O). unfold col_ans in C. rewrite C. reflexivity.
  - rewrite (corr_sym g0 N CP), (corr_ord g0 N y x O). unfold pc_corr. assert (C := cols_all dec code Phi th n g0 N CP PO y x O). unfold col_ans in C. rewrite C. cbn [num]. f_equal. apply (pearson_swap n); [exact (len y Hy)|exact (len x Hx)].
Qed.
Definition pans (x y z : id) : res (option bool) := n_partial N (List.length (values_of g0 x)) 1 (corr g0 N x y) (corr g0 N x z) (corr g0 N y z).
Definition fine (x y z : id) : Prop := (4 <= n)%nat /\ (constant (col x) \/ constant (col y) \/ constant (col z) \/ ~ on_a_plane (col x) (col y) (col z)).
Lemma pans_is x y z : In x ids -> In y ids -> In z ids -> NoDup [x; y; z] -> pans x y z = partial_py Phi th n 1 (pearson (col x) (col y)) (pearson (col x) (col z)) (pearson (col y) (col z)).
Proof.
  intros Hx Hy Hz ND. destruct (three x y z ND) as (N1 & N2 & N3). unfold pans. rewrite !corr_code, (po_length _ _ _ _ _ _ _ _ PO x Hx) by assumption. exact (po_partial _ _ _ _ _ _ _ _ PO x y z Hx Hy Hz ND).
Qed.
Lemma pans_fine x y z : In x ids -> In y ids -> In z ids -> NoDup [x; y; z] -> pans x y z <> Ok None /\ ((exists o, pans x y z = Ok o) <-> fine x y z).
Proof.
  intros Hx Hy Hz ND. destruct (three x y z ND) as (N1 & N2 & N3). rewrite (pans_is x y z Hx Hy Hz ND). unfold fine.
  destruct (Classical_Prop.classic (constant (col x) \/ constant (col y) \/ constant (col z))) as [C|C].
  - rewrite (nan_case Phi th n (col x) (col y) (col z) (len x Hx) (len y Hy) (len z Hz) C ltac:(lia)). destruct (Nat.ltb n 4) eqn:E.
    + apply Nat.ltb_lt in E. split; [discriminate|]. split; [intros (o & H); discriminate|intros [H _]; lia].
    + apply Nat.ltb_ge in E. split; [discriminate|]. split; [intros _; tauto|intros _; eexists; reflexivity].
  - assert (Cx : ~ constant (col x)) by tauto. assert (Cy : ~ constant (col y)) by tauto. assert (Cz : ~ constant (col z)) by tauto.
    destruct (number_case Phi th n (col x) (col y) (col z) (len x Hx) (len y Hy) (len z Hz) Cx Cy Cz (NR x z Hx Hz N2 Cx Cz) (NR y z Hy Hz N3 Cy Cz) ltac:(lia)) as [A B]. split; [exact A|]. rewrite B. tauto.
Qed.
Lemma fine_swap x y z : In x ids -> In y ids -> fine x y z -> fine y x z.
Proof.
  intros Hx Hy [L H]. split; [exact L|]. destruct H as [H|[H|[H|H]]]; [tauto|tauto|tauto|]. right; right; right. intros Q. apply H. apply plane_swap; [rewrite (len x Hx), (len y Hy); reflexivity|exact Q].
Qed.
Lemma fine_last x y z : fine x y z -> fine x z y.
Proof. intros [L H]. split; [exact L|]. destruct H as [H|[H|[H|H]]]; [tauto|tauto|tauto|]. right; right; right. intros Q. apply H. apply plane_last; exact Q. Qed.
Lemma chain_fine p q r : In p ids -> In q ids -> In r ids -> NoDup [p; q; r] -> ((exists o, chain g0 N p q r = Ok o) <-> fine p q r).
Proof.
  intros Hp Hq Hr ND. destruct (three p q r ND) as (N1 & N2 & N3).
  destruct (pans_fine q r p Hq Hr Hp ltac:(apply three'; congruence)) as [A1 B1]. destruct (pans_fine p r q Hp Hr Hq ltac:(apply three'; congruence)) as [A2 B2]. destruct (pans_fine p q r Hp Hq Hr ND) as [A3 B3].
  assert (F1 : fine q r p <-> fine p q r) by (split; intros H; [apply fine_swap; [assumption|assumption|]; apply fine_last; exact H|apply fine_last, fine_swap; assumption]).
  assert (F2 : fine p r q <-> fine p q r) by (split; apply fine_last). rewrite F1 in B1. rewrite F2 in B2. unfold chain. fold (pans q r p) (pans p r q) (pans p q r).
  destruct (pans q r p) as [[b1|]|e]; [|congruence|split; [intros (o & H); discriminate|intros H; destruct (proj2 B1 H) as (o & E); discriminate]].
  destruct (pans p r q) as [[b2|]|e]; [|congruence|split; [intros (o & H); discriminate|intros H; destruct (proj2 B2 H) as (o & E); discriminate]].
  destruct (pans p q r) as [[b3|]|e]; [|congruence|split; [intros (o & H); discriminate|intros H; destruct (proj2 B3 H) as (o & E); discriminate]].
  split; [intros _; apply B3; eexists; reflexivity|intros _; eexists; reflexivity].
Qed.
Lemma chain_errors p q r e : In p ids -> In q ids -> In r ids -> NoDup [p; q; r] -> chain g0 N p q r = Err e -> e = ZeroDivisionError \/ e = ValueError.
Proof.
  intros Hp Hq Hr ND. destruct (three p q r ND) as (N1 & N2 & N3). unfold chain. fold (pans q r p) (pans p r q) (pans p q r). rewrite !pans_is by (try assumption; apply three'; congruence).
  destruct (partial_py Phi th n 1 (pearson (col q) (col r)) _ _) as [[b1|]|e1] eqn:E1; [|discriminate|intros H; injection H as <-; exact (partial_errors _ _ _ _ _ _ _ _ E1)].
  destruct (partial_py Phi th n 1 (pearson (col p) (col r)) _ _) as [[b2|]|e2] eqn:E2; [|discriminate|intros H; injection H as <-; exact (partial_errors _ _ _ _ _ _ _ _ E2)].
  destruct (partial_py Phi th n 1 (pearson (col p) (col q)) _ _) as [[b3|]|e3] eqn:E3; [discriminate|discriminate|intros H; injection H as <-; exact (partial_errors _ _ _ _ _ _ _ _ E3)].
Qed.
(* any three nodes are a triple of the data in some order *)
Lemma triple_of x y z : In x ids -> In y ids -> In z ids -> NoDup [x; y; z] -> exists p q r, In [p; q; r] (all_combinations (mkCS 3 3) g0) /\ Permutation [p; q; r] [x; y; z].
Proof.
  clear Hn. intros Hx Hy Hz ND. assert (W := SkelStart.cp_wf _ CP). destruct (three x y z ND) as (N1 & N2 & N3).
  assert (G : forall u v w, TotalFacts.ord g0 u v -> In w ids -> w <> u -> w <> v -> exists p q r, In [p; q; r] (all_combinations (mkCS 3 3) g0) /\ Permutation [p; q; r] [u; v; w]).
  { intros u v w O Hw M1 M2. assert (B := ord_before g0 u v O).
    assert (In3 : forall s, subseq s ids -> List.length s = 3%nat -> In s (all_combinations (mkCS 3 3) g0)).
    { intros s S L. apply all_combinations_In. split; [exact S|]. apply subseq_length in S. unfold size_in; cbn [cs_min cs_max]. unfold dkeys in S. rewrite map_length in S. lia. }
    destruct (insert_third ids u v w B Hw M1 M2) as [S|[S|S]].
    - exists w, u, v. split; [apply In3; [exact S|reflexivity]|]. apply (Permutation_app_comm [w] [u; v]).
    - exists u, w, v. split; [apply In3; [exact S|reflexivity]|]. constructor. apply perm_swap.
    - exists u, v, w. split; [apply In3; [exact S|reflexivity]|]. apply Permutation_refl. }
  destruct (SkelStart.pairs_In g0 g0 x y W eq_refl (proj2 (dmem_In _ _) Hx) (proj2 (dmem_In _ _) Hy) N1) as [O|O].
  - apply (G x y z O Hz); congruence.
  - destruct (G y x z O Hz ltac:(congruence) ltac:(congruence)) as (p & q & r & I & Pm). exists p, q, r. split; [exact I|]. eapply Permutation_trans; [exact Pm|apply perm_swap].
Qed.
Lemma fine_perm p q r x y z : In x ids -> In y ids -> In z ids -> NoDup [x; y; z] -> Permutation [p; q; r] [x; y; z] -> (fine p q r <-> fine x y z).
Proof.
  intros Hx Hy Hz ND Pm. assert (Ip : In p [x; y; z]) by (eapply Permutation_in; [exact Pm|cbn; auto]). assert (Iq : In q [x; y; z]) by (eapply Permutation_in; [exact Pm|cbn; auto]). assert (Ir : In r [x; y; z]) by (eapply Permutation_in; [exact Pm|cbn; auto]).
  assert (ND' : NoDup [p; q; r]) by (eapply Permutation_NoDup; [apply Permutation_sym; exact Pm|exact ND]). destruct (three p q r ND') as (M1 & M2 & M3).
  assert (SW := fine_swap). assert (LA := fine_last).
  destruct Ip as [Ip|[Ip|[Ip|[]]]], Iq as [Iq|[Iq|[Iq|[]]]], Ir as [Ir|[Ir|[Ir|[]]]]; subst; try congruence; split; intros H; auto 6.
Qed.
End Table.

Lemma md_perm Phi th n (col : id -> list R) p q r x y z : (forall v, In v [x; y; z] -> List.length (col v) = n) -> NoDup [x; y; z] -> Permutation [p; q; r] [x; y; z] ->
  (mutually_dependent Phi th n (col p) (col q) (col r) <-> mutually_dependent Phi th n (col x) (col y) (col z)).
Proof.
  intros L ND Pm. assert (Ip : In p [x; y; z]) by (eapply Permutation_in; [exact Pm|cbn; auto]). assert (Iq : In q [x; y; z]) by (eapply Permutation_in; [exact Pm|cbn; auto]). assert (Ir : In r [x; y; z]) by (eapply Permutation_in; [exact Pm|cbn; auto]).
  assert (ND' : NoDup [p; q; r]) by (eapply Permutation_NoDup; [apply Permutation_sym; exact Pm|exact ND]). destruct (three p q r ND') as (M1 & M2 & M3).
  assert (X := L x ltac:(cbn; auto)). assert (Y := L y ltac:(cbn; auto)). assert (Z := L z ltac:(cbn; auto)).
  assert (S1 := pearson_swap n (col x) (col y) X Y). assert (S2 := pearson_swap n (col x) (col z) X Z). assert (S3 := pearson_swap n (col y) (col z) Y Z). unfold mutually_dependent.
  destruct Ip as [Ip|[Ip|[Ip|[]]]], Iq as [Iq|[Iq|[Iq|[]]]], Ir as [Ir|[Ir|[Ir|[]]]]; subst; try congruence; rewrite <- ?S1, <- ?S2, <- ?S3; tauto.
Qed.

(* The first three steps of PC end well exactly for the tables of C98 in which any three columns that are all correlated with each
   other have four or more rows and, unless one is constant, cannot be calculated from each other; otherwise they raise *)
Theorem C104_phase_partial : forall fuel P d g0 dec code Phi th n N, start_graph d = Ok g0 -> (2 <= List.length (dkeys (nodes g0)))%nat ->
  python_on dec code Phi th n (values_of g0) (dkeys (nodes g0)) N ->
  exists g r, execute_pipeline fuel P no_hooks [PStep (calculate_pearson N); PStep (correlation_step N); PStep (partial_step false N)] g0 = (g, r) /\
    (r = Ok tt \/ r = Err ZeroDivisionError \/ r = Err ValueError) /\
    (r = Ok tt <-> (3 <= n)%nat /\ no_repeats (fun x => map dec (values_of g0 x)) (dkeys (nodes g0)) /\
       forall x y z, In x (dkeys (nodes g0)) -> In y (dkeys (nodes g0)) -> In z (dkeys (nodes g0)) -> NoDup [x; y; z] ->
         mutually_dependent Phi th n (map dec (values_of g0 x)) (map dec (values_of g0 y)) (map dec (values_of g0 z)) ->
         (4 <= n)%nat /\ (constant (map dec (values_of g0 x)) \/ constant (map dec (values_of g0 y)) \/ constant (map dec (values_of g0 z)) \/
           ~ on_a_plane (map dec (values_of g0 x)) (map dec (values_of g0 y)) (map dec (values_of g0 z)))).
Proof.
  intros fuel P d g0 dec code Phi th n N S0 L2 PO. assert (CP := SkelStart.complete_start d g0 S0).
  assert (H1 : forall x y, ord g0 x y -> exists z, col_ans g0 N x y = Ok z) by (intros x y O; eexists; exact (cols_all dec code Phi th n g0 N CP PO x y O)).
  assert (AA := all_answers dec code Phi th n g0 N CP PO L2). destruct (first_cases g0 CP fuel P N H1) as [(A & _)|(x & y & e & g & O & He & R)].
  - destruct (proj1 AA A) as [Hn NR].
    assert (CF : forall p q r, In [p; q; r] (all_combinations (mkCS 3 3) g0) -> In p (dkeys (nodes g0)) /\ In q (dkeys (nodes g0)) /\ In r (dkeys (nodes g0)) /\ NoDup [p; q; r] /\
      (all_dependent g0 N p q r <-> mutually_dependent Phi th n (map dec (values_of g0 p)) (map dec (values_of g0 q)) (map dec (values_of g0 r))) /\
      ((exists o, chain g0 N p q r = Ok o) <-> fine dec n g0 p q r)).
    { intros p q r Hc. destruct (triples_ord g0 _ Hc) as (p' & q' & r' & Ep & O1 & O2 & O3). injection Ep as <- <- <-. destruct (triple_nd g0 CP p q r O1 O2 O3) as (Hp & Hq & Hr & ND).
      apply dmem_In in Hp, Hq, Hr. do 4 (split; [assumption|]). split; [|exact (chain_fine dec code Phi th n g0 N CP PO Hn NR p q r Hp Hq Hr ND)].
      unfold all_dependent, mutually_dependent. rewrite !(corr_is dec code Phi th n g0 N CP PO) by assumption. tauto. }
    destruct (three_cases g0 CP fuel P N H1 A) as [(B & g & R)|(p & q & r & e & g & Hc & D & Ce & R)].
    + exists g, (Ok tt). split; [exact R|]. split; [auto|]. split; [intros _|reflexivity]. split; [exact Hn|]. split; [exact NR|]. intros x y z Hx Hy Hz ND MD.
      destruct (triple_of g0 CP x y z Hx Hy Hz ND) as (p & q & r & Hc & Pm). destruct (CF p q r Hc) as (_ & _ & _ & _ & D & Fi).
      apply (fine_perm dec code Phi th n g0 N PO p q r x y z Hx Hy Hz ND Pm), Fi, (B p q r Hc), D.
      apply (md_perm Phi th n (fun v => map dec (values_of g0 v)) p q r x y z); [|exact ND|exact Pm|exact MD].
      intros v [<-|[<-|[<-|[]]]]; apply (col_length dec code Phi th n g0 N PO); assumption.
    + destruct (CF p q r Hc) as (Hp & Hq & Hr & ND & D' & Fi). exists g, (Err e). split; [exact R|]. split; [destruct (chain_errors dec code Phi th n g0 N CP PO p q r e Hp Hq Hr ND Ce) as [-> | ->]; auto|]. split; [discriminate|].
      intros (_ & _ & F). exfalso. destruct (proj2 Fi (F p q r Hp Hq Hr ND (proj1 D' D))) as (o & Ho). congruence.
  - exists g, (Err e). split; [|split; [rewrite (corr_is dec code Phi th n g0 N CP PO x y O) in He; destruct (fisher_errors _ _ _ _ _ _ He) as [-> | ->]; auto|]].
    + change [PStep (calculate_pearson N); PStep (correlation_step N); PStep (partial_step false N)] with (first_two N ++ [PStep (partial_step false N)]). rewrite PipeMain.pipeline_app, R. reflexivity.
    + split; [discriminate|]. intros (L & NR & _). destruct (proj2 AA (conj L NR) x y O) as (b & Hb). congruence.
Qed.
Print Assumptions C104_phase_partial.

(* so PC fails on a table in which three columns that are all correlated with each other can be calculated from each other *)
Theorem C104_pc_fails : forall fuel P so d g0 dec code Phi th n N rest g r x y z, start_graph d = Ok g0 ->
  python_on dec code Phi th n (values_of g0) (dkeys (nodes g0)) N -> execute_pipeline fuel P no_hooks (pc_skeleton so N ++ rest) g0 = (g, r) ->
  In x (dkeys (nodes g0)) -> In y (dkeys (nodes g0)) -> In z (dkeys (nodes g0)) -> NoDup [x; y; z] ->
  ~ constant (map dec (values_of g0 x)) -> ~ constant (map dec (values_of g0 y)) -> ~ constant (map dec (values_of g0 z)) ->
  on_a_plane (map dec (values_of g0 x)) (map dec (values_of g0 y)) (map dec (values_of g0 z)) ->
  mutually_dependent Phi th n (map dec (values_of g0 x)) (map dec (values_of g0 y)) (map dec (values_of g0 z)) -> r <> Ok tt.
Proof.
  intros fuel P so d g0 dec code Phi th n N rest g r x y z S0 PO R Hx Hy Hz ND Cx Cy Cz Pl MD E.
  assert (L2 : (2 <= List.length (dkeys (nodes g0)))%nat).
  { assert (L : (List.length [x; y; z] <= List.length (dkeys (nodes g0)))%nat) by (apply NoDup_incl_length; [exact ND|]; intros v [<-|[<-|[<-|[]]]]; assumption). cbn in L. lia. }
  destruct (C104_phase_partial fuel P d g0 dec code Phi th n N S0 L2 PO) as (g1 & r1 & R1 & _ & I).
  change (pc_skeleton so N ++ rest) with ([PStep (calculate_pearson N); PStep (correlation_step N); PStep (partial_step false N)] ++ (PStep (matrix_step so 4 N) :: rest)) in R. rewrite PipeMain.pipeline_app, R1 in R.
  destruct r1 as [[]|e]; [|congruence]. destruct (proj1 I eq_refl) as (_ & _ & F). destruct (F x y z Hx Hy Hz ND MD) as [_ [H|[H|[H|H]]]]; contradiction.
Qed.
Print Assumptions C104_pc_fails.
(* PCStable asks all tests before it removes an edge: it fails whatever the correlations are, and so it does on three rows *)
Theorem C104_stable_fails : forall fuel P so d g0 dec code Phi th n N rest g r x y z, start_graph d = Ok g0 ->
  python_on dec code Phi th n (values_of g0) (dkeys (nodes g0)) N -> execute_pipeline fuel P no_hooks (pc_stable_skeleton so N ++ rest) g0 = (g, r) ->
  In x (dkeys (nodes g0)) -> In y (dkeys (nodes g0)) -> In z (dkeys (nodes g0)) -> NoDup [x; y; z] ->
  (n < 4)%nat \/ (~ constant (map dec (values_of g0 x)) /\ ~ constant (map dec (values_of g0 y)) /\ ~ constant (map dec (values_of g0 z)) /\
    on_a_plane (map dec (values_of g0 x)) (map dec (values_of g0 y)) (map dec (values_of g0 z))) -> r <> Ok tt.
Proof.
  intros fuel P so d g0 dec code Phi th n N rest g r x y z S0 PO R Hx Hy Hz ND C E. assert (CP := SkelStart.complete_start d g0 S0).
  rewrite PipeMain.pipeline_app in R. destruct (execute_pipeline fuel P no_hooks (pc_stable_skeleton so N) g0) as [g1 [[]|e]] eqn:R1; [|congruence].
  assert (L2 : (2 <= List.length (dkeys (nodes g0)))%nat).
  { assert (L : (List.length [x; y; z] <= List.length (dkeys (nodes g0)))%nat) by (apply NoDup_incl_length; [exact ND|]; intros v [<-|[<-|[<-|[]]]]; assumption). cbn in L. lia. }
  destruct (skeleton_all g0 CP fuel P so N true _ g1 (so_stable P so N) R1) as [_ H]. apply (all_answers dec code Phi th n g0 N CP PO L2) in H. destruct H as [Hn NR].
  destruct (triple_of g0 CP x y z Hx Hy Hz ND) as (p & q & w & Hc & Pm). assert (O := stable_all g0 CP fuel P N so g1 R1 p q w Hc).
  destruct (triples_ord g0 _ Hc) as (p' & q' & w' & Ep & O1 & O2 & O3). injection Ep as <- <- <-. destruct (triple_nd g0 CP p q w O1 O2 O3) as (Hp & Hq & Hw & ND'). apply dmem_In in Hp, Hq, Hw.
  assert (F := proj1 (chain_fine dec code Phi th n g0 N CP PO Hn NR p q w Hp Hq Hw ND') O). apply (fine_perm dec code Phi th n g0 N PO p q w x y z Hx Hy Hz ND Pm) in F. destruct F as [F4 F]. destruct C as [C|C]; [lia|tauto].
Qed.
Print Assumptions C104_stable_fails.
(* and no algorithm with the partial correlation test ever reports three such columns as all adjacent *)
Theorem C104_triangle : forall fuel P so d g0 dec code Phi th n N sks g x y z, start_graph d = Ok g0 -> set_order so ->
  python_on dec code Phi th n (values_of g0) (dkeys (nodes g0)) N -> skeleton_of P so N true sks -> execute_pipeline fuel P no_hooks sks g0 = (g, Ok tt) ->
  ~ constant (map dec (values_of g0 x)) -> ~ constant (map dec (values_of g0 y)) -> ~ constant (map dec (values_of g0 z)) ->
  on_a_plane (map dec (values_of g0 x)) (map dec (values_of g0 y)) (map dec (values_of g0 z)) ->
  ~ (edge_exists g x y = true /\ edge_exists g x z = true /\ edge_exists g y z = true).
Proof.
  intros fuel P so d g0 dec code Phi th n N sks g x y z S0 SO PO A R Cx Cy Cz Pl (L1 & L2 & L3). assert (CP := SkelStart.complete_start d g0 S0).
  destruct (top fuel P so N g0 CP SO true sks g A R) as (PF & K & D). assert (EE := fun u v => skel_ee _ _ _ _ g u v K). rewrite EE in L1, L2, L3.
  destruct (skel_dee_nodes _ _ _ _ g x y K L1) as (Hx & Hy & N1). destruct (skel_dee_nodes _ _ _ _ g x z K L2) as (_ & Hz & N2). destruct (skel_dee_nodes _ _ _ _ g y z K L3) as (_ & _ & N3).
  apply dmem_In in Hx, Hy, Hz. assert (ND : NoDup [x; y; z]) by (apply three'; assumption).
  assert (L2' : (2 <= List.length (dkeys (nodes g0)))%nat).
  { assert (L : (List.length [x; y; z] <= List.length (dkeys (nodes g0)))%nat) by (apply NoDup_incl_length; [exact ND|]; intros v [<-|[<-|[<-|[]]]]; assumption). cbn in L. lia. }
  destruct (skeleton_all g0 CP fuel P so N true _ g A R) as [_ H]. apply (all_answers dec code Phi th n g0 N CP PO L2') in H. destruct H as [Hn NR].
  assert (Fx : ~ fine dec n g0 x y z) by (intros [_ H]; tauto).
  assert (Go : forall u v w, In u (dkeys (nodes g0)) -> In v (dkeys (nodes g0)) -> In w (dkeys (nodes g0)) -> NoDup [u; v; w] -> Permutation [u; v; w] [x; y; z] -> ord g0 u v ->
    directed_edge_exists g u v = true -> directed_edge_exists g u w = true -> directed_edge_exists g v w = true -> False).
  { intros u v w Hu Hv Hw NDu Pm O M1 M2 M3. destruct (three u v w NDu) as (U1 & U2 & U3).
    assert (Nf : ~ exists o, pans g0 N u v w = Ok o).
    { rewrite (proj2 (pans_fine dec code Phi th n g0 N CP PO Hn NR u v w Hu Hv Hw NDu)), (fine_perm dec code Phi th n g0 N PO u v w x y z Hx Hy Hz ND Pm). exact Fx. }
    destruct (D [(u, v); (u, w); (v, w)]) as (p & Hp & G).
    - left; right. apply (kp_raise N g0 CP PF); [apply ord_before; exact O|apply dmem_In; exact Hw|congruence|congruence| |].
      + intros H. apply Nf. eexists. exact H.
      + intros a b c Pa B (a1 & a2 & a3 & C1 & C2 & C3 & T).
        assert (NDa : NoDup [a; b; c]) by (eapply Permutation_NoDup; [apply Permutation_sym; exact Pa|exact NDu]).
        assert (Ia : forall t, In t [a; b; c] -> In t (dkeys (nodes g0))) by (intros t Ht; apply (Permutation_in t Pa) in Ht; destruct Ht as [<-|[<-|[<-|[]]]]; assumption).
        apply (proj1 (pans_fine dec code Phi th n g0 N CP PO Hn NR a b c (Ia a ltac:(cbn; auto)) (Ia b ltac:(cbn; auto)) (Ia c ltac:(cbn; auto)) NDa)). unfold pans.
        rewrite <- (cor_of N g0 CP PF a b a1 C1), <- (cor_of N g0 CP PF a c a2 C2), <- (cor_of N g0 CP PF b c a3 C3). exact T.
    - unfold gone in G. destruct Hp as [<-|[<-|[<-|[]]]]; cbn in G; congruence. }
  destruct (SkelStart.pairs_In g0 g0 x y (SkelStart.cp_wf _ CP) eq_refl (proj2 (dmem_In _ _) Hx) (proj2 (dmem_In _ _) Hy) N1) as [O|O].
  - apply (Go x y z Hx Hy Hz ND (Permutation_refl _) O L1 L2 L3).
  - apply (Go y x z Hy Hx Hz ltac:(apply three'; congruence) ltac:(apply perm_swap) O); [apply (sk_sym _ _ _ _ _ K); exact L1|exact L3|exact L2].
Qed.
Print Assumptions C104_triangle.

(* z is the sum of x and y *)
Definition col4 (v : id) : list Z := if eqb v "x" then [3; 1; -1; -3; 3; 1; -1; -3; 3; 1; -1; -3]%Z else if eqb v "y" then [3; -1; 1; -3; 3; -1; 1; -3; 3; -1; 1; -3]%Z else [6; 0; 0; -6; 6; 0; 0; -6; 6; 0; 0; -6]%Z.
Definition table4 : rawdata := DDict (map (fun v => (v, map Some (col4 v))) ["x"; "y"; "z"]).
Definition is_z (a : list Z) : bool := if list_eq_dec Z.eq_dec a (col4 "z") then true else false.
Definition num4 : numerics := mkNum (fun a b => Ok (if is_z a || is_z b then 9 else 8)%Z) (fun _ _ => Ok false)
  (fun _ _ a _ _ => if Z.eqb a 8 then Err ValueError else Err ZeroDivisionError) (fun _ => Ok None) (fun _ _ _ => Ok false) (fun _ _ _ => Ok 0%Z).
Definition code4 (o : option R) : Z := match o with Some r => if Req_EM_T r (4 / 5) then 8%Z else 9%Z | None => 0%Z end.
Definition cols4 (v : id) : list R := map IZR (col4 v).
Lemma cols4_length v : List.length (cols4 v) = 12%nat.
Proof. unfold cols4, col4. destruct (eqb v "x"); [reflexivity|]. destruct (eqb v "y"); reflexivity. Qed.
Lemma x4 : cols4 "x" = [3; 1; -1; -3; 3; 1; -1; -3; 3; 1; -1; -3]. Proof. reflexivity. Qed.
Lemma y4 : cols4 "y" = [3; -1; 1; -3; 3; -1; 1; -3; 3; -1; 1; -3]. Proof. reflexivity. Qed.
Lemma z4 : cols4 "z" = [6; 0; 0; -6; 6; 0; 0; -6; 6; 0; 0; -6]. Proof. reflexivity. Qed.
Lemma cols4_sum : forall t, at_ (cols4 "z") t = at_ (cols4 "x") t + at_ (cols4 "y") t.
Proof. intros t. rewrite x4, y4, z4. unfold at_. do 12 (destruct t as [|t]; [cbn -[IZR Rplus]; lra|]). cbn -[IZR Rplus]. destruct t; cbn -[IZR Rplus]; lra. Qed.
Lemma cols4_varies v : ~ constant (cols4 v).
Proof.
  intros C. assert (H := C 0%nat 3%nat ltac:(rewrite cols4_length; lia) ltac:(rewrite cols4_length; lia)). unfold cols4, col4, at_ in H. destruct (eqb v "x"); [|destruct (eqb v "y")]; cbn -[IZR] in H; lra.
Qed.
Lemma cols4_center v : center (cols4 v) = cols4 v.
Proof.
  assert (C : forall l, vsum l = 0 -> center l = l).
  { intros l H. unfold center, mean. rewrite H. erewrite map_ext; [apply map_id|]. intros u. unfold Rdiv. ring. }
  apply C. unfold cols4, col4. destruct (eqb v "x"); [|destruct (eqb v "y")]; cbn -[IZR Rplus]; lra.
Qed.
Definition rho : R := 108 / (sqrt 60 * sqrt 216).
Lemma rho_sq : rho * rho = 9 / 10 /\ 4 / 5 < rho < 1.
Proof.
  assert (A : 0 < sqrt 60) by (apply sqrt_lt_R0; lra). assert (B : 0 < sqrt 216) by (apply sqrt_lt_R0; lra). assert (AA := sqrt_sqrt 60 ltac:(lra)). assert (BB := sqrt_sqrt 216 ltac:(lra)).
  assert (P : 0 < rho) by (unfold rho; apply Rdiv_lt_0_compat; nra).
  assert (Q : rho * rho = 9 / 10).
  { unfold rho. replace (108 / (sqrt 60 * sqrt 216) * (108 / (sqrt 60 * sqrt 216))) with (11664 / ((sqrt 60 * sqrt 60) * (sqrt 216 * sqrt 216))) by (field; lra). rewrite AA, BB. field. }
  split; [exact Q|]. split; nra.
Qed.
Lemma pearson4 : pearson (cols4 "x") (cols4 "y") = Some (4 / 5) /\ pearson (cols4 "x") (cols4 "z") = Some rho /\ pearson (cols4 "y") (cols4 "z") = Some rho.
Proof.
  assert (S := fun u v => pearson_some 12 ltac:(lia) (cols4 u) (cols4 v) (cols4_length u) (cols4_length v) (cols4_varies u) (cols4_varies v)).
  assert (XX : ip 12 (at_ (cols4 "x")) (at_ (cols4 "x")) = 60) by (rewrite ?x4, ?y4, ?z4; unfold ip, at_; cbn -[IZR Rplus Rmult]; lra). assert (YY : ip 12 (at_ (cols4 "y")) (at_ (cols4 "y")) = 60) by (rewrite ?x4, ?y4, ?z4; unfold ip, at_; cbn -[IZR Rplus Rmult]; lra).
  assert (ZZ : ip 12 (at_ (cols4 "z")) (at_ (cols4 "z")) = 216) by (rewrite ?x4, ?y4, ?z4; unfold ip, at_; cbn -[IZR Rplus Rmult]; lra). assert (XY : ip 12 (at_ (cols4 "x")) (at_ (cols4 "y")) = 48) by (rewrite ?x4, ?y4, ?z4; unfold ip, at_; cbn -[IZR Rplus Rmult]; lra).
  assert (XZ : ip 12 (at_ (cols4 "x")) (at_ (cols4 "z")) = 108) by (rewrite ?x4, ?y4, ?z4; unfold ip, at_; cbn -[IZR Rplus Rmult]; lra). assert (YZ : ip 12 (at_ (cols4 "y")) (at_ (cols4 "z")) = 108) by (rewrite ?x4, ?y4, ?z4; unfold ip, at_; cbn -[IZR Rplus Rmult]; lra).
  split; [|split]; rewrite S, !cols4_center, ?XX, ?YY, ?ZZ, ?XY, ?XZ, ?YZ; [|reflexivity|reflexivity]. rewrite sqrt_sqrt by lra. f_equal. lra.
Qed.
Lemma pearson4_all u v : In u ["x"; "y"; "z"]%string -> In v ["x"; "y"; "z"]%string -> u <> v ->
  pearson (cols4 u) (cols4 v) = Some (if eqb u "z" || eqb v "z" then rho else 4 / 5).
Proof.
  destruct pearson4 as (A & B & C). assert (S := fun u v => pearson_swap 12 (cols4 u) (cols4 v) (cols4_length u) (cols4_length v)).
  intros [H|[H|[H|[]]]] [H'|[H'|[H'|[]]]] Ne; subst; try congruence; cbn [eqb orb]; try assumption; rewrite S; assumption.
Qed.
Lemma fisher4 Phi th k : (forall a b, 0 <= a <= b -> Phi a <= Phi b) -> 2 * (1 - Phi 3) <= th -> fisher_py Phi th 12 0 (Some (if k : bool then rho else 4 / 5)) = Ok false.
Proof.
  intros Mo Th. assert (Base : fisher_test Phi th 12 0 (4 / 5) = Some false).
  { destruct (fisher_py Phi th 12 0 (Some (4 / 5))) as [b|e] eqn:F.
    - assert (F' := F). apply fisher_same in F'. rewrite F'. f_equal. destruct b; [|reflexivity]. exfalso. unfold fisher_py in F. destruct (Req_EM_T _ 0) in F; [discriminate|]. destruct (Rle_dec _ 0) in F; [discriminate|]. destruct (Rlt_dec _ 0) in F; [discriminate|].
      destruct (Rlt_dec th _) as [H|H] in F; [|discriminate]. clear F F'.
      replace ((1 + 4 / 5) / (1 - 4 / 5)) with (3 * 3) in H by field. replace (INR 12 - INR 0 - 3) with (3 * 3) in H by (cbn; ring). rewrite sqrt_square in H by lra. rewrite ln_mult in H by lra.
      assert (L : 1 <= ln 3).
      { rewrite <- (ln_exp 1). destruct exp_le_3 as [E|E]; [left; apply ln_increasing; [apply exp_pos|exact E]|right; rewrite E; reflexivity]. }
      rewrite Rabs_right in H by lra. assert (M := Mo 3 (1 / 2 * (ln 3 + ln 3) * 3) ltac:(split; nra)). lra.
    - exfalso. destruct (fisher_test Phi th 12 0 (4 / 5)) as [b|] eqn:F2; [apply fisher_same in F2; congruence|]. apply (C62_answers Phi th 12 0 (4 / 5) ltac:(lra)) in F2. destruct F2 as [H|[H|H]]; [lra|lra|lia]. }
  apply fisher_same. destruct k; [|exact Base]. destruct rho_sq as [_ B]. apply (C62_monotone Phi th 12 0 12 0 (4 / 5) rho Mo ltac:(lra) ltac:(lra)); [rewrite !Rabs_right by lra; lra|lia|exact Base].
Qed.
Definition start4 : graph := match start_graph table4 with Ok g => g | Err _ => empty_graph end.
Lemma start4_ok : start_graph table4 = Ok start4.
Proof. vm_compute. reflexivity. Qed.
Lemma ids4 : dkeys (nodes start4) = ["x"; "y"; "z"]%string.
Proof. vm_compute. reflexivity. Qed.
Lemma vals4 v : In v ["x"; "y"; "z"]%string -> values_of start4 v = col4 v.
Proof. intros [H|[H|[H|[]]]]; subst v; vm_compute; reflexivity. Qed.
Lemma code4_is (k : bool) : code4 (Some (if k then rho else 4 / 5)) = if k then 9%Z else 8%Z.
Proof. destruct rho_sq as [_ B]. unfold code4. destruct (Req_EM_T _ _) as [E|E], k; try reflexivity; lra. Qed.
Lemma partial4 Phi th (k : bool) : partial_py Phi th 12 1 (Some (if k then rho else 4 / 5)) (Some (if k then 4 / 5 else rho)) (Some rho) = (if k then Err ZeroDivisionError else Err ValueError) /\
  partial_py Phi th 12 1 (Some (if k then rho else 4 / 5)) (Some rho) (Some (if k then 4 / 5 else rho)) = (if k then Err ZeroDivisionError else Err ValueError).
Proof.
  destruct rho_sq as [Q B].
  assert (G : forall b c, (if k then b * c = 4 / 5 * rho /\ (1 - b * b) * (1 - c * c) = rho / 5 * (rho / 5) else b = rho /\ c = rho) -> partial_py Phi th 12 1 (Some (if k then rho else 4 / 5)) (Some b) (Some c) = (if k then Err ZeroDivisionError else Err ValueError)).
  { intros b c H. unfold partial_py. destruct k.
    - destruct H as [H1 H2]. rewrite H1, H2, sqrt_square by lra. destruct (Req_EM_T _ 0) as [Z|_]; [lra|]. replace ((rho - 4 / 5 * rho) / (rho / 5)) with 1 by (field; lra).
      unfold fisher_py. destruct (Req_EM_T (1 - 1) 0); [reflexivity|lra].
    - destruct H as [-> ->]. rewrite Q. replace ((1 - 9 / 10) * (1 - 9 / 10)) with (1 / 10 * (1 / 10)) by field. rewrite sqrt_square by lra. destruct (Req_EM_T _ 0) as [Z|_]; [lra|]. replace ((4 / 5 - 9 / 10) / (1 / 10)) with (-1) by field.
      unfold fisher_py. destruct (Req_EM_T (1 - -1) 0); [lra|]. destruct (Rle_dec _ 0) as [_|Z]; [reflexivity|]. exfalso. apply Z. right. field. }
  split; apply G; destruct k; try (split; reflexivity); split; try ring; rewrite Q; replace (rho / 5 * (rho / 5)) with (rho * rho / 25) by field; rewrite Q; lra.
Qed.
Lemma python4 Phi th : (forall a b, 0 <= a <= b -> Phi a <= Phi b) -> 2 * (1 - Phi 3) <= th -> python_on IZR code4 Phi th 12 (values_of start4) (dkeys (nodes start4)) num4.
Proof.
  intros Mo Th. rewrite ids4. assert (VX : forall x, In x ["x"; "y"; "z"]%string -> map IZR (values_of start4 x) = cols4 x) by (intros x Hx; rewrite (vals4 x Hx); reflexivity). constructor.
  - intros x Hx. rewrite <- (map_length IZR), (VX x Hx). apply cols4_length.
  - intros x y Hx Hy Ne. rewrite (VX x Hx), (VX y Hy), (vals4 x Hx), (vals4 y Hy), pearson4_all, code4_is by assumption. destruct Hx as [H|[H|[H|[]]]], Hy as [H'|[H'|[H'|[]]]]; subst; try congruence; vm_compute; reflexivity.
  - intros x y Hx Hy Ne. rewrite (VX x Hx), (VX y Hy), pearson4_all by assumption. rewrite (fisher4 Phi th _ Mo Th). reflexivity.
  - intros x y z Hx Hy Hz ND. cbn beta zeta. rewrite (VX x Hx), (VX y Hy), (VX z Hz). destruct (three x y z ND) as (N1 & N2 & N3). rewrite !pearson4_all by assumption. rewrite !code4_is.
    destruct (partial4 Phi th true) as [P1 P2]. destruct (partial4 Phi th false) as [P3 _].
    destruct Hx as [H|[H|[H|[]]]], Hy as [H'|[H'|[H'|[]]]], Hz as [H''|[H''|[H''|[]]]]; subst; try congruence; cbn [eqb orb]; cbn [num4 n_partial]; symmetry; first [exact P1|exact P2|exact P3].
  - intros l ND Hl L _. reflexivity.
Qed.
(* a table with a column that is the sum of two others: PC and PCStable fail with a division by zero, PCClassic ends well *)
Theorem C104_sum_refuted : exists d g0 x y z, start_graph d = Ok g0 /\ dkeys (nodes g0) = [x; y; z] /\
  (forall t, at_ (map IZR (values_of g0 z)) t = at_ (map IZR (values_of g0 x)) t + at_ (map IZR (values_of g0 y)) t) /\
  (forall Phi th, (forall a b, 0 <= a <= b -> Phi a <= Phi b) -> 2 * (1 - Phi 3) <= th -> python_on IZR code4 Phi th 12 (values_of g0) (dkeys (nodes g0)) num4) /\
  (exists g, execute_pipeline 30 (batch_runner no_hooks) no_hooks (pc dedup num4) g0 = (g, Err ZeroDivisionError)) /\
  (exists g, execute_pipeline 30 (batch_runner no_hooks) no_hooks (pc_stable dedup num4) g0 = (g, Err ZeroDivisionError)) /\
  (exists g, execute_pipeline 30 (batch_runner no_hooks) no_hooks (pc_classic dedup num4) g0 = (g, Ok tt)).
Proof.
  exists table4, start4, "x"%string, "y"%string, "z"%string. split; [exact start4_ok|]. split; [exact ids4|]. split; [rewrite !vals4 by (cbn; auto); exact cols4_sum|]. split; [exact python4|].
  split; [eexists; vm_compute; reflexivity|]. split; [eexists; vm_compute; reflexivity|]. eexists; vm_compute; reflexivity.
Qed.
Print Assumptions C104_sum_refuted.
Example C104_nonvacuous : start_graph table4 = Ok start4 /\ python_on IZR code4 (fun _ => 1) (1 / 100) 12 (values_of start4) (dkeys (nodes start4)) num4 /\
  NoDup ["x"; "y"; "z"]%string /\ ~ constant (cols4 "x") /\ ~ constant (cols4 "y") /\ ~ constant (cols4 "z") /\ ~ on_a_line (cols4 "x") (cols4 "z") /\ ~ on_a_line (cols4 "y") (cols4 "z") /\
  on_a_plane (cols4 "x") (cols4 "y") (cols4 "z") /\ mutually_dependent (fun _ => 1) (1 / 100) 12 (cols4 "x") (cols4 "y") (cols4 "z").
Proof.
  assert (F := fun k => fisher4 (fun _ => 1) (1 / 100) k ltac:(intros; lra) ltac:(lra)). destruct pearson4 as (A & B & C).
  split; [exact start4_ok|]. split; [apply python4; [intros; lra|lra]|]. split; [apply three'; discriminate|]. do 3 (split; [apply cols4_varies|]).
  split; [|split; [|split]].
  - intros (a & b & H). assert (H0 := H 0%nat ltac:(rewrite cols4_length; lia)). assert (H1 := H 1%nat ltac:(rewrite cols4_length; lia)). assert (H2 := H 2%nat ltac:(rewrite cols4_length; lia)). rewrite ?x4, ?y4, z4 in H0, H1, H2. unfold at_ in H0, H1, H2. cbn -[IZR Rplus Rmult] in H0, H1, H2. lra.
  - intros (a & b & H). assert (H0 := H 0%nat ltac:(rewrite cols4_length; lia)). assert (H1 := H 1%nat ltac:(rewrite cols4_length; lia)). assert (H2 := H 2%nat ltac:(rewrite cols4_length; lia)). rewrite ?x4, ?y4, z4 in H0, H1, H2. unfold at_ in H0, H1, H2. cbn -[IZR Rplus Rmult] in H0, H1, H2. lra.
  - exists 1, 1, (-1), 0. split; [intros (Q & _); lra|]. intros t _. rewrite cols4_sum. ring.
  - unfold mutually_dependent. rewrite A, B, C. split; [exact (F false)|]. split; [exact (F true)|exact (F true)].
Qed.
