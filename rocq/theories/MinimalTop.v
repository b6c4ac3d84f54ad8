(* When the answers of the tests are firm, and what the runs record. *)
From Verif Require Import Base PyDict PyDictFacts Graph GraphSpec GraphFacts GraphInv GraphQ PathSpec Actions ActionSpec Generators GenSpec GenFacts Rules IndepTests Pipeline Parallel
  PipeSpec PipeFacts PipeMain PipeMain2 GraphCheck Construct Dag DagFacts SkelSpec Serve SkelFacts SkelStart SkelSteps SkelTop Schedules Toy Ideal TotalSpec TotalFacts TotalMain
  TestedSpec TestedFacts TestedMain PropsTested PropsPC MinimalSpec MinimalFacts MinimalMain StableSizes.
Open Scope string_scope.
Open Scope list_scope.
Open Scope nat_scope.

(* ---- when the answers are firm ---- *)
Section Firm.
Variables (N : numerics) (g0 : graph).
Hypothesis CP : complete g0.
Hypothesis PF : forall a b, ord g0 a b -> n_pearson N (values_of g0 a) (values_of g0 b) = Ok (corr g0 N a b).
Hypothesis AT : forall x y z, answers_triple N g0 x y z.
Hypothesis MA : forall x y S S', SkelFacts.node g0 x -> SkelFacts.node g0 y -> other_variables g0 x y S -> Permutation S' S -> S <> [] ->
  matrix_answer N g0 x y S' (Some true) \/ matrix_answer N g0 y x S' (Some true) -> always_independent N g0 x y S.
Lemma firm_of single : firm N g0 single.
Proof.
  intros x y T Hx Hy OV F. destruct F as [B A|B A|z Si B A|z Si B A|T T' Pm Ln A].
  - left. split; [reflexivity|left; apply (kc_of N g0 CP PF); assumption].
  - left. split; [reflexivity|right; apply (kc_of N g0 CP PF); assumption].
  - right; left. split; [exact Si|]. exists z. split; [reflexivity|left; apply (kp_of N g0 CP PF); auto].
  - right; left. split; [exact Si|]. exists z. split; [reflexivity|right; apply (kp_of N g0 CP PF); auto].
  - right; right. assert (NE : T <> []) by (intros ->; destruct single; cbn in Ln; lia). split; [|exact (MA x y T T' Hx Hy OV Pm NE A)].
    destruct OV as [ND Hn]. split; [exact ND|]. split; [|destruct single; lia]. intros z [<-|[<-|Hz]]; [assumption|assumption|]. apply dmem_In. apply Hn; exact Hz.
Qed.
End Firm.

Section Regular.
Variables (N : numerics) (g0 : graph).
Hypothesis CP : complete g0.
Hypothesis RT : regular_tests N (dkeys (nodes g0)) (values_of g0).
Lemma regular_triple x y z : answers_triple N g0 x y z.
Proof.
  destruct RT as [RL RP RPt RM]. intros u v w _ _ (a & b & c & Ca & Cb & Cc & T).
  assert (Co : forall u v a, coefficient N g0 u v a -> n_pearson N (values_of g0 u) (values_of g0 v) = Ok a /\ In u (dkeys (nodes g0)) /\ In v (dkeys (nodes g0)) /\ u <> v).
  { intros u' v' a' H. destruct (coefficient_nodes N g0 CP u' v' a' H) as (Hu & Hv & Nuv). apply dmem_In in Hu, Hv. split; [|auto].
    destruct H as [[_ H]|[_ H]]; [exact H|]. rewrite (RP u' v' Hu Hv). exact H. }
  destruct (Co _ _ _ Ca) as (P1 & U1 & U2 & U3). destruct (Co _ _ _ Cb) as (P2 & _ & U4 & U5). destruct (Co _ _ _ Cc) as (P3 & _ & _ & U6).
  exact (proj2 (RPt u v w a b c U1 U2 U4 ltac:(apply three'; assumption) P1 P2 P3) T).
Qed.
Lemma regular_matrix x y S S' : SkelFacts.node g0 x -> SkelFacts.node g0 y -> other_variables g0 x y S -> Permutation S' S -> S <> [] ->
  matrix_answer N g0 x y S' (Some true) \/ matrix_answer N g0 y x S' (Some true) -> always_independent N g0 x y S.
Proof.
  intros Hx Hy [ND OV] Pm _ A S2 Pm2. destruct RT as [RL RP RPt RM]. apply dmem_In in Hx, Hy.
  assert (HI : forall z, In z (x :: y :: S) -> In z (dkeys (nodes g0))) by (intros z [<-|[<-|Hz]]; auto).
  assert (HI' : forall z, In z (y :: x :: S) -> In z (dkeys (nodes g0))) by (intros z [<-|[<-|Hz]]; auto).
  assert (ND' : NoDup (y :: x :: S)) by (eapply Permutation_NoDup; [apply perm_swap|exact ND]).
  unfold matrix_answer in *. rewrite <- (proj1 (RM x y S S2 HI ND (Permutation_sym Pm2))). destruct A as [A|A].
  - rewrite (proj1 (RM x y S S' HI ND (Permutation_sym Pm))). exact A.
  - rewrite (proj2 (RM x y S S HI ND (Permutation_refl _))), (proj1 (RM y x S S' HI' ND' (Permutation_sym Pm))). exact A.
Qed.
End Regular.

Section Perfect.
Variables (N : numerics) (g0 : graph) (D : list (id * id)) (c : id -> id -> Z).
Hypothesis CP : complete g0.
Hypothesis PT : perfect_tests N (values_of g0) (dkeys (nodes g0)) D c.
Notation ids := (dkeys (nodes g0)).
Lemma dsep_sym x y S : dsep D x y S -> dsep D y x S. Proof. apply d_separated_sym. Qed.
Lemma dsep_perm x y S S' : Permutation S S' -> dsep D x y S -> dsep D x y S'.
Proof.
  intros Pm. unfold dsep. intros H p Sp Op. apply (H p Sp). intros a b d T. destruct (Op a b d T) as [O1 O2]. split.
  - intros Co. destruct (O1 Co) as (e & Re & He). exists e. split; [exact Re|]. eapply Permutation_in; [apply Permutation_sym; exact Pm|exact He].
  - intros Nc Hb. apply (O2 Nc). eapply Permutation_in; eassumption.
Qed.
Lemma co x y a : coefficient N g0 x y a -> a = c x y /\ In x ids /\ In y ids /\ x <> y.
Proof.
  intros H. destruct (coefficient_nodes N g0 CP x y a H) as (Hx & Hy & Ne). apply dmem_In in Hx, Hy. split; [|auto]. destruct H as [[_ H]|[_ H]].
  - rewrite (pt_pearson _ _ _ _ _ PT x y Hx Hy Ne) in H. congruence.
  - rewrite (pt_pearson _ _ _ _ _ PT y x Hy Hx) in H by congruence. rewrite (pt_sym _ _ _ _ _ PT x y). congruence.
Qed.
Lemma perfect_triple x y z : answers_triple N g0 x y z.
Proof.
  intros u v w _ _ (a & b & d & Ca & Cb & Cc & T). destruct (co _ _ _ Ca) as (-> & U1 & U2 & U3). destruct (co _ _ _ Cb) as (-> & _ & U4 & U5). destruct (co _ _ _ Cc) as (-> & _ & _ & U6).
  destruct (pt_partial _ _ _ _ _ PT u v w U1 U2 U4 ltac:(apply three'; assumption)) as (b & E & _). rewrite E in T. discriminate.
Qed.
Lemma perfect_answer x y S o : In x ids -> In y ids -> other_variables g0 x y S -> S <> [] -> matrix_answer N g0 x y S (Some o) -> says o (dsep D x y S).
Proof.
  intros Hx Hy [ND OV] NE A. destruct (pt_matrix _ _ _ _ _ PT x y S ND) as (b & E & Sy); [intros z [<-|[<-|Hz]]; auto|exact NE|].
  unfold matrix_answer in A. rewrite E in A. injection A as <-. exact Sy.
Qed.
Lemma other_perm x y S S' : Permutation S S' -> other_variables g0 x y S -> other_variables g0 x y S'.
Proof.
  intros Pm [ND OV]. split; [eapply Permutation_NoDup; [apply perm_skip, perm_skip; exact Pm|exact ND]|]. intros z Hz. apply OV. eapply Permutation_in; [apply Permutation_sym; exact Pm|exact Hz].
Qed.
Lemma perm_ne (S S' : list id) : Permutation S S' -> S <> [] -> S' <> [].
Proof. intros Pm NE ->. apply NE. apply Permutation_nil. apply Permutation_sym. exact Pm. Qed.
Lemma matrix_dsep x y S S' : In x ids -> In y ids -> other_variables g0 x y S -> Permutation S' S -> S <> [] ->
  matrix_answer N g0 x y S' (Some true) \/ matrix_answer N g0 y x S' (Some true) -> dsep D x y S.
Proof.
  intros Hx Hy OV Pm NE A. assert (OV' := other_perm x y S S' (Permutation_sym Pm) OV). assert (NE' := perm_ne _ _ (Permutation_sym Pm) NE). apply (dsep_perm x y S' S Pm). destruct A as [A|A].
  - apply (perfect_answer x y S' true Hx Hy OV' NE' A). reflexivity.
  - apply dsep_sym. apply (perfect_answer y x S' true Hy Hx (other_sym g0 x y S' OV') NE' A). reflexivity.
Qed.
Lemma perfect_matrix x y S S' : SkelFacts.node g0 x -> SkelFacts.node g0 y -> other_variables g0 x y S -> Permutation S' S -> S <> [] ->
  matrix_answer N g0 x y S' (Some true) \/ matrix_answer N g0 y x S' (Some true) -> always_independent N g0 x y S.
Proof.
  intros Hx Hy OV Pm NE A S2 Pm2. apply dmem_In in Hx, Hy. assert (Ds := matrix_dsep x y S S' Hx Hy OV Pm NE A).
  destruct (other_perm x y S S2 (Permutation_sym Pm2) OV) as [ND2 OV2].
  destruct (pt_matrix _ _ _ _ _ PT x y S2 ND2) as (b & E & Sy); [intros z [<-|[<-|Hz]]; auto|exact (perm_ne _ _ (Permutation_sym Pm2) NE)|].
  unfold matrix_answer. rewrite E. rewrite (proj2 Sy); [reflexivity|]. exact (dsep_perm x y S S2 (Permutation_sym Pm2) Ds).
Qed.
(* the tests find exactly the d-separations *)
Lemma found_dsep b x y S : In x ids -> In y ids -> other_variables g0 x y S -> found_independent N g0 b x y S -> dsep D x y S.
Proof.
  intros Hx Hy OV F. destruct F as [B (a & Ca & T)|B (a & Ca & T)|z Si B (a & b' & d & Ca & Cb & Cc & T)|z Si B (a & b' & d & Ca & Cb & Cc & T)|S S' Pm Ln A].
  - destruct (co _ _ _ Ca) as (-> & _ & _ & Ne). destruct (pt_corr _ _ _ _ _ PT x y Hx Hy Ne) as (b0 & E & Sy). rewrite E in T. injection T as ->. apply Sy. reflexivity.
  - destruct (co _ _ _ Ca) as (-> & _ & _ & Ne). destruct (pt_corr _ _ _ _ _ PT y x Hy Hx Ne) as (b0 & E & Sy). rewrite E in T. injection T as ->. apply dsep_sym. apply Sy. reflexivity.
  - destruct (co _ _ _ Ca) as (-> & _ & _ & N1). destruct (co _ _ _ Cb) as (-> & _ & Hz & N2). destruct (co _ _ _ Cc) as (-> & _ & _ & N3).
    destruct (pt_partial _ _ _ _ _ PT x y z Hx Hy Hz ltac:(apply three'; assumption)) as (b0 & E & Sy). rewrite E in T. injection T as ->. apply Sy. reflexivity.
  - destruct (co _ _ _ Ca) as (-> & _ & _ & N1). destruct (co _ _ _ Cb) as (-> & _ & Hz & N2). destruct (co _ _ _ Cc) as (-> & _ & _ & N3).
    destruct (pt_partial _ _ _ _ _ PT y x z Hy Hx Hz ltac:(apply three'; assumption)) as (b0 & E & Sy). rewrite E in T. injection T as ->. apply dsep_sym. apply Sy. reflexivity.
  - assert (NE : S <> []) by (intros ->; destruct b; cbn in Ln; lia). exact (matrix_dsep x y S S' Hx Hy OV Pm NE A).
Qed.
Hypothesis PF : forall a b, ord g0 a b -> n_pearson N (values_of g0 a) (values_of g0 b) = Ok (corr g0 N a b).
Lemma coeff_c x y : In x ids -> In y ids -> x <> y -> coefficient N g0 x y (c x y).
Proof.
  intros Hx Hy Ne. assert (X := coeff N g0 CP PF x y (proj2 (dmem_In _ _) Hx) (proj2 (dmem_In _ _) Hy) Ne). rewrite <- (proj1 (co _ _ _ X)). exact X.
Qed.
Lemma dsep_found b x y S : In x ids -> In y ids -> other_variables g0 x y S -> dsep D x y S -> found_independent N g0 b x y S.
Proof.
  intros Hx Hy OV Ds. assert (Ne : x <> y) by (destruct OV as [ND _]; inversion ND as [|? ? N1 _]; subst; intros ->; apply N1; left; reflexivity).
  assert (O := pairs_In g0 g0 x y (cp_wf _ CP) eq_refl (proj2 (dmem_In _ _) Hx) (proj2 (dmem_In _ _) Hy) Ne).
  destruct S as [|z S].
  - destruct O as [O|O]; apply ord_before in O; [apply fi_none|apply fi_none']; try exact O; eexists; (split; [apply coeff_c; auto|]).
    + destruct (pt_corr _ _ _ _ _ PT x y Hx Hy Ne) as (b0 & E & Sy). rewrite E. rewrite (proj2 Sy Ds). reflexivity.
    + destruct (pt_corr _ _ _ _ _ PT y x Hy Hx) as (b0 & E & Sy); [congruence|]. rewrite E. rewrite (proj2 Sy (dsep_sym _ _ _ Ds)). reflexivity.
  - assert (Mat : (if b then 2 else 1) <= List.length (z :: S) -> found_independent N g0 b x y (z :: S)).
    { intros Ln. apply (fi_set N g0 b x y (z :: S) (z :: S) (Permutation_refl _)); [destruct b; exact Ln|]. left. destruct OV as [ND OV].
      destruct (pt_matrix _ _ _ _ _ PT x y (z :: S) ND) as (b0 & E & Sy); [intros w [<-|[<-|Hw]]; auto|discriminate|]. unfold matrix_answer. rewrite E, (proj2 Sy Ds). reflexivity. }
    destruct b; [|apply Mat; cbn; lia]. destruct S as [|w S]; [|apply Mat; cbn; lia].
    destruct OV as [ND OV]. destruct (three x y z ND) as (_ & N2 & N3). assert (Hz := OV z (or_introl eq_refl)).
    destruct O as [O|O]; apply ord_before in O; [apply fi_one|apply fi_one']; try reflexivity; try exact O; do 3 eexists; do 3 (split; [apply coeff_c; auto|]).
    + destruct (pt_partial _ _ _ _ _ PT x y z Hx Hy Hz ND) as (b0 & E & Sy). rewrite E, (proj2 Sy Ds). reflexivity.
    + destruct (pt_partial _ _ _ _ _ PT y x z Hy Hx Hz ltac:(apply three'; congruence)) as (b0 & E & Sy). rewrite E, (proj2 Sy (dsep_sym _ _ _ Ds)). reflexivity.
Qed.
(* a variable that is unrelated to one of two others does not separate them *)
Lemma unrelated x y z : dsep D x y [z] -> dsep D x z [] \/ dsep D y z [] -> dsep D x y [].
Proof.
  intros D1 D2 p Sp Op. destruct (@in_dec id string_dec z p) as [Hz|Hz].
  - apply (@in_split id) in Hz. destruct Hz as (p1 & p2 & ->). destruct Sp as (St & En & Ch & ND). destruct D2 as [D2|D2].
    + apply (D2 (p1 ++ [z])).
      * split; [|split; [exists p1; reflexivity|split]].
        { destruct St as (q & Eq). destruct p1 as [|w p1]; cbn in Eq; injection Eq as -> _; [exists []; reflexivity|exists (p1 ++ [z]); reflexivity]. }
        { refine (proj1 (chain_app_inv _ (p1 ++ [z]) p2 _)). rewrite <- app_assoc. exact Ch. }
        { assert (ND' : NoDup ((p1 ++ [z]) ++ p2)) by (rewrite <- app_assoc; exact ND). revert ND'. clear. generalize (p1 ++ [z]) as l. intros l. induction l as [|a l IH]; intros H; [constructor|].
          inversion H as [|? ? N1 ND']; subst. constructor; [|auto]. intros I. apply N1. apply in_app_iff; left; exact I. }
      * intros a b d (q1 & q2 & Eq). destruct (Op a b d) as [O1 O2]; [|split; assumption]. exists q1, (q2 ++ p2). 
        assert (X : p1 ++ z :: p2 = (p1 ++ [z]) ++ p2) by (rewrite <- app_assoc; reflexivity). refine (eq_trans X _). etransitivity; [apply (f_equal (fun l => l ++ p2) Eq)|]. rewrite <- app_assoc. reflexivity.
    + apply d_separated_sym in D2. apply (D2 (z :: p2)).
      * split; [exists p2; reflexivity|split; [|split]].
        { destruct En as (q & Eq). destruct (exists_last (l := z :: p2) ltac:(discriminate)) as (q' & w & Eq'). rewrite Eq' in Eq |- *. rewrite app_assoc in Eq. apply app_inj_tail in Eq. destruct Eq as [_ ->]. exists q'. reflexivity. }
        { exact (proj2 (chain_app_inv _ p1 (z :: p2) Ch)). }
        { revert ND. clear. induction p1 as [|a p1 IH]; [auto|]. intros H. inversion H; subst. auto. }
      * intros a b d (q1 & q2 & Eq). destruct (Op a b d) as [O1 O2]; [|split; assumption]. exists (p1 ++ q1), q2. rewrite Eq, <- app_assoc. reflexivity.
  - apply (D1 p Sp). intros a b d T. destruct (Op a b d T) as [O1 O2]. split.
    + intros Co. destruct (O1 Co) as (e & _ & []).
    + intros _ [<-|[]]. apply Hz. destruct T as (q1 & q2 & ->). apply in_app_iff; right; right; left; reflexivity.
Qed.
End Perfect.

(* ---- the separating sets of the runs ---- *)
Section Top.
Variables (fuel : nat) (P : runner) (so : list id -> list id) (N : numerics) (g0 g : graph).
Hypothesis CP : complete g0.
Hypothesis SO : set_order so.
Lemma skel_record Sp x y : skel g0 [] (corr g0 N) Sp g -> (forall x y S, Sp x y S -> good_sep g0 [] x y S /\ NoDup S) ->
  In x (dkeys (nodes g0)) -> In y (dkeys (nodes g0)) -> x <> y -> edge_exists g x y = false ->
  exists S, recorded_separator g x y S /\ other_variables g0 x y S /\ Sp x y S.
Proof.
  intros K HS Hx Hy Ne L. apply dmem_In in Hx, Hy. rewrite (skel_ee _ _ _ _ g x y K) in L.
  destruct (sk_gone _ _ _ _ _ K x y Hx Hy Ne L) as (u & v & S & H & _ & SpS). exists S. destruct (HS x y S SpS) as [(G1 & G2 & G3 & _) ND].
  split; [exists (separated u v S); eexists; split; [|split; reflexivity]|].
  { unfold retrieve_edge_history. unfold history, removals in H. destruct (dget (ehist g) (x, y)); cbn in *; [f_equal; exact H|discriminate]. }
  split; [|exact SpS]. split; [constructor; [intros [->|I]; [congruence|contradiction]|constructor; assumption]|]. intros z Hz. apply dmem_In. exact (G1 z Hz).
Qed.
End Top.
