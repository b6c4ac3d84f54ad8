(* Correlations and partial correlations do not depend on units or on the order of the observations. *)
From Coq Require Import Reals List Permutation Lia Lra.
From Verif Require Import Base PyDict Graph Actions IndepTests DataSpec Numeric NumericSpec NumericFacts UnitsSpec.
Import ListNotations.
Open Scope R_scope.

Lemma vsum_perm x y : Permutation x y -> vsum x = vsum y.
Proof. induction 1; cbn; lra. Qed.
Lemma vmul_map {A} (f h : A -> R) l : vmul (map f l) (map h l) = map (fun i => f i * h i) l.
Proof. induction l; cbn; [reflexivity|]. rewrite IHl. reflexivity. Qed.
Lemma vsum_map_plus {A} (f h : A -> R) l : vsum (map (fun i => f i + h i) l) = vsum (map f l) + vsum (map h l).
Proof. induction l; cbn; [lra|]. rewrite IHl. lra. Qed.
Lemma vsum_map_scale {A} c (f : A -> R) l : vsum (map (fun i => c * f i) l) = c * vsum (map f l).
Proof. induction l; cbn; [lra|]. rewrite IHl. lra. Qed.
Lemma vsum_map_const {A} c (l : list A) : vsum (map (fun _ => c) l) = INR (List.length l) * c.
Proof. induction l as [|a l IH]; [cbn; lra|]. cbn [map vsum List.length]. rewrite IH, S_INR. lra. Qed.
Lemma self_map x : x = map (at_ x) (seq 0 (List.length x)).
Proof.
  apply (nth_ext x (map (at_ x) (seq 0 (List.length x))) 0 (at_ x 0%nat)); [rewrite map_length, seq_length; reflexivity|]. intros k Hk. rewrite map_nth, seq_nth by exact Hk. reflexivity.
Qed.

Section Order.
Variables (n : nat) (p : list nat).
Hypothesis Hn : (2 <= n)%nat.
Hypothesis Pp : Permutation p (seq 0 n).
Lemma p_len : List.length p = n.
Proof. rewrite (Permutation_length Pp). apply seq_length. Qed.
Lemma n_pos : 0 < INR n.
Proof. apply lt_0_INR. lia. Qed.
Lemma sum_p (f : nat -> R) : vsum (map f p) = vsum (map f (seq 0 n)).
Proof. apply vsum_perm, Permutation_map, Pp. Qed.
Variables (x : list R) (a b : R).
Hypothesis Lx : List.length x = n.
Notation x' := (map (fun i => a * at_ x i + b) p).
Lemma mean_moved : mean x' = a * mean x + b.
Proof.
  unfold mean. rewrite map_length, p_len, Lx, sum_p, vsum_map_plus, vsum_map_scale, vsum_map_const, seq_length. assert (V : vsum x = vsum (map (at_ x) (seq 0 n))) by (rewrite <- Lx, <- self_map; reflexivity). rewrite V. assert (H := n_pos). field. lra.
Qed.
Lemma center_moved : center x' = map (fun i => a * (at_ x i - mean x)) p.
Proof. unfold center. rewrite map_map. apply map_ext. intros i. rewrite mean_moved. ring. Qed.
Lemma center_self : center x = map (fun i => at_ x i - mean x) (seq 0 n).
Proof. transitivity (map (fun v => v - mean x) (map (at_ x) (seq 0 (List.length x)))); [rewrite <- self_map; reflexivity|]. rewrite map_map, Lx. reflexivity. Qed.
End Order.
Lemma dot_moved n p x y a b c d : (2 <= n)%nat -> Permutation p (seq 0 n) -> List.length x = n -> List.length y = n ->
  dot (center (map (fun i => a * at_ x i + b) p)) (center (map (fun i => c * at_ y i + d) p)) = a * c * dot (center x) (center y).
Proof.
  intros Hn Pp Lx Ly. rewrite (center_moved n p Hn Pp x a b Lx), (center_moved n p Hn Pp y c d Ly), (center_self n x Lx), (center_self n y Ly). unfold dot. rewrite !vmul_map, (sum_p n p Pp).
  rewrite (map_ext _ (fun i => (a * c) * ((at_ x i - mean x) * (at_ y i - mean y)))) by (intros i; ring). rewrite vsum_map_scale. reflexivity.
Qed.
Lemma pearson_moved n p x y x' y' : (2 <= n)%nat -> Permutation p (seq 0 n) -> List.length x = n -> List.length y = n -> other_units p x x' -> other_units p y y' -> pearson x' y' = pearson x y.
Proof.
  intros Hn Pp Lx Ly (a & b & Ha & ->) (c & d & Hc & ->). assert (Lp := p_len n p Pp). assert (HN := n_pos n Hn).
  assert (L1 : List.length (map (fun i => a * at_ x i + b) p) = n) by (rewrite map_length; exact Lp). assert (L2 : List.length (map (fun i => c * at_ y i + d) p) = n) by (rewrite map_length; exact Lp).
  rewrite !(pearson_cosine n) by (assumption || lia).
  assert (E : forall u v, List.length u = n -> List.length v = n -> ip n (at_ (center u)) (at_ (center v)) = dot (center u) (center v)) by (intros u v Lu Lv; symmetry; apply dot_ip; rewrite center_length; assumption).
  rewrite !(cosine_ip n) by (rewrite center_length; assumption). rewrite !E by assumption. rewrite !(dot_moved n p) by assumption.
  set (X := dot (center x) (center x)). set (Y := dot (center y) (center y)). set (Z := dot (center x) (center y)).
  assert (PX : 0 <= X) by (unfold X; rewrite <- E by assumption; apply ip_nonneg). assert (PY : 0 <= Y) by (unfold Y; rewrite <- E by assumption; apply ip_nonneg).
  destruct (Req_EM_T (a * a * X * (c * c * Y)) 0) as [Q|Q], (Req_EM_T (X * Y) 0) as [W|W]; try reflexivity.
  - exfalso. apply W. assert (0 < a * a * (c * c)) by (apply Rmult_lt_0_compat; nra). apply (Rmult_eq_reg_l (a * a * (c * c))); [rewrite Rmult_0_r; rewrite <- Q; ring|lra].
  - exfalso. apply Q. replace (a * a * X * (c * c * Y)) with (a * a * (c * c) * (X * Y)) by ring. rewrite W. ring.
  - f_equal. rewrite (sqrt_mult (a * a) X), (sqrt_mult (c * c) Y), (sqrt_square a), (sqrt_square c) by nra. assert (0 < X) by (destruct PX as [|E0]; [assumption|exfalso; apply W; rewrite <- E0; ring]). assert (0 < Y) by (destruct PY as [|E0]; [assumption|exfalso; apply W; rewrite <- E0; ring]).
    assert (A1 := sqrt_lt_R0 X ltac:(assumption)). assert (A2 := sqrt_lt_R0 Y ltac:(assumption)). field. repeat split; lra.
Qed.

(* ---- matrices ---- *)
Section Matrix.
Variables (n : nat) (p : list nat).
Hypothesis Hn : (2 <= n)%nat.
Hypothesis Pp : Permutation p (seq 0 n).
Lemma units_list : forall vs vs', Forall2 (fun x x' => List.length x = n /\ other_units p x x') vs vs' ->
  exists a, (forall i, (i < List.length vs)%nat -> 0 < a i) /\ List.length vs' = List.length vs /\ observations n vs /\ observations n vs' /\
  forall i j, (i < List.length vs)%nat -> (j < List.length vs)%nat -> cov vs' i j = a i * a j * cov vs i j.
Proof.
  intros vs vs' F.
  assert (X : exists a b, (forall i, (i < List.length vs)%nat -> 0 < a i) /\ List.length vs' = List.length vs /\ observations n vs /\ forall i, (i < List.length vs)%nat -> nth i vs' [] = map (fun k => a i * at_ (nth i vs []) k + b i) p).
  { induction F as [|x x' vs vs' [Lx (a0 & b0 & Ha & ->)] _ (a & b & A & L & O & B)].
    - exists (fun _ => 0), (fun _ => 0). split; [intros i Hi; inversion Hi|]. split; [reflexivity|]. split; [intros v []|intros i Hi; inversion Hi].
    - exists (fun i => match i with O => a0 | S k => a k end), (fun i => match i with O => b0 | S k => b k end). split; [|split; [cbn; congruence|split]].
      + intros [|i] Hi; [exact Ha|apply A; cbn in Hi; lia].
      + intros v [<-|Hv]; [exact Lx|apply O, Hv].
      + intros [|i] Hi; cbn [nth]; [reflexivity|apply B; cbn in Hi; lia]. }
  destruct X as (a & b & A & L & O & B). exists a. split; [exact A|]. split; [exact L|]. split; [exact O|]. split.
  - intros v Hv. apply (In_nth _ _ []) in Hv. destruct Hv as (i & Hi & <-). rewrite L in Hi. rewrite (B i Hi), map_length. apply p_len, Pp.
  - intros i j Hi Hj. unfold cov. rewrite (B i Hi), (B j Hj), (dot_moved n p) by (assumption || (apply O, nth_In; assumption)). rewrite map_length, (p_len n p Pp), (O (nth i vs [])) by (apply nth_In; exact Hi). unfold Rdiv. ring.
Qed.
Lemma inverse_moved m P C C' (a : nat -> R) : (forall i, (i < m)%nat -> 0 < a i) -> (forall i j, (i < m)%nat -> (j < m)%nat -> C' i j = a i * a j * C i j) -> inverts m P C -> inverts m (fun i j => P i j / (a i * a j)) C'.
Proof.
  intros A E I i j Hi Hj. rewrite (sumn_ext m _ (fun k => (a j / a i) * (P i k * C k j))).
  - rewrite sumn_scale, (I i j Hi Hj). destruct (Nat.eq_dec i j) as [->|]; [|ring]. assert (X := A j Hj). field. lra.
  - intros k Hk. rewrite (E k j Hk Hj). assert (X := A i Hi). assert (Y := A k Hk). field. lra.
Qed.
Lemma par_moved vs vs' P P' : Forall2 (fun x x' => List.length x = n /\ other_units p x x') vs vs' -> (2 <= List.length vs)%nat -> forall a, (forall i, (i < List.length vs)%nat -> 0 < a i) ->
  P' = (fun i j => P i j / (a i * a j)) -> inverts (List.length vs) P (cov vs) -> observations n vs -> matrix_par (List.length vs) P' = matrix_par (List.length vs) P.
Proof.
  intros F L2 a A -> I O. assert (Q : forall i, (i < List.length vs)%nat -> 0 < P i i) by (apply (P_pos n (List.length vs) (/ (INR n - 1)) (fun k => at_ (center (nth k vs []))) P (s_pos n Hn)); exact (inv_ip n _ vs P Hn eq_refl O I)).
  assert (P0 := Q 0%nat ltac:(lia)). assert (P1 := Q 1%nat ltac:(lia)). assert (A0 := A 0%nat ltac:(lia)). assert (A1 := A 1%nat ltac:(lia)).
  assert (B0 : 0 < a 0%nat * a 0%nat) by nra. assert (B1 : 0 < a 1%nat * a 1%nat) by nra.
  rewrite !matrix_par_plain; try assumption; try (apply Rdiv_lt_0_compat; assumption).
  replace (P 0%nat 0%nat / (a 0%nat * a 0%nat) * (P 1%nat 1%nat / (a 1%nat * a 1%nat))) with (P 0%nat 0%nat * P 1%nat 1%nat * (/ (a 0%nat * a 1%nat) * / (a 0%nat * a 1%nat))) by (field; lra).
  assert (I0 : 0 < / (a 0%nat * a 1%nat)) by (apply Rinv_0_lt_compat; nra). rewrite sqrt_mult by nra. rewrite sqrt_square by lra. assert (S0 := sqrt_lt_R0 (P 0%nat 0%nat * P 1%nat 1%nat) ltac:(nra)). field. repeat split; lra.
Qed.
End Matrix.
Definition exn_dec (a b : exn) : {a = b} + {a <> b}. Proof. repeat decide equality. Defined.
Definition answer_dec (a b : res (option bool)) : {a = b} + {a <> b}.
Proof. destruct a as [a|a], b as [b|b]; try (right; discriminate); [|destruct (exn_dec a b) as [->|H]; [left; reflexivity|right; congruence]]. assert (D : {a = b} + {a <> b}) by (repeat decide equality). destruct D as [->|H]; [left; reflexivity|right; congruence]. Defined.

Section Run.
Variables (dec : Z -> R) (code : option R -> Z) (Phi : R -> R) (threshold : R) (n : nat) (no_inverse no_answer : res (option bool)) (N : numerics) (g0 g0' : graph).
Hypothesis Hn : (2 <= n)%nat.
Hypothesis Ke : dkeys (nodes g0') = dkeys (nodes g0).
Hypothesis RT : retold dec n g0 g0'.
Hypothesis EX : exact_on dec code Phi threshold n no_inverse no_answer (columns_of g0) N.
Hypothesis EX' : exact_on dec code Phi threshold n no_inverse no_answer (columns_of g0') N.
Lemma retold_answers : same_answers (dkeys (nodes g0)) N N (values_of g0) (values_of g0').
Proof.
  destruct RT as (p & Pp & U).
  assert (C0 : forall x, In x (dkeys (nodes g0)) -> columns_of g0 (values_of g0 x)) by (intros x H; exists x; auto).
  assert (C1 : forall x, In x (dkeys (nodes g0)) -> columns_of g0' (values_of g0' x)) by (intros x H; exists x; rewrite Ke; auto).
  assert (L' : forall x, In x (dkeys (nodes g0)) -> List.length (values_of g0' x) = List.length (values_of g0 x)).
  { intros x H. destruct (U x H) as (L & a & b & _ & E). rewrite L. rewrite <- (map_length dec), E, map_length. apply p_len, Pp. }
  split.
  - intros x y Hx Hy. rewrite (ex_pearson _ _ _ _ _ _ _ _ _ EX), (ex_pearson _ _ _ _ _ _ _ _ _ EX') by auto. do 2 f_equal. symmetry. destruct (U x Hx) as [Lx Ux], (U y Hy) as [Ly Uy]. apply (pearson_moved n p); rewrite ?map_length; assumption.
  - intros x c Hx. rewrite (L' x Hx). reflexivity.
  - intros x k a b c Hx. rewrite (L' x Hx). reflexivity.
  - intros l L2 I.
    assert (F : Forall2 (fun x x' => List.length x = n /\ other_units p x x') (map (map dec) (map (values_of g0) l)) (map (map dec) (map (values_of g0') l))).
    { clear L2. induction l as [|x l IH]; cbn [map]; constructor; [|apply IH; intros z Z; apply I; right; exact Z]. destruct (U x (I x (or_introl eq_refl))) as [Lx Ux]. split; [rewrite map_length; exact Lx|exact Ux]. }
    destruct (units_list n p Hn Pp _ _ F) as (a & A & _ & O & O' & Cv). rewrite !map_length in A, Cv.
    assert (I0 : forall v, In v (map (values_of g0) l) -> columns_of g0 v) by (intros v Hv; apply in_map_iff in Hv; destruct Hv as (x & <- & Hx); auto).
    assert (I1 : forall v, In v (map (values_of g0') l) -> columns_of g0' v) by (intros v Hv; apply in_map_iff in Hv; destruct Hv as (x & <- & Hx); auto).
    assert (Yes : forall P, inverts (List.length l) P (cov (map (map dec) (map (values_of g0) l))) -> n_matrix N (map (values_of g0) l) = n_matrix N (map (values_of g0') l)).
    { intros P IP. assert (IP' := inverse_moved (List.length l) P _ _ a A Cv IP).
      assert (E0 := ex_matrix _ _ _ _ _ _ _ _ _ EX (map (values_of g0) l) P I0). assert (E1 := ex_matrix _ _ _ _ _ _ _ _ _ EX' (map (values_of g0') l) (fun i j => P i j / (a i * a j)) I1). rewrite !map_length in E0, E1.
      rewrite (E0 L2 IP), (E1 L2 IP'). do 2 f_equal. symmetry.
      assert (M := par_moved n p Hn _ _ P (fun i j => P i j / (a i * a j)) F). rewrite !map_length in M. exact (M L2 a A eq_refl IP O). }
    destruct (answer_dec (n_matrix N (map (values_of g0) l)) (n_matrix N (map (values_of g0') l))) as [|Ne]; [assumption|]. exfalso. apply Ne.
    assert (No : forall P, ~ inverts (List.length l) P (cov (map (map dec) (map (values_of g0) l)))) by (intros P IP; apply Ne, (Yes P IP)).
    rewrite (ex_singular _ _ _ _ _ _ _ _ _ EX (map (values_of g0) l)), (ex_singular _ _ _ _ _ _ _ _ _ EX' (map (values_of g0') l)); try rewrite map_length; auto.
    intros P IP. apply (No (fun i j => P i j / (/ a i * / a j))). eapply (inverse_moved (List.length l) P _ _ (fun i => / a i)); [intros i Hi; apply Rinv_0_lt_compat, A, Hi| |exact IP].
    intros i j Hi Hj. rewrite (Cv i j Hi Hj). assert (X := A i Hi). assert (Y := A j Hj). field. lra.
Qed.
End Run.
