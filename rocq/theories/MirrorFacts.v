(* Turning variables round only turns the signs of correlations and partial correlations. *)
From Coq Require Import Reals List Permutation Lia Lra.
From Verif Require Import Base PyDict Graph Actions IndepTests DataSpec Numeric NumericSpec NumericFacts Nan UnitsSpec UnitsFacts VerdictSpec MirrorSpec.
Import ListNotations.
Open Scope R_scope.

Definition sg (a : R) : R := if Rlt_dec a 0 then -1 else 1.
Lemma sg_cases a : sg a = 1 \/ sg a = -1.
Proof. unfold sg. destruct (Rlt_dec a 0); auto. Qed.
Lemma sg_abs a : a = sg a * Rabs a.
Proof. unfold sg. destruct (Rlt_dec a 0); [rewrite Rabs_left by assumption|rewrite Rabs_right by lra]; lra. Qed.
Lemma sg_sq a : sg a * sg a = 1.
Proof. destruct (sg_cases a) as [-> | ->]; lra. Qed.
Lemma pearson_turned n p x y a b c d : (2 <= n)%nat -> Permutation p (seq 0 n) -> List.length x = n -> List.length y = n -> a <> 0 -> c <> 0 ->
  pearson (map (fun i => a * at_ x i + b) p) (map (fun i => c * at_ y i + d) p) = option_map (Rmult (sg a * sg c)) (pearson x y).
Proof.
  intros Hn Pp Lx Ly Ha Hc. assert (Lp := p_len n p Pp). assert (HN := n_pos n Hn).
  assert (L1 : List.length (map (fun i => a * at_ x i + b) p) = n) by (rewrite map_length; exact Lp). assert (L2 : List.length (map (fun i => c * at_ y i + d) p) = n) by (rewrite map_length; exact Lp).
  rewrite !(pearson_cosine n) by (assumption || lia).
  assert (E : forall u v, List.length u = n -> List.length v = n -> ip n (at_ (center u)) (at_ (center v)) = dot (center u) (center v)) by (intros u v Lu Lv; symmetry; apply dot_ip; rewrite center_length; assumption).
  rewrite !(cosine_ip n) by (rewrite center_length; assumption). rewrite !E by assumption. rewrite !(dot_moved n p) by assumption.
  set (X := dot (center x) (center x)). set (Y := dot (center y) (center y)). set (Z := dot (center x) (center y)).
  assert (PX : 0 <= X) by (unfold X; rewrite <- E by assumption; apply ip_nonneg). assert (PY : 0 <= Y) by (unfold Y; rewrite <- E by assumption; apply ip_nonneg).
  assert (Pa := Rabs_pos_lt a Ha). assert (Pc := Rabs_pos_lt c Hc). assert (Sa : a * a = Rabs a * Rabs a) by (rewrite <- Rabs_mult; symmetry; apply Rabs_right; nra). assert (Sc : c * c = Rabs c * Rabs c) by (rewrite <- Rabs_mult; symmetry; apply Rabs_right; nra).
  destruct (Req_EM_T (a * a * X * (c * c * Y)) 0) as [Q|Q], (Req_EM_T (X * Y) 0) as [W|W]; cbn [option_map]; try reflexivity.
  - exfalso. apply W. assert (0 < a * a * (c * c)) by (apply Rmult_lt_0_compat; nra). apply (Rmult_eq_reg_l (a * a * (c * c))); [rewrite Rmult_0_r; rewrite <- Q; ring|lra].
  - exfalso. apply Q. replace (a * a * X * (c * c * Y)) with (a * a * (c * c) * (X * Y)) by ring. rewrite W. ring.
  - f_equal. rewrite Sa, Sc. rewrite (sqrt_mult (Rabs a * Rabs a) X), (sqrt_mult (Rabs c * Rabs c) Y), (sqrt_square (Rabs a)), (sqrt_square (Rabs c)) by nra. assert (0 < X) by (destruct PX as [|E0]; [assumption|exfalso; apply W; rewrite <- E0; ring]). assert (0 < Y) by (destruct PY as [|E0]; [assumption|exfalso; apply W; rewrite <- E0; ring]).
    assert (A1 := sqrt_lt_R0 X ltac:(assumption)). assert (A2 := sqrt_lt_R0 Y ltac:(assumption)). rewrite (sg_abs a) at 1. rewrite (sg_abs c) at 1. field. repeat split; lra.
Qed.

(* ---- the decision does not depend on the sign ---- *)
Definition ok_or (_ _ : exn) : Prop := True.
Lemma sign_ok r : 1 - r <> 0 -> 1 + r <> 0 -> ((1 + r) / (1 - r) <= 0 <-> (1 - r) / (1 + r) <= 0).
Proof.
  assert (H : forall u v, u <> 0 -> v <> 0 -> u / v <= 0 -> v / u <= 0).
  { intros u v Hu Hv H. replace (v / u) with ((v / u) * (v / u) * (u / v)) by (field; auto). assert (0 <= (v / u) * (v / u)) by nra. nra. }
  intros A B. split; apply H; assumption.
Qed.
Lemma ln_turned r : 1 - r <> 0 -> 1 + r <> 0 -> ~ (1 + r) / (1 - r) <= 0 -> ln ((1 - r) / (1 + r)) = - ln ((1 + r) / (1 - r)).
Proof. intros A B H. rewrite <- ln_Rinv by lra. f_equal. field. auto. Qed.
Lemma fisher_even Phi th n k r : agree ok_or (fisher_py Phi th n k (Some r)) (fisher_py Phi th n k (Some (-1 * r))).
Proof.
  unfold fisher_py. replace (1 - -1 * r) with (1 + r) by ring. replace (1 + -1 * r) with (1 - r) by ring.
  destruct (Req_EM_T (1 - r) 0) as [A|A], (Req_EM_T (1 + r) 0) as [B|B]; try exact Logic.I.
  - rewrite A. unfold Rdiv. rewrite Rmult_0_l. destruct (Rle_dec 0 0); [exact Logic.I|lra].
  - rewrite B. unfold Rdiv. rewrite Rmult_0_l. destruct (Rle_dec 0 0); [exact Logic.I|lra].
  - assert (S := sign_ok r A B). destruct (Rle_dec ((1 + r) / (1 - r)) 0) as [C|C], (Rle_dec ((1 - r) / (1 + r)) 0) as [D|D]; try exact Logic.I; try (exfalso; tauto).
    destruct (Rlt_dec _ 0); [exact Logic.I|]. cbv zeta. rewrite (ln_turned r A B C). replace (1 / 2 * - ln ((1 + r) / (1 - r))) with (- (1 / 2 * ln ((1 + r) / (1 - r)))) by ring. rewrite Rabs_Ropp. reflexivity.
Qed.
Lemma agree_same {A} (r : res A) : agree ok_or r r.
Proof. destruct r; [reflexivity|exact Logic.I]. Qed.
Lemma fisher_signs Phi th n k s o : s = 1 \/ s = -1 -> agree ok_or (fisher_py Phi th n k o) (fisher_py Phi th n k (option_map (Rmult s) o)).
Proof.
  intros [-> | ->]; destruct o as [r|]; cbn [option_map]; try apply agree_same; [rewrite Rmult_1_l; apply agree_same|apply fisher_even].
Qed.
Lemma test_signs Phi th n k s r : s = 1 \/ s = -1 -> fisher_test Phi th n k (s * r) = fisher_test Phi th n k r.
Proof.
  intros [-> | ->]; [rewrite Rmult_1_l; reflexivity|].
  unfold fisher_test. replace (1 - -1 * r) with (1 + r) by ring. replace (1 + -1 * r) with (1 - r) by ring.
  destruct (Req_EM_T (1 - r) 0) as [A|A], (Req_EM_T (1 + r) 0) as [B|B]; try reflexivity.
  - rewrite A. unfold Rdiv. rewrite Rmult_0_l. destruct (Rle_dec 0 0); [reflexivity|lra].
  - rewrite B. unfold Rdiv. rewrite Rmult_0_l. destruct (Rle_dec 0 0); [reflexivity|lra].
  - assert (S := sign_ok r A B). destruct (Rle_dec ((1 + r) / (1 - r)) 0) as [C|C], (Rle_dec ((1 - r) / (1 + r)) 0) as [D|D]; try reflexivity; try (exfalso; tauto).
    destruct (Rlt_dec _ 0); [reflexivity|]. cbv zeta. rewrite (ln_turned r A B C). replace (1 / 2 * - ln ((1 + r) / (1 - r))) with (- (1 / 2 * ln ((1 + r) / (1 - r)))) by ring. rewrite Rabs_Ropp. reflexivity.
Qed.
Lemma agree_some (r r' : res bool) : agree ok_or r r' -> agree ok_or (rbind r (fun b => Ok (Some b))) (rbind r' (fun b => Ok (Some b))).
Proof. destruct r, r'; cbn [agree rbind]; intros H; try (destruct H; fail); [subst; reflexivity|exact H]. Qed.
Lemma partial_signs Phi th n k sx sy sz a b c : sx * sx = 1 -> sy * sy = 1 -> sz * sz = 1 -> (sx * sy = 1 \/ sx * sy = -1) ->
  agree ok_or (partial_py Phi th n k a b c) (partial_py Phi th n k (option_map (Rmult (sx * sy)) a) (option_map (Rmult (sx * sz)) b) (option_map (Rmult (sy * sz)) c)).
Proof.
  intros Hx Hy Hz Hs. unfold partial_py. cbv zeta. destruct b as [b|], c as [c|]; cbn [option_map]; try apply agree_same.
  replace (sx * sz * b * (sx * sz * b)) with ((sx * sx) * (sz * sz) * (b * b)) by ring. replace (sy * sz * c * (sy * sz * c)) with ((sy * sy) * (sz * sz) * (c * c)) by ring. rewrite Hx, Hy, Hz, !Rmult_1_l.
  destruct (Req_EM_T _ 0) as [Q|Q]; [reflexivity|]. destruct a as [a|]; cbn [option_map]; [|apply agree_same]. apply agree_some.
  replace (sx * sy * a - sx * sz * b * (sy * sz * c)) with (sx * sy * (a - b * c)) by (transitivity (sx * sy * a - (sz * sz) * (sx * sy) * (b * c)); [rewrite Hz; ring|ring]).
  unfold Rdiv. rewrite Rmult_assoc. exact (fisher_signs Phi th n k (sx * sy) (Some _) Hs).
Qed.

(* ---- matrices ---- *)
Section Matrix.
Variables (n : nat) (p : list nat).
Hypothesis Hn : (2 <= n)%nat.
Hypothesis Pp : Permutation p (seq 0 n).
Lemma turned_list : forall vs vs', Forall2 (fun x x' => List.length x = n /\ turned p x x') vs vs' ->
  exists a, (forall i, (i < List.length vs)%nat -> a i <> 0) /\ List.length vs' = List.length vs /\ observations n vs /\
  forall i j, (i < List.length vs)%nat -> (j < List.length vs)%nat -> cov vs' i j = a i * a j * cov vs i j.
Proof.
  intros vs vs' F.
  assert (X : exists a b, (forall i, (i < List.length vs)%nat -> a i <> 0) /\ List.length vs' = List.length vs /\ observations n vs /\ forall i, (i < List.length vs)%nat -> nth i vs' [] = map (fun k => a i * at_ (nth i vs []) k + b i) p).
  { induction F as [|x x' vs vs' [Lx (a0 & b0 & Ha & ->)] _ (a & b & A & L & O & B)].
    - exists (fun _ => 0), (fun _ => 0). split; [intros i Hi; inversion Hi|]. split; [reflexivity|]. split; [intros v []|intros i Hi; inversion Hi].
    - exists (fun i => match i with O => a0 | S k => a k end), (fun i => match i with O => b0 | S k => b k end). split; [|split; [cbn; congruence|split]].
      + intros [|i] Hi; [exact Ha|apply A; cbn in Hi; lia].
      + intros v [<-|Hv]; [exact Lx|apply O, Hv].
      + intros [|i] Hi; cbn [nth]; [reflexivity|apply B; cbn in Hi; lia]. }
  destruct X as (a & b & A & L & O & B). exists a. split; [exact A|]. split; [exact L|]. split; [exact O|].
  intros i j Hi Hj. unfold cov. rewrite (B i Hi), (B j Hj), (dot_moved n p) by (assumption || (apply O, nth_In; assumption)). rewrite map_length, (p_len n p Pp), (O (nth i vs [])) by (apply nth_In; exact Hi). unfold Rdiv. ring.
Qed.
Lemma inverse_turned m P C C' (a : nat -> R) : (forall i, (i < m)%nat -> a i <> 0) -> (forall i j, (i < m)%nat -> (j < m)%nat -> C' i j = a i * a j * C i j) -> inverts m P C -> inverts m (fun i j => P i j / (a i * a j)) C'.
Proof.
  intros A E I i j Hi Hj. rewrite (sumn_ext m _ (fun k => (a j / a i) * (P i k * C k j))).
  - rewrite sumn_scale, (I i j Hi Hj). destruct (Nat.eq_dec i j) as [->|]; [|ring]. assert (X := A j Hj). field. assumption.
  - intros k Hk. rewrite (E k j Hk Hj). assert (X := A i Hi). assert (Y := A k Hk). field. auto.
Qed.
Lemma par_turned vs P a : (2 <= List.length vs)%nat -> (forall i, (i < List.length vs)%nat -> a i <> 0) ->
  inverts (List.length vs) P (cov vs) -> observations n vs -> matrix_par (List.length vs) (fun i j => P i j / (a i * a j)) = sg (a 0%nat) * sg (a 1%nat) * matrix_par (List.length vs) P.
Proof.
  intros L2 A I O. assert (Q : forall i, (i < List.length vs)%nat -> 0 < P i i) by (apply (P_pos n (List.length vs) (/ (INR n - 1)) (fun k => at_ (center (nth k vs []))) P (s_pos n Hn)); exact (inv_ip n _ vs P Hn eq_refl O I)).
  assert (P0 := Q 0%nat ltac:(lia)). assert (P1 := Q 1%nat ltac:(lia)). assert (A0 := A 0%nat ltac:(lia)). assert (A1 := A 1%nat ltac:(lia)).
  assert (B0 : 0 < a 0%nat * a 0%nat) by nra. assert (B1 : 0 < a 1%nat * a 1%nat) by nra.
  rewrite !matrix_par_plain; try assumption; try (apply Rdiv_lt_0_compat; assumption).
  assert (Pa := Rabs_pos_lt _ A0). assert (Pc := Rabs_pos_lt _ A1). set (s0 := Rabs (a 0%nat)) in *. set (s1 := Rabs (a 1%nat)) in *.
  assert (E0 : a 0%nat = sg (a 0%nat) * s0) by apply sg_abs. assert (E1 : a 1%nat = sg (a 1%nat) * s1) by apply sg_abs. assert (G0 := sg_sq (a 0%nat)). assert (G1 := sg_sq (a 1%nat)). assert (D0 := sg_cases (a 0%nat)). assert (D1 := sg_cases (a 1%nat)).
  set (e0 := sg (a 0%nat)) in *. set (e1 := sg (a 1%nat)) in *. rewrite E0, E1.
  replace (e0 * s0 * (e0 * s0)) with (s0 * s0) by (transitivity (e0 * e0 * (s0 * s0)); [rewrite G0|]; ring). replace (e1 * s1 * (e1 * s1)) with (s1 * s1) by (transitivity (e1 * e1 * (s1 * s1)); [rewrite G1|]; ring).
  replace (P 0%nat 0%nat / (s0 * s0) * (P 1%nat 1%nat / (s1 * s1))) with (P 0%nat 0%nat * P 1%nat 1%nat * (/ (s0 * s1) * / (s0 * s1))) by (field; lra).
  assert (I0 : 0 < / (s0 * s1)) by (apply Rinv_0_lt_compat; nra). rewrite sqrt_mult by nra. rewrite sqrt_square by lra. assert (S0 := sqrt_lt_R0 (P 0%nat 0%nat * P 1%nat 1%nat) ltac:(nra)).
  destruct D0 as [-> | ->], D1 as [-> | ->]; field; repeat split; lra.
Qed.
End Matrix.

Section Run.
Variables (dec : Z -> R) (code : option R -> Z) (Phi : R -> R) (th : R) (n : nat) (no_inverse no_answer : res (option bool)) (N : numerics) (g0 g0' : graph).
Hypothesis Hn : (2 <= n)%nat.
Hypothesis Ke : dkeys (nodes g0') = dkeys (nodes g0).
Hypothesis RM : remade dec n g0 g0'.
Hypothesis EX : exact_all dec code Phi th n no_inverse no_answer (values_of g0) (dkeys (nodes g0)) N.
Hypothesis EX' : exact_all dec code Phi th n no_inverse no_answer (values_of g0') (dkeys (nodes g0')) N.
Notation co g x y := (pearson (map dec (values_of g x)) (map dec (values_of g y))).
Lemma remade_verdicts : same_verdicts ok_or (dkeys (nodes g0)) N N (values_of g0) (values_of g0').
Proof.
  destruct RM as (p & Pp & U). assert (EX2 := EX'). rewrite Ke in EX2.
  assert (L' : forall x, In x (dkeys (nodes g0)) -> List.length (values_of g0' x) = n).
  { intros x H. destruct (U x H) as (L & a & b & _ & E). rewrite <- (map_length dec), E, map_length. apply p_len, Pp. }
  assert (L0 : forall x, In x (dkeys (nodes g0)) -> List.length (values_of g0 x) = n) by (intros x H; apply U, H).
  assert (Sy : forall g x y, List.length (values_of g x) = n -> List.length (values_of g y) = n -> co g y x = co g x y).
  { intros g x y Lx Ly. rewrite !(pearson_cosine n) by (rewrite ?map_length; assumption || lia). rewrite (Rmult_comm (ip n (at_ (center (map dec (values_of g y)))) _)), (cosine_sym n) by (rewrite center_length, map_length; assumption). reflexivity. }
  assert (St : forall x y c c', In x (dkeys (nodes g0)) -> In y (dkeys (nodes g0)) -> stored N N (values_of g0) (values_of g0') x y c c' -> c = code (co g0 x y) /\ c' = code (co g0' x y)).
  { intros x y c c' Hx Hy [[E E']|[E E']]; rewrite (ea_pearson _ _ _ _ _ _ _ _ _ _ EX) in E by assumption; rewrite (ea_pearson _ _ _ _ _ _ _ _ _ _ EX2) in E' by assumption; injection E as <-; injection E' as <-; [auto|]. rewrite (Sy g0 x y), (Sy g0' x y) by auto. auto. }
  assert (Tu : forall x, In x (dkeys (nodes g0)) -> exists a b, a <> 0 /\ map dec (values_of g0' x) = map (fun i => a * at_ (map dec (values_of g0 x)) i + b) p) by (intros x H; apply U, H).
  assert (Lm : forall x, In x (dkeys (nodes g0)) -> List.length (map dec (values_of g0 x)) = n) by (intros x H; rewrite map_length; auto).
  split.
  - intros x y Hx Hy. rewrite (ea_pearson _ _ _ _ _ _ _ _ _ _ EX), (ea_pearson _ _ _ _ _ _ _ _ _ _ EX2) by assumption. exact Logic.I.
  - intros x y c c' Hx Hy Ne H. destruct (St x y c c' Hx Hy H) as [-> ->]. rewrite (L' x Hx), (L0 x Hx), (ea_corr _ _ _ _ _ _ _ _ _ _ EX), (ea_corr _ _ _ _ _ _ _ _ _ _ EX2) by assumption.
    destruct (Tu x Hx) as (a & b & Ha & ->), (Tu y Hy) as (c & d & Hc & ->). rewrite (pearson_turned n p) by auto. apply fisher_signs. destruct (sg_cases a) as [-> | ->], (sg_cases c) as [-> | ->]; lra.
  - intros k x y z a b c a' b' c' Hx Hy Hz ND H1 H2 H3. destruct (St x y a a' Hx Hy H1) as [-> ->], (St x z b b' Hx Hz H2) as [-> ->], (St y z c c' Hy Hz H3) as [-> ->].
    rewrite (L' x Hx), (L0 x Hx). assert (E := ea_partial _ _ _ _ _ _ _ _ _ _ EX k x y z Hx Hy Hz ND). assert (E' := ea_partial _ _ _ _ _ _ _ _ _ _ EX2 k x y z Hx Hy Hz ND). cbv zeta in E, E'. rewrite E, E'. clear E E' H1 H2 H3.
    destruct (Tu x Hx) as (ax & bx & Ax & ->), (Tu y Hy) as (ay & by_ & Ay & ->), (Tu z Hz) as (az & bz & Az & ->). rewrite !(pearson_turned n p) by auto. apply partial_signs; try apply sg_sq. destruct (sg_cases ax) as [-> | ->], (sg_cases ay) as [-> | ->]; lra.
  - intros l L2 I.
    assert (F : Forall2 (fun x x' => List.length x = n /\ turned p x x') (map (fun v => map dec (values_of g0 v)) l) (map (fun v => map dec (values_of g0' v)) l)).
    { clear L2. induction l as [|x l IH]; cbn [map]; constructor; [|apply IH; intros z Z; apply I; right; exact Z]. assert (Hx := I x (or_introl eq_refl)). split; [apply Lm, Hx|apply (Tu x Hx)]. }
    destruct (turned_list n p Hn Pp _ _ F) as (a & A & _ & O & Cv). rewrite !map_length in A, Cv.
    assert (Yes : forall P, inverts (List.length l) P (cov (map (fun v => map dec (values_of g0 v)) l)) -> n_matrix N (map (values_of g0) l) = n_matrix N (map (values_of g0') l)).
    { intros P IP. assert (IP' := inverse_turned (List.length l) P _ _ a A Cv IP).
      rewrite (ea_matrix _ _ _ _ _ _ _ _ _ _ EX l P I L2 IP), (ea_matrix _ _ _ _ _ _ _ _ _ _ EX2 l _ I L2 IP').
      assert (M := par_turned n Hn (map (fun v => map dec (values_of g0 v)) l) P a). rewrite !map_length in M. rewrite (M L2 A IP O). f_equal. symmetry. apply test_signs. destruct (sg_cases (a 0%nat)) as [-> | ->], (sg_cases (a 1%nat)) as [-> | ->]; lra. }
    enough (E : n_matrix N (map (values_of g0) l) = n_matrix N (map (values_of g0') l)) by (rewrite E; apply agree_same).
    destruct (answer_dec (n_matrix N (map (values_of g0) l)) (n_matrix N (map (values_of g0') l))) as [|Ne]; [assumption|]. exfalso. apply Ne.
    assert (No : forall P, ~ inverts (List.length l) P (cov (map (fun v => map dec (values_of g0 v)) l))) by (intros P IP; apply Ne, (Yes P IP)).
    rewrite (ea_singular _ _ _ _ _ _ _ _ _ _ EX l I L2 No), (ea_singular _ _ _ _ _ _ _ _ _ _ EX2 l I L2); [reflexivity|].
    intros P IP. apply (No (fun i j => P i j / (/ a i * / a j))). eapply (inverse_turned (List.length l) P _ _ (fun i => / a i)); [intros i Hi; apply Rinv_neq_0_compat, A, Hi| |exact IP].
    intros i j Hi Hj. rewrite (Cv i j Hi Hj). assert (X := A i Hi). assert (Y := A j Hj). field. auto.
Qed.
End Run.
