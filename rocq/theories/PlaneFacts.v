(* The partial correlation of three columns is 1 or -1 exactly if they lie on a plane. *)
From Coq Require Import Reals List Lra Lia Psatz.
From Verif Require Import Base Numeric NumericSpec NumericFacts NumericFacts2 PropsNumeric Nan NanSpec PlaneSpec.
Import ListNotations.
Open Scope R_scope.

Lemma plane_swap x y z : List.length y = List.length x -> on_a_plane x y z -> on_a_plane y x z.
Proof. intros L (a & b & c & d & Nz & H). exists b, a, c, d. split; [tauto|]. intros t Ht. rewrite L in Ht. rewrite <- (H t Ht). ring. Qed.
Lemma plane_last x y z : on_a_plane x y z -> on_a_plane x z y.
Proof. intros (a & b & c & d & Nz & H). exists a, c, b, d. split; [tauto|]. intros t Ht. rewrite <- (H t Ht). ring. Qed.

Section Three.
Variables (n : nat) (x y z : list R).
Hypothesis Hn : (0 < n)%nat.
Hypothesis Lx : List.length x = n.
Hypothesis Ly : List.length y = n.
Hypothesis Lz : List.length z = n.
Hypothesis Cx : ~ constant x.
Hypothesis Cy : ~ constant y.
Hypothesis Cz : ~ constant z.
Notation X := (at_ (center x)).
Notation Y := (at_ (center y)).
Notation Z := (at_ (center z)).
Lemma varies v : List.length v = n -> ~ constant v -> 0 < ip n (at_ (center v)) (at_ (center v)).
Proof.
  intros L C. destruct (ip_nonneg n (at_ (center v))) as [H|H]; [exact H|]. exfalso. apply C. unfold constant. rewrite L. apply (centered_zero n v Hn L). symmetry; exact H.
Qed.
Lemma pearson_some u v : List.length u = n -> List.length v = n -> ~ constant u -> ~ constant v ->
  pearson u v = Some (ip n (at_ (center u)) (at_ (center v)) / (sqrt (ip n (at_ (center u)) (at_ (center u))) * sqrt (ip n (at_ (center v)) (at_ (center v))))).
Proof.
  intros Lu Lv Cu Cv. rewrite (pearson_cosine n) by assumption. assert (A := varies u Lu Cu). assert (B := varies v Lv Cv).
  destruct (Req_EM_T _ 0) as [Q|Q]; [exfalso; nra|]. rewrite (cosine_ip n) by (rewrite center_length; assumption). reflexivity.
Qed.

Hypothesis Nxz : ~ on_a_line x z.
Hypothesis Nyz : ~ on_a_line y z.
Notation xx := (ip n X X). Notation yy := (ip n Y Y). Notation zz := (ip n Z Z).
Notation xy := (ip n X Y). Notation xz := (ip n X Z). Notation yz := (ip n Y Z).
Definition E0 t := X t - (xz / zz) * Z t.
Definition E1 t := Y t - (yz / zz) * Z t.
Lemma strict u v : 0 < ip n (at_ (center u)) (at_ (center u)) -> 0 < ip n (at_ (center v)) (at_ (center v)) -> List.length u = n -> List.length v = n -> ~ on_a_line u v ->
  0 < ip n (at_ (center u)) (at_ (center u)) - ip n (at_ (center u)) (at_ (center v)) * ip n (at_ (center u)) (at_ (center v)) / ip n (at_ (center v)) (at_ (center v)).
Proof.
  intros Pu Pv Lu Lv NL. set (f := at_ (center u)) in *. set (g := at_ (center v)) in *.
  set (e := fun t => g t - ip n f g / ip n f f * f t).
  assert (Ee : ip n e e = ip n g g - ip n f g * ip n f g / ip n f f) by (unfold e; rewrite ip_sq, (ip_sym n g f); field; lra).
  assert (Pe : 0 < ip n e e).
  { destruct (ip_nonneg n e) as [H|H]; [exact H|]. exfalso. apply NL. exists (ip n f g / ip n f f), (mean v - ip n f g / ip n f f * mean u). rewrite Lu. intros t Ht.
    assert (Q := ip_zero n e (eq_sym H) t Ht). unfold e, f, g in Q. rewrite !center_at in Q by lia. fold f g in Q. lra. }
  rewrite Ee in Pe.
  replace (ip n f f - ip n f g * ip n f g / ip n g g) with ((ip n g g - ip n f g * ip n f g / ip n f f) * (ip n f f / ip n g g)) by (field; lra).
  apply Rmult_lt_0_compat; [exact Pe|]. apply Rdiv_lt_0_compat; assumption.
Qed.
Lemma e00 : ip n E0 E0 = xx - xz * xz / zz.
Proof. assert (P := varies z Lz Cz). unfold E0. rewrite ip_sub, (ip_sym n Z X). field. lra. Qed.
Lemma e11 : ip n E1 E1 = yy - yz * yz / zz.
Proof. assert (P := varies z Lz Cz). unfold E1. rewrite ip_sub, (ip_sym n Z Y). field. lra. Qed.
Lemma e01 : ip n E0 E1 = xy - xz * yz / zz.
Proof. assert (P := varies z Lz Cz). unfold E0, E1. rewrite ip_sub, (ip_sym n Z Y). field. lra. Qed.
Lemma e00_pos : 0 < ip n E0 E0.
Proof. rewrite e00. apply (strict x z); try assumption; apply varies; assumption. Qed.
Lemma e11_pos : 0 < ip n E1 E1.
Proof. rewrite e11. apply (strict y z); try assumption; apply varies; assumption. Qed.
Definition par : R := ip n E0 E1 / (sqrt (ip n E0 E0) * sqrt (ip n E1 E1)).
Lemma par_is : exists a b c, pearson x y = Some a /\ pearson x z = Some b /\ pearson y z = Some c /\
  sqrt ((1 - b * b) * (1 - c * c)) <> 0 /\ (a - b * c) / sqrt ((1 - b * b) * (1 - c * c)) = par.
Proof.
  assert (Px := varies x Lx Cx). assert (Py := varies y Ly Cy). assert (Pz := varies z Lz Cz). assert (Ha := e00_pos). assert (Hc := e11_pos).
  do 3 eexists. split; [apply pearson_some; assumption|]. split; [apply pearson_some; assumption|]. split; [apply pearson_some; assumption|].
  unfold par. rewrite e00 in Ha |- *. rewrite e11 in Hc |- *. rewrite e01. set (a := xx - xz * xz / zz) in *. set (c := yy - yz * yz / zz) in *.
  assert (Sx := sqrt_lt_R0 _ Px). assert (Sy := sqrt_lt_R0 _ Py). assert (Sz := sqrt_lt_R0 _ Pz). assert (Sa := sqrt_lt_R0 _ Ha). assert (Sc := sqrt_lt_R0 _ Hc).
  assert (XX := sqrt_sqrt _ (Rlt_le _ _ Px)). assert (YY := sqrt_sqrt _ (Rlt_le _ _ Py)). assert (ZZ := sqrt_sqrt _ (Rlt_le _ _ Pz)).
  assert (F1 : 1 - xz / (sqrt xx * sqrt zz) * (xz / (sqrt xx * sqrt zz)) = a / xx).
  { unfold a. clear - Sx Sz XX ZZ. generalize dependent (sqrt xx). generalize dependent (sqrt zz). intros q Sq Q p Sp Pp. rewrite <- Pp, <- Q. field. split; lra. }
  assert (F2 : 1 - yz / (sqrt yy * sqrt zz) * (yz / (sqrt yy * sqrt zz)) = c / yy).
  { unfold c. clear - Sy Sz YY ZZ. generalize dependent (sqrt yy). generalize dependent (sqrt zz). intros q Sq Q p Sp Pp. rewrite <- Pp, <- Q. field. split; lra. }
  rewrite F1, F2. assert (G : sqrt (a / xx * (c / yy)) = sqrt a * sqrt c / (sqrt xx * sqrt yy)).
  { replace (a / xx * (c / yy)) with ((a * c) / (xx * yy)) by (field; lra). rewrite sqrt_div by (try nra; apply Rmult_lt_0_compat; assumption). rewrite !sqrt_mult by lra. reflexivity. }
  rewrite G. split.
  - intros Q. assert (0 < sqrt a * sqrt c / (sqrt xx * sqrt yy)) by (apply Rdiv_lt_0_compat; apply Rmult_lt_0_compat; assumption). lra.
  - clear - Sx Sy Sz Sa Sc XX YY ZZ. generalize dependent (sqrt a). generalize dependent (sqrt c). generalize dependent (sqrt xx). generalize dependent (sqrt yy). generalize dependent (sqrt zz).
    intros q Sq Q r Sr Rr p Sp Pp w Sw u Su. rewrite <- Q. field. repeat split; lra.
Qed.
Lemma par_bound : -1 <= par <= 1.
Proof. exact (cosine_bound n E0 E1 e00_pos e11_pos). Qed.
Lemma par_sq : par * par = 1 <-> ip n E0 E1 * ip n E0 E1 = ip n E0 E0 * ip n E1 E1.
Proof.
  assert (A := e00_pos). assert (B := e11_pos). assert (Sa := sqrt_lt_R0 _ A). assert (Sb := sqrt_lt_R0 _ B).
  assert (AA := sqrt_sqrt _ (Rlt_le _ _ A)). assert (BB := sqrt_sqrt _ (Rlt_le _ _ B)). unfold par.
  assert (E : ip n E0 E1 / (sqrt (ip n E0 E0) * sqrt (ip n E1 E1)) * (ip n E0 E1 / (sqrt (ip n E0 E0) * sqrt (ip n E1 E1))) = ip n E0 E1 * ip n E0 E1 / (ip n E0 E0 * ip n E1 E1)).
  { rewrite <- AA at 3. rewrite <- BB at 3. field. split; lra. }
  rewrite E. split; intros H.
  - transitivity (ip n E0 E1 * ip n E0 E1 / (ip n E0 E0 * ip n E1 E1) * (ip n E0 E0 * ip n E1 E1)); [field; split; lra|]. rewrite H. ring.
  - rewrite H. field. split; lra.
Qed.
Lemma centers a b c d : (forall t, (t < n)%nat -> a * at_ x t + b * at_ y t + c * at_ z t = d) -> forall t, (t < n)%nat -> a * X t + b * Y t + c * Z t = 0.
Proof.
  intros H t Ht. rewrite !center_at by lia.
  assert (M : a * mean x + b * mean y + c * mean z = d).
  { assert (I : 0 < INR n) by (apply lt_0_INR; exact Hn). apply (Rmult_eq_reg_l (INR n)); [|lra].
    replace (INR n * (a * mean x + b * mean y + c * mean z)) with (a * (INR n * mean x) + b * (INR n * mean y) + c * (INR n * mean z)) by ring.
    rewrite <- (mean_eq x n Lx Hn), <- (mean_eq y n Ly Hn), <- (mean_eq z n Lz Hn), <- !sumn_scale, <- !sumn_plus, <- sumn_const. apply sumn_ext. exact H. }
  assert (Q := H t Ht). lra.
Qed.
Lemma par_plane : par * par = 1 <-> on_a_plane x y z.
Proof.
  assert (A := e00_pos). assert (B := e11_pos). assert (Pz := varies z Lz Cz). rewrite par_sq. split.
  - intros H. set (s := ip n E0 E1 / ip n E1 E1).
    assert (Q : ip n (fun t => E0 t - s * E1 t) (fun t => E0 t - s * E1 t) = 0).
    { rewrite ip_sq. unfold s. replace (ip n E0 E0 - 2 * (ip n E0 E1 / ip n E1 E1) * ip n E0 E1 + ip n E0 E1 / ip n E1 E1 * (ip n E0 E1 / ip n E1 E1) * ip n E1 E1)
        with (ip n E0 E0 - ip n E0 E1 * ip n E0 E1 / ip n E1 E1) by (field; lra). rewrite H. field. lra. }
    set (k := xz / zz - s * (yz / zz)).
    exists 1, (- s), (- k), (mean x - s * mean y - k * mean z). split; [intros (Q1 & _); lra|]. rewrite Lx. intros t Ht. assert (U := ip_zero n _ Q t Ht). cbn beta in U. unfold E0, E1 in U. rewrite !center_at in U by lia.
    unfold k. lra.
  - intros (a & b & c & d & Nz & H). rewrite Lx in H. assert (C := centers a b c d H).
    assert (I1 : a * xz + b * yz + c * zz = 0).
    { rewrite <- !ip_scale, <- !ip_plus. rewrite (ip_ext n _ (fun _ => 0) Z Z C) by auto. unfold ip. rewrite (sumn_ext n _ (fun _ => 0)) by (intros; ring). apply sumn_zero. }
    assert (D : forall t, (t < n)%nat -> a * E0 t + b * E1 t = 0).
    { intros t Ht. assert (U := C t Ht). unfold E0, E1. replace (a * (X t - xz / zz * Z t) + b * (Y t - yz / zz * Z t)) with ((a * X t + b * Y t + c * Z t) - (a * xz + b * yz + c * zz) / zz * Z t) by (field; lra).
      rewrite U, I1. unfold Rdiv. ring. }
    assert (I2 : a * ip n E0 E0 + b * ip n E0 E1 = 0).
    { rewrite (ip_sym n E0 E1). rewrite <- !ip_scale, <- ip_plus. rewrite (ip_ext n _ (fun _ => 0) E0 E0 D) by auto. unfold ip. rewrite (sumn_ext n _ (fun _ => 0)) by (intros; ring). apply sumn_zero. }
    assert (I3 : a * ip n E0 E1 + b * ip n E1 E1 = 0).
    { rewrite <- !ip_scale, <- ip_plus. rewrite (ip_ext n _ (fun _ => 0) E1 E1 D) by auto. unfold ip. rewrite (sumn_ext n _ (fun _ => 0)) by (intros; ring). apply sumn_zero. }
    destruct (Req_dec b 0) as [B0|B0].
    + assert (A0 : a = 0) by (rewrite B0 in I2; nra). assert (C0 : c = 0) by (rewrite A0, B0 in I1; nra). tauto.
    + apply (Rmult_eq_reg_l b); [|exact B0].
      transitivity (ip n E0 E1 * (a * ip n E0 E0 + b * ip n E0 E1) - a * ip n E0 E0 * ip n E0 E1); [ring|]. rewrite I2.
      transitivity (ip n E0 E0 * (a * ip n E0 E1 + b * ip n E1 E1) - a * ip n E0 E0 * ip n E0 E1); [rewrite I3; ring|ring].
Qed.
End Three.
