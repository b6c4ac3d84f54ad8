(* Exact tests for three variables with eight observations, for the examples. *)
From Coq Require Import Reals List Lia Lra ZArith.
From Verif Require Import Base PyDict Graph SampleGen SampleSpec Dag IndepTests SkelSpec DsepDec Numeric NumericSpec NumericFacts NumericFacts2 PropsNumeric LinearSpec UnitsFacts LinearFacts LinearFacts2 LinearFacts3.
Import ListNotations.
Open Scope string_scope.
Open Scope list_scope.
Open Scope R_scope.

Definition zsum (x : list Z) : Z := fold_right Z.add 0%Z x.
Definition zdot (x y : list Z) : Z := zsum (map (fun p => (fst p * snd p)%Z) (combine x y)).
Definition zc (x y : list Z) : Z := (8 * zdot x y - zsum x * zsum y)%Z.
Lemma zsum_R x : vsum (map IZR x) = IZR (zsum x).
Proof. induction x as [|a x IH]; [reflexivity|]. cbn [map vsum zsum fold_right]. rewrite IH, plus_IZR. reflexivity. Qed.
Lemma zdot_R x : forall y, vsum (vmul (map IZR x) (map IZR y)) = IZR (zdot x y).
Proof. induction x as [|a x IH]; intros [|b y]; try reflexivity. unfold zdot in *. cbn [map vmul vsum combine zsum fold_right fst snd]. rewrite IH, plus_IZR, mult_IZR. reflexivity. Qed.
Lemma zc_R x y : List.length x = 8%nat -> List.length y = 8%nat -> ip 8 (at_ (center (map IZR x))) (at_ (center (map IZR y))) = IZR (zc x y) / 8.
Proof.
  intros Lx Ly. set (u := map IZR x). set (v := map IZR y). assert (Lu : List.length u = 8%nat) by (unfold u; rewrite map_length; exact Lx). assert (Lv : List.length v = 8%nat) by (unfold v; rewrite map_length; exact Ly).
  unfold ip. rewrite (sumn_ext 8 _ (fun t => at_ u t * at_ v t - mean v * at_ u t - mean u * at_ v t + mean u * mean v)) by (intros t Ht; rewrite !center_at by (rewrite ?Lu, ?Lv; exact Ht); ring).
  rewrite sumn_plus, !sumn_minus, !sumn_scale, sumn_const. fold (ip 8 (at_ u) (at_ v)). rewrite <- (dot_ip u v 8 Lu Lv). change (sumn 8 (fun k => at_ u k)) with (sumn 8 (at_ u)). change (sumn 8 (fun k => at_ v k)) with (sumn 8 (at_ v)).
  unfold mean. assert (Su : sumn 8 (at_ u) = vsum u) by (rewrite vsum_sumn, Lu; reflexivity). assert (Sv : sumn 8 (at_ v) = vsum v) by (rewrite vsum_sumn, Lv; reflexivity). rewrite Su, Sv, Lu, Lv. unfold dot, u, v. rewrite zdot_R, !zsum_R. unfold zc. rewrite minus_IZR, !mult_IZR. replace (INR 8) with 8 by (cbn; ring). field.
Qed.

Definition Phi3 (z : R) : R := if Req_EM_T z 0 then 1 / 2 else 1.
Lemma fisher3 k r : -1 < r < 1 -> (k <= 4)%nat -> fisher_test Phi3 (1 / 100) 8 k r = Some (if Req_EM_T r 0 then true else false).
Proof.
  intros H Hk. rewrite fisher_test_eq by lra. destruct (Rlt_dec (Rabs r) 1) as [A|A]; [|exfalso; apply A; apply Rabs_def1; lra].
  assert (Q : 0 < INR 8 - INR k - 3). { apply le_INR in Hk. cbn in Hk |- *. lra. }
  destruct (Rlt_dec _ 0); [lra|]. f_equal. unfold Phi3. destruct (Req_EM_T r 0) as [->|N].
  - destruct (Req_EM_T _ 0) as [_|Z]; [destruct (Rlt_dec _ _); [reflexivity|lra]|]. exfalso. apply Z. unfold z_value, odds. rewrite Rabs_R0. replace ((1 + 0) / (1 - 0)) with 1 by field. rewrite ln_1. ring.
  - destruct (Req_EM_T _ 0) as [Z|_]; [exfalso|destruct (Rlt_dec _ _); [lra|reflexivity]]. assert (P := Rabs_pos_lt r N). assert (S := sqrt_lt_R0 _ Q). unfold z_value in Z.
    assert (L : 0 < ln (odds (Rabs r))). { rewrite <- ln_1. apply ln_increasing; [lra|]. unfold odds. apply (Rmult_lt_reg_r (1 - Rabs r)); [lra|]. replace ((1 + Rabs r) / (1 - Rabs r) * (1 - Rabs r)) with (1 + Rabs r) by (field; lra). lra. }
    assert (0 < 1 / 2 * ln (odds (Rabs r)) * sqrt (INR 8 - INR k - 3)) by (apply Rmult_lt_0_compat; [lra|exact S]). lra.
Qed.
Lemma pearson_bound x y r : pearson x y = Some r -> -1 <= r <= 1.
Proof. unfold pearson, clamp. destruct (Req_EM_T _ 0); [discriminate|]. intros E. injection E as <-. destruct (Rlt_dec _ (-1)); [lra|]. destruct (Rlt_dec 1 _); lra. Qed.
Definition code3 (o : option R) : Z := match o with Some r => if Req_EM_T r 0 then 0%Z else 1%Z | None => 2%Z end.
(* the coefficient is 0 or not; no partial correlation is 0 *)
Definition exact3 : numerics := mkNum (fun x y => Ok (if Z.eqb (zc x y) 0 then 0%Z else 1%Z)) (fun _ c => Ok (Z.eqb c 0)) (fun _ _ _ _ _ => Ok (Some false)) (fun _ => Ok (Some false)) (fun _ _ _ => Ok false) (fun _ _ _ => Ok 0%Z).
Definition names3 : list id := ["a"; "b"; "c"].

Section Three.
Variable vals : id -> list Z.
Notation colf := (fun v => map IZR (vals v)).
Notation col v := (map IZR (vals v)).
Notation Zc u v := (zc (vals u) (vals v)).
Hypothesis Len : forall v, In v names3 -> List.length (vals v) = 8%nat.
Hypothesis Var : forall v, In v names3 -> (0 < Zc v v)%Z.
Hypothesis Par : forall x y z, In x names3 -> In y names3 -> In z names3 -> NoDup [x; y; z] -> (Zc x y * Zc z z <> Zc x z * Zc y z)%Z.
Lemma var_pos v : In v names3 -> 0 < IZR (Zc v v) / 8.
Proof. intros I. assert (H := IZR_lt _ _ (Var v I)). lra. Qed.
Lemma pearson3 x y : In x names3 -> In y names3 -> pearson (col x) (col y) = Some (IZR (Zc x y) / 8 / (sqrt (IZR (Zc x x) / 8) * sqrt (IZR (Zc y y) / 8))).
Proof.
  intros Ix Iy. assert (Lx : List.length (col x) = 8%nat) by (rewrite map_length; apply Len; exact Ix). assert (Ly : List.length (col y) = 8%nat) by (rewrite map_length; apply Len; exact Iy).
  cbv beta in *. rewrite (pearson_cosine 8 _ _ ltac:(lia) Lx Ly), (cosine_ip 8) by (rewrite center_length; assumption). rewrite !zc_R by (apply Len; assumption).
  assert (A := var_pos x Ix). assert (B := var_pos y Iy). destruct (Req_EM_T _ 0) as [Z|_]; [|reflexivity]. apply Rmult_integral in Z. lra.
Qed.
Lemma pearson3_zero x y r : In x names3 -> In y names3 -> pearson (col x) (col y) = Some r -> (r = 0 <-> Zc x y = 0%Z).
Proof.
  intros Ix Iy. rewrite (pearson3 x y Ix Iy). intros E. injection E as <-. assert (A := sqrt_lt_R0 _ (var_pos x Ix)). assert (B := sqrt_lt_R0 _ (var_pos y Iy)). assert (C := Rmult_lt_0_compat _ _ A B). split.
  - intros Z. unfold Rdiv in Z. apply Rmult_integral in Z. destruct Z as [Z|Z]; [apply eq_IZR; lra|]. apply Rinv_neq_0_compat in Z; [destruct Z|lra].
  - intros ->. unfold Rdiv. ring.
Qed.
Lemma partial3_nonzero x y z rxy rxz ryz p : In x names3 -> In y names3 -> In z names3 -> NoDup [x; y; z] ->
  pearson (col x) (col y) = Some rxy -> pearson (col x) (col z) = Some rxz -> pearson (col y) (col z) = Some ryz -> partial3 rxy rxz ryz = Some p -> p <> 0.
Proof.
  intros Ix Iy Iz ND Exy Exz Eyz Pa Z. rewrite (pearson3 x y Ix Iy) in Exy. rewrite (pearson3 x z Ix Iz) in Exz. rewrite (pearson3 y z Iy Iz) in Eyz. injection Exy as <-. injection Exz as <-. injection Eyz as <-.
  unfold partial3 in Pa. destruct (Req_EM_T _ 0) as [|Dn]; [discriminate|]. injection Pa as Pa. rewrite <- Pa in Z. unfold Rdiv in Z at 1. apply Rmult_integral in Z. destruct Z as [Z|Z]; [|apply Rinv_neq_0_compat in Z; [destruct Z|exact Dn]].
  apply (Par x y z Ix Iy Iz ND). apply eq_IZR. rewrite !mult_IZR. assert (A := sqrt_lt_R0 _ (var_pos x Ix)). assert (B := sqrt_lt_R0 _ (var_pos y Iy)). assert (C := sqrt_lt_R0 _ (var_pos z Iz)). assert (Q := sqrt_sqrt _ (Rlt_le _ _ (var_pos z Iz))).
  set (sx := sqrt (IZR (Zc x x) / 8)) in *. set (sy := sqrt (IZR (Zc y y) / 8)) in *. set (sz := sqrt (IZR (Zc z z) / 8)) in *.
  assert (E : IZR (Zc x y) / 8 / (sx * sy) - IZR (Zc x z) / 8 / (sx * sz) * (IZR (Zc y z) / 8 / (sy * sz)) = (IZR (Zc x y) * (sz * sz) - IZR (Zc x z) * IZR (Zc y z) / 8) * / (8 * (sx * sy * (sz * sz)))) by (field; repeat split; lra).
  rewrite Z in E. symmetry in E. apply Rmult_integral in E. destruct E as [E|E]; [rewrite Q in E; lra|]. apply Rinv_neq_0_compat in E; [destruct E|]. assert (0 < sx * sy * (sz * sz)) by (repeat apply Rmult_lt_0_compat; assumption). lra.
Qed.
Lemma obs3 l : (forall v, In v l -> In v names3) -> observations 8 (map colf l).
Proof. intros H v I. apply in_map_iff in I. destruct I as (s & <- & I). rewrite map_length. apply Len, H, I. Qed.
Lemma sets3 x y S : NoDup (x :: y :: S) -> (forall z, In z (x :: y :: S) -> In z names3) -> S = [] \/ exists z, S = [z].
Proof.
  intros ND Il. assert (L := NoDup_incl_length ND Il). cbn in L. destruct S as [|z [|w S]]; [left; reflexivity|right; exists z; reflexivity|cbn in L; lia].
Qed.
Lemma matrix3 x y z P : NoDup [x; y; z] -> (forall w, In w [x; y; z] -> In w names3) -> inverts 3 P (cov (map colf [x; y; z])) -> matrix_par 3 P <> 0 /\ -1 < matrix_par 3 P < 1.
Proof.
  intros ND Il Inv. assert (Ix : In x names3) by (apply Il; left; reflexivity). assert (Iy : In y names3) by (apply Il; right; left; reflexivity). assert (Iz : In z names3) by (apply Il; right; right; left; reflexivity).
  split; [|exact (matrix_par_strict 8 (col x) (col y) [col z] P ltac:(lia) (obs3 _ Il) Inv)].
  destruct (C46_agree 8 (col x) (col y) (col z) P ltac:(lia) (obs3 _ Il) Inv) as (rxy & rxz & ryz & Exy & Exz & Eyz & Pa). exact (partial3_nonzero x y z rxy rxz ryz _ Ix Iy Iz ND Exy Exz Eyz Pa).
Qed.
Lemma exact3_exact : exact_tests IZR code3 Phi3 (1 / 100) 8 vals names3 exact3.
Proof.
  split.
  - intros x y Ix Iy _. cbn [exact3 n_pearson]. destruct (pearson (col x) (col y)) as [r|] eqn:E; [|rewrite (pearson3 x y Ix Iy) in E; discriminate]. assert (H := pearson3_zero x y r Ix Iy E). cbn [code3].
    destruct (Z.eqb_spec (Zc x y) 0) as [Q|Q], (Req_EM_T r 0) as [W|W]; try reflexivity; exfalso; tauto.
  - intros x y r b Ix Iy _ E F. cbn [exact3 n_corr_test code3]. assert (R1 := pearson_bound _ _ _ E). assert (R2 : -1 < r < 1). { rewrite fisher_test_eq in F by exact R1. destruct (Rlt_dec (Rabs r) 1) as [A|]; [|discriminate]. apply Rabs_def2 in A. lra. }
    rewrite fisher3 in F by (lra || lia). injection F as <-. destruct (Req_EM_T r 0); reflexivity.
  - intros x y z rxy rxz ryz p b Ix Iy Iz ND Exy Exz Eyz Pa F. cbn [exact3 n_partial]. assert (Nz := partial3_nonzero x y z rxy rxz ryz p Ix Iy Iz ND Exy Exz Eyz Pa).
    destruct b; [|reflexivity]. exfalso. unfold fisher_test in F. destruct (Req_EM_T (1 - p) 0) as [|Q1]; [discriminate|]. destruct (Rle_dec ((1 + p) / (1 - p)) 0) as [|Q2]; [discriminate|].
    assert (R2 : -1 < p < 1).
    { apply Rnot_le_lt in Q2. destruct (Rlt_dec p 1) as [L|L].
      - split; [|exact L]. apply Rnot_le_lt. intros G. apply (Rlt_irrefl 0). apply (Rlt_le_trans _ _ _ Q2). apply (Rmult_le_reg_r (1 - p)); [lra|]. unfold Rdiv. rewrite Rmult_assoc, Rinv_l by lra. lra.
      - exfalso. assert (p > 1) by lra. assert (I : / (1 - p) < 0) by (apply Rinv_lt_0_compat; lra). unfold Rdiv in Q2. assert (0 < 1 + p) by lra. nra. }
    assert (G := fisher3 1 p R2 ltac:(lia)). unfold fisher_test in G. destruct (Req_EM_T (1 - p) 0) as [|_]; [contradiction|]. destruct (Rle_dec ((1 + p) / (1 - p)) 0) as [|_]; [contradiction|]. rewrite F in G. destruct (Req_EM_T p 0); [contradiction|discriminate].
  - intros x y S P b ND Il NS Inv F. cbn [exact3 n_matrix]. destruct (sets3 x y S ND Il) as [->|[z ->]]; [contradiction|]. destruct (matrix3 x y z P ND Il Inv) as [Nz R2]. cbn [List.length] in F. rewrite fisher3 in F by (exact R2 || lia). destruct (Req_EM_T _ 0); [contradiction|]. injection F as <-. reflexivity.
Qed.
Lemma detected3 es : linear_data 8 names3 es colf -> (forall x y, In x names3 -> In y names3 -> x <> y -> Zc x y = 0%Z -> dsep (arrows es) x y []) -> detected Phi3 (1 / 100) 8 names3 (arrows es) colf.
Proof.
  intros LD Hd x y S P ND Il NS Inv. destruct (sets3 x y S ND Il) as [->|[z ->]]; cbn [List.length] in *.
  - assert (Ix : In x names3) by (apply Il; left; reflexivity). assert (Iy : In y names3) by (apply Il; right; left; reflexivity). assert (Ne : x <> y) by (intros ->; inversion ND as [|a l A B]; subst; apply A; left; reflexivity).
    assert (Pe := pair_par IZR 8 vals names3 es ltac:(lia) LD x y P Ix Iy Ne Inv). assert (St := matrix_par_strict 8 (col x) (col y) [] P ltac:(lia) (obs3 _ Il) Inv). cbn [List.length] in St.
    rewrite fisher3 by (exact St || lia). destruct (Req_EM_T _ 0) as [Z|]; [|reflexivity]. exfalso. apply NS, Hd; try assumption. apply (pearson3_zero x y _ Ix Iy Pe). exact Z.
  - destruct (matrix3 x y z P ND Il Inv) as [Nz R2]. rewrite fisher3 by (exact R2 || lia). destruct (Req_EM_T _ 0); [contradiction|reflexivity].
Qed.
End Three.
