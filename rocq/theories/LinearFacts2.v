(* What the tests calculate on data that follow linear structural equations. *)
From Coq Require Import Reals List Lia Lra.
From Verif Require Import Base PyDict Graph SampleGen SampleSpec Dag SkelSpec Numeric NumericSpec NumericFacts NumericFacts2 LinearSpec UnitsFacts LinearFacts.
Import ListNotations.
Open Scope R_scope.

Lemma sumn_lseq m (f : nat -> R) : sumn m f = lsum f (seq 0 m).
Proof. induction m as [|m IH]; [reflexivity|]. rewrite seq_S, map_app. cbn [sumn]. rewrite IH. clear. induction (seq 0 m) as [|a l IH]; cbn; [ring|]. cbn in IH. lra. Qed.

(* ---- independent vectors have an invertible Gram matrix ---- *)
Section Gram.
Variables (n : nat) (X : nat -> nat -> R).
Notation G i j := (ip n (X i) (X j)).
Definition independent (m : nat) : Prop := forall c, (forall t, (t < n)%nat -> sumn m (fun k => c k * X k t) = 0) -> forall k, (k < m)%nat -> c k = 0.
Lemma gram_inverse m : independent m -> exists P : matrix, forall i j, (i < m)%nat -> (j < m)%nat -> sumn m (fun k => P i k * G k j) = if Nat.eq_dec i j then 1 else 0.
Proof.
  induction m as [|m IH]; intros In; [exists (fun _ _ => 0); intros; lia|].
  destruct IH as [P HP].
  { intros c H k Hk. set (c' := fun i => if Nat.eq_dec i m then 0 else c i). assert (Z : c' k = 0).
    { apply (In c'); [|lia]. intros t Ht. cbn [sumn]. unfold c' at 2. destruct (Nat.eq_dec m m); [|contradiction]. rewrite (sumn_ext m _ (fun k => c k * X k t)); [rewrite H by exact Ht; ring|].
      intros i Hi. unfold c'. destruct (Nat.eq_dec i m); [lia|reflexivity]. }
    unfold c' in Z. destruct (Nat.eq_dec k m); [lia|exact Z]. }
  set (q := fun k => if Nat.eq_dec k m then 1 else - sumn m (fun i => G m i * P i k)).
  assert (qm : q m = 1) by (unfold q; destruct (Nat.eq_dec m m); [reflexivity|contradiction]).
  assert (ql : forall k, (k < m)%nat -> q k = - sumn m (fun i => G m i * P i k)) by (intros k Hk; unfold q; destruct (Nat.eq_dec k m); [lia|reflexivity]).
  set (e := fun t => sumn (S m) (fun k => q k * X k t)).
  assert (eX : forall j, ip n e (X j) = sumn (S m) (fun k => q k * G k j)) by (intros j; apply ip_comb).
  assert (e0 : forall j, (j < m)%nat -> ip n e (X j) = 0).
  { intros j Hj. rewrite eX. cbn [sumn]. rewrite qm. rewrite (sumn_ext m _ (fun k => (-1) * sumn m (fun i => G m i * (P i k * G k j)))).
    - rewrite sumn_scale, sumn_swap. rewrite (sumn_ext m _ (fun i => G m i * (if Nat.eq_dec i j then 1 else 0))).
      + rewrite (sumn_single m j); [|exact Hj|intros k _ Nk; destruct (Nat.eq_dec k j); [contradiction|ring]]. destruct (Nat.eq_dec j j); [ring|contradiction].
      + intros i Hi. rewrite sumn_scale, HP by assumption. reflexivity.
    - intros k Hk. rewrite ql by exact Hk. rewrite (sumn_ext m (fun i => G m i * (P i k * G k j)) (fun i => G k j * (G m i * P i k))) by (intros; ring). rewrite sumn_scale. ring. }
  set (s := ip n e (X m)). assert (ss : ip n e e = s).
  { unfold e at 1. rewrite ip_comb. cbn [sumn]. rewrite qm, (sumn_ext m _ (fun _ => 0)), sumn_zero; [|intros k Hk; rewrite (ip_sym n (X k)), e0 by exact Hk; ring]. rewrite ip_sym. fold s. ring. }
  assert (sn : s <> 0). { intros Z. rewrite Z in ss. assert (q m = 0); [|lra]. apply (In q); [|lia]. intros t Ht. apply (ip_zero n e ss t Ht). }
  set (d := fun i => sumn m (fun k => P i k * G k m)).
  exists (fun i k => if Nat.eq_dec i m then q k / s else (if Nat.eq_dec k m then 0 else P i k) - d i / s * q k). intros i j Hi Hj.
  destruct (Nat.eq_dec i m) as [->|Ni].
  - rewrite (sumn_ext (S m) _ (fun k => / s * (q k * G k j))) by (intros; field; exact sn). rewrite sumn_scale, <- eX. destruct (Nat.eq_dec m j) as [<-|Nj]; [fold s; field; exact sn|]. rewrite e0 by lia. ring.
  - rewrite (sumn_ext (S m) _ (fun k => (if Nat.eq_dec k m then 0 else P i k) * G k j - d i / s * (q k * G k j))) by (intros; ring).
    rewrite sumn_minus, sumn_scale, <- eX. cbn [sumn]. destruct (Nat.eq_dec m m); [|contradiction].
    rewrite (sumn_ext m _ (fun k => P i k * G k j)) by (intros k Hk; destruct (Nat.eq_dec k m); [lia|reflexivity]). destruct (Nat.eq_dec j m) as [->|Nj].
    + fold (d i). fold s. destruct (Nat.eq_dec i m); [contradiction|]. field. exact sn.
    + rewrite HP, e0 by lia. ring.
Qed.
End Gram.

Section Data.
Variables (n : nat) (ns : list id) (es : list (sedge R)) (col : id -> list R).
Hypothesis Hn : (0 < n)%nat.
Hypothesis ND : NoDup ns.
Hypothesis LD : linear_data n ns es col.
Notation X := (fun v t => at_ (center (col v)) t).
Notation D := (arrows es).
Let DO := ld_dag _ _ _ _ LD.
Let Len := ld_length _ _ _ _ LD.
Definition level (w : id) : R := left_over es (fun v => mean (col v)) w.
Lemma source_in e w : In e (incoming es w) -> In (se_from e) ns.
Proof. intros H. apply (do_nodes _ _ DO _ w). apply incoming_edge. exact H. Qed.
Lemma centered_noise w t : In w ns -> (t < n)%nat -> left_over es (fun v => X v t) w = noise es col w t - level w.
Proof.
  intros I Ht. unfold left_over, noise, level, left_over. rewrite center_at by (rewrite Len by exact I; exact Ht).
  rewrite (lsum_ext (fun e => se_value e * at_ (center (col (se_from e))) t) (fun e => se_value e * at_ (col (se_from e)) t - se_value e * mean (col (se_from e)))).
  - rewrite lsum_minus. ring.
  - intros e He. rewrite center_at by (rewrite Len by exact (source_in e w He); exact Ht). ring.
Qed.
Lemma noise_sum w : In w ns -> sumn n (noise es col w) = INR n * level w.
Proof.
  intros I. unfold noise, level, left_over. rewrite sumn_minus, (mean_eq (col w) n (Len w I) Hn), (sumn_lsum n (fun e t => se_value e * at_ (col (se_from e)) t)).
  rewrite (lsum_ext (fun e => sumn n (fun t => se_value e * at_ (col (se_from e)) t)) (fun e => INR n * (se_value e * mean (col (se_from e))))).
  - rewrite vsum_map_scale. ring.
  - intros e He. rewrite sumn_scale. fold (at_ (col (se_from e))). rewrite (mean_eq (col (se_from e)) n (Len _ (source_in e w He)) Hn). ring.
Qed.
Lemma INRn : INR n <> 0.
Proof. apply not_0_INR. lia. Qed.
Lemma ip_noise u v : In u ns -> In v ns -> INR n * ip n (fun t => left_over es (fun v => X v t) u) (fun t => left_over es (fun v => X v t) v) =
  INR n * sumn n (fun t => noise es col u t * noise es col v t) - sumn n (noise es col u) * sumn n (noise es col v).
Proof.
  intros Iu Iv. unfold ip. rewrite (sumn_ext n _ (fun t => noise es col u t * noise es col v t - level v * noise es col u t - level u * noise es col v t + level u * level v)).
  - rewrite sumn_plus, !sumn_minus, !sumn_scale, sumn_const. fold (noise es col u). fold (noise es col v). rewrite (noise_sum u Iu), (noise_sum v Iv). ring.
  - intros t Ht. rewrite !centered_noise by assumption. ring.
Qed.
Lemma noise_orthogonal u v : In u ns -> In v ns -> u <> v -> ip n (fun t => left_over es (fun v => X v t) u) (fun t => left_over es (fun v => X v t) v) = 0.
Proof.
  intros Iu Iv Ne. assert (H := ip_noise u v Iu Iv). assert (U := ld_noise _ _ _ _ LD u v Iu Iv Ne). unfold uncorrelated in U. rewrite U in H. apply (Rmult_eq_reg_l (INR n)); [|exact INRn]. lra.
Qed.

Section Separated.
Variables (x y : id) (S : list id).
Hypothesis Ix : In x ns.
Hypothesis Iy : In y ns.
Hypothesis IS : forall s, In s S -> In s ns.
Hypothesis Nxy : x <> y.
Hypothesis Sx : ~ In x S.
Hypothesis Sy : ~ In y S.
Hypothesis Sep : dsep D x y S.
Lemma obs : observations n (map col S).
Proof. intros v I. apply in_map_iff in I. destruct I as (s & <- & I). apply Len, IS, I. Qed.
Lemma nth_col j : (j < List.length S)%nat -> nth j (map col S) [] = col (nth j S ""%string).
Proof. intros H. rewrite (nth_indep _ [] (col ""%string)) by (rewrite map_length; exact H). apply map_nth. Qed.
Lemma residual_y ex : residual n (col x) (map col S) ex -> ip n (X y) (at_ ex) = 0.
Proof.
  intros Re. destruct (residual_centered n (col x) (map col S) ex Hn (Len x Ix) obs Re) as (b & Eq & Or). rewrite map_length in Eq, Or.
  apply (orthogonal ns es ND DO n X noise_orthogonal x y S b Ix Iy IS Nxy Sx Sy Sep (at_ ex)).
  - intros t Ht. rewrite (Eq t Ht), sumn_lseq. f_equal. apply lsum_ext. intros j Hj. apply in_seq in Hj. rewrite nth_col by lia. reflexivity.
  - intros s I. destruct (In_nth S s ""%string I) as (j & Hj & <-). rewrite <- (Or j Hj), nth_col by exact Hj. reflexivity.
Qed.
Lemma residuals_orthogonal ex ey : residual n (col x) (map col S) ex -> residual n (col y) (map col S) ey -> sumn n (fun t => at_ ex t * at_ ey t) = 0.
Proof.
  intros Rx Ry. assert (Z : ip n (at_ (center (col y))) (at_ ex) = 0) by exact (residual_y ex Rx). destruct (residual_centered n (col x) (map col S) ex Hn (Len x Ix) obs Rx) as (b & _ & Or). rewrite map_length in Or.
  destruct (residual_centered n (col y) (map col S) ey Hn (Len y Iy) obs Ry) as (b' & Eq & _). rewrite map_length in Eq.
  change (ip n (at_ ex) (at_ ey) = 0). rewrite ip_sym, (ip_ext n _ _ (at_ ex) (at_ ex) Eq (fun _ _ => eq_refl)), (ip_minus n (at_ (center (col y)))), Z.
  rewrite (ip_comb n (List.length S) b' (fun j t => at_ (center (nth j (map col S) [])) t)). rewrite (sumn_ext _ _ (fun _ => 0)), sumn_zero; [ring|]. intros j Hj. rewrite Or by exact Hj. ring.
Qed.
Lemma separated_par P : (2 <= n)%nat -> inverts (List.length (x :: y :: S)) P (cov (map col (x :: y :: S))) -> matrix_par (List.length (x :: y :: S)) P = 0.
Proof.
  intros H2 Inv. assert (Ob : observations n (map col (x :: y :: S))) by (intros v I; apply in_map_iff in I; destruct I as (s & <- & [<-|[<-|I]]); [apply Len; exact Ix|apply Len; exact Iy|apply Len, IS, I]).
  cbn [map] in *. assert (Inv' : inverts (List.length (col x :: col y :: map col S)) P (cov (col x :: col y :: map col S))) by (cbn [List.length] in *; rewrite map_length; exact Inv).
  destruct (residuals_exist n (col x) (col y) (map col S) P H2 Ob Inv') as [[ex Ex] [ey Ey]].
  assert (M := matrix_residuals n (col x) (col y) (map col S) P ex ey H2 Ob Inv' Ex Ey). cbn [List.length] in M |- *. rewrite map_length in M. rewrite M. unfold cosine.
  assert (Lx : List.length ex = n) by apply Ex. rewrite Lx, (residuals_orthogonal ex ey Ex Ey). unfold Rdiv. ring.
Qed.
End Separated.

Lemma center_residual v : In v ns -> residual n (col v) [] (center (col v)).
Proof.
  intros I. split; [rewrite center_length; apply Len, I|]. exists (mean (col v)), []. split; [reflexivity|]. split; [|split; [|intros j Hj; cbn in Hj; lia]].
  - intros t Ht. rewrite center_at by (rewrite Len by exact I; exact Ht). cbn. ring.
  - assert (Z := center_sum (col v)). rewrite vsum_sumn, center_length, (Len v I) in Z. exact Z.
Qed.
Lemma separated_pearson x y r : In x ns -> In y ns -> x <> y -> dsep D x y [] -> pearson (col x) (col y) = Some r -> r = 0.
Proof.
  intros Ix Iy Ne Sep Pe. rewrite (pearson_cosine n) in Pe by (auto using Len). destruct (Req_EM_T _ 0); [discriminate|]. injection Pe as <-. rewrite (cosine_ip n) by (rewrite center_length; auto).
  assert (Z := residuals_orthogonal x y [] Ix Iy (fun s (I : In s []) => match I with end) Ne (fun I => I) (fun I => I) Sep (center (col x)) (center (col y)) (center_residual x Ix) (center_residual y Iy)).
  unfold ip at 1. rewrite Z. unfold Rdiv. ring.
Qed.
Lemma separated_partial x y z rxy rxz ryz : In x ns -> In y ns -> In z ns -> x <> y -> x <> z -> y <> z -> dsep D x y [z] ->
  pearson (col x) (col y) = Some rxy -> pearson (col x) (col z) = Some rxz -> pearson (col y) (col z) = Some ryz -> rxy = rxz * ryz.
Proof.
  intros Ix Iy Iz Nxy Nxz Nyz Sep Pxy Pxz Pyz. rewrite (pearson_cosine n) in Pxy, Pxz, Pyz by (auto using Len).
  destruct (Req_EM_T (ip n (at_ (center (col x))) _ * _) 0) as [|Qxy]; [discriminate|]. injection Pxy as <-. destruct (Req_EM_T (ip n (at_ (center (col x))) _ * _) 0) as [|Qxz]; [discriminate|]. injection Pxz as <-.
  destruct (Req_EM_T _ 0) as [|Qyz]; [discriminate|]. injection Pyz as <-. rewrite !(cosine_ip n) by (rewrite center_length; auto).
  set (xx := ip n (at_ (center (col x))) (at_ (center (col x)))) in *. set (yy := ip n (at_ (center (col y))) (at_ (center (col y)))) in *. set (zz := ip n (at_ (center (col z))) (at_ (center (col z)))) in *.
  assert (Px : 0 < xx) by (assert (0 <= xx) by apply ip_nonneg; destruct (Req_EM_T xx 0) as [E|E]; [exfalso; apply Qxy; rewrite E; ring|lra]).
  assert (Py : 0 < yy) by (assert (0 <= yy) by apply ip_nonneg; destruct (Req_EM_T yy 0) as [E|E]; [exfalso; apply Qxy; rewrite E; ring|lra]).
  assert (Pz : 0 < zz) by (assert (0 <= zz) by apply ip_nonneg; destruct (Req_EM_T zz 0) as [E|E]; [exfalso; apply Qxz; rewrite E; ring|lra]).
  set (xz := ip n (at_ (center (col x))) (at_ (center (col z)))). set (yz := ip n (at_ (center (col y))) (at_ (center (col z)))). set (xy := ip n (at_ (center (col x))) (at_ (center (col y)))).
  assert (F : xy = xz * yz / zz).
  { assert (O := orthogonal ns es ND DO n X noise_orthogonal x y [z] (fun _ => xz / zz) Ix Iy ltac:(intros s [<-|[]]; exact Iz) Nxy ltac:(intros [E|[]]; exact (Nxz (eq_sym E))) ltac:(intros [E|[]]; exact (Nyz (eq_sym E))) Sep
      (fun t => at_ (center (col x)) t - xz / zz * at_ (center (col z)) t) ltac:(intros t _; cbn; ring)).
    rewrite ip_sym, ip_minus, ip_scale in O. rewrite (ip_sym n (at_ (center (col z)))) in O. change (fun t => at_ (center (col x)) t) with (at_ (center (col x))) in O. fold xy in O.
    change (fun t => at_ (center (col y)) t) with (at_ (center (col y))) in O. fold xy yz in O.
    assert (O' : xy - xz / zz * yz = 0). { apply O. intros s [<-|[]]. rewrite ip_sym, ip_minus, ip_scale. change (fun t => at_ (center (col z)) t) with (at_ (center (col z))). fold xz zz. field. lra. }
    replace (xz * yz / zz) with (xz / zz * yz) by (field; lra). lra. }
  rewrite F. assert (A := sqrt_lt_R0 xx Px). assert (B := sqrt_lt_R0 yy Py). assert (C := sqrt_lt_R0 zz Pz). assert (Q := sqrt_sqrt zz (Rlt_le _ _ Pz)). rewrite <- Q at 1. field. repeat split; lra.
Qed.

(* ---- the covariance matrix is invertible if every variable has noise of its own ---- *)
Hypothesis Va : forall v, In v ns -> varies n (noise es col v).
Lemma columns_independent l : NoDup l -> (forall v, In v l -> In v ns) -> independent n (fun k t => X (nth k l ""%string) t) (List.length l).
Proof.
  intros NDl Il c H k Hk. set (L := map (fun k => (c k, nth k l ""%string)) (seq 0 (List.length l))).
  destruct (expand ns es ND DO L) as (m & _ & B). { intros p Hp. apply in_map_iff in Hp. destruct Hp as (j & <- & Hj). apply Il, nth_In. apply in_seq in Hj. lia. }
  assert (BL : forall g, sumn (List.length l) (fun k => c k * g (nth k l ""%string)) = lsum (fun w => m w * left_over es g w) ns) by (intros g; rewrite <- B; unfold L; rewrite map_map, sumn_lseq; reflexivity).
  assert (M0 : forall w, In w ns -> m w = 0).
  { intros w Iw. set (N := fun w t => left_over es (fun v => X v t) w). assert (Z : ip n (fun t => lsum (fun v => m v * N v t) ns) (N w) = 0).
    { rewrite (ip_ext n _ (fun _ => 0) (N w) (N w)); [unfold ip; rewrite (sumn_ext n _ (fun _ => 0)) by (intros; ring); apply sumn_zero| |reflexivity]. intros t Ht. rewrite <- (H t Ht). symmetry. apply (BL (fun v => X v t)). }
    rewrite ip_lsum in Z. rewrite (lsum_single (fun v => m v * ip n (N v) (N w)) ns w ND Iw) in Z by (intros v Iv Nv; unfold N; rewrite noise_orthogonal by assumption; ring).
    destruct (Req_EM_T (m w) 0) as [|Nz]; [assumption|]. exfalso. apply (Va w Iw). unfold uncorrelated. assert (Q : INR n * ip n (N w) (N w) = INR n * sumn n (fun t => noise es col w t * noise es col w t) - sumn n (noise es col w) * sumn n (noise es col w)) by exact (ip_noise w w Iw Iw).
    assert (Q0 : ip n (N w) (N w) = 0) by (apply (Rmult_eq_reg_l (m w)); [rewrite Z; ring|exact Nz]). rewrite Q0 in Q. lra. }
  assert (F := BL (fun v => if string_dec v (nth k l ""%string) then 1 else 0)). rewrite (lsum_ext (fun w => m w * _) (fun _ => 0)), lsum_zero in F by (intros w Iw; rewrite M0 by exact Iw; ring).
  rewrite (sumn_single _ k) in F; [|exact Hk|].
  - destruct (string_dec (nth k l ""%string) (nth k l ""%string)); [lra|contradiction].
  - intros j Hj Nj. destruct (string_dec (nth j l ""%string) (nth k l ""%string)) as [E|]; [|ring]. exfalso. apply Nj. apply (proj1 (NoDup_nth l ""%string) NDl j k Hj Hk E).
Qed.
Lemma covariance_inverse l : (2 <= n)%nat -> NoDup l -> (forall v, In v l -> In v ns) -> exists P, inverts (List.length l) P (cov (map col l)).
Proof.
  intros H2 NDl Il. destruct (gram_inverse n (fun k t => X (nth k l ""%string) t) (List.length l) (columns_independent l NDl Il)) as [P HP].
  exists (fun i k => (INR n - 1) * P i k). intros i j Hi Hj. rewrite <- (HP i j Hi Hj). apply sumn_ext. intros k Hk. unfold cov.
  assert (NC : forall i, (i < List.length l)%nat -> nth i (map col l) [] = col (nth i l ""%string)) by (intros a Ha; rewrite (nth_indep _ [] (col ""%string)) by (rewrite map_length; exact Ha); apply map_nth).
  rewrite !NC by assumption. assert (L : forall i, (i < List.length l)%nat -> List.length (col (nth i l ""%string)) = n) by (intros a Ha; apply Len, Il, nth_In, Ha).
  rewrite (dot_ip _ _ n) by (rewrite center_length; apply L; assumption). rewrite L by assumption. assert (P1 := s_pos n H2). assert (INR n - 1 <> 0) by (intros Z; rewrite Z, Rinv_0 in P1; lra).
  change (fun t => at_ (center (col (nth k l ""%string))) t) with (at_ (center (col (nth k l ""%string)))). change (fun t => at_ (center (col (nth j l ""%string))) t) with (at_ (center (col (nth j l ""%string)))). field. assumption.
Qed.
End Data.
