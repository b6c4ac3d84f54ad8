(* Exact tests on linear data answer by d-separation. *)
From Coq Require Import Reals List Lia Lra.
From Verif Require Import Base PyDict Graph SampleGen SampleSpec Dag IndepTests SkelSpec DsepDec Numeric NumericSpec NumericFacts NumericFacts2 LinearSpec UnitsFacts LinearFacts LinearFacts2 PropsNumeric.
Import ListNotations.
Open Scope R_scope.

Lemma vmul_swap : forall a b, vmul a b = vmul b a.
Proof. induction a as [|u a IH]; intros [|v b]; cbn; try reflexivity. rewrite IH, Rmult_comm. reflexivity. Qed.

Section Exact.
Variables (dec : Z -> R) (code : option R -> Z) (Phi : R -> R) (th : R) (n : nat) (vals : id -> list Z) (ns : list id) (es : list (sedge R)) (N : numerics).
Notation col := (fun v => map dec (vals v)).
Notation D := (arrows es).
Hypothesis H2 : (2 <= n)%nat.
Hypothesis ND : NoDup ns.
Hypothesis LD : linear_data n ns es col.
Hypothesis Va : forall v, In v ns -> varies n (noise es col v).
Hypothesis P0 : Phi 0 = 1 / 2.
Hypothesis Ht : th < 1.
Hypothesis De : detected Phi th n ns D col.
Hypothesis EX : exact_tests dec code Phi th n vals ns N.
Let Hn : (0 < n)%nat. Proof. lia. Qed.
Lemma obs_of l : (forall z, In z l -> In z ns) -> observations n (map col l).
Proof. intros H v I. apply in_map_iff in I. destruct I as (s & <- & I). apply (ld_length _ _ _ _ LD), H, I. Qed.
Lemma vals_length v : In v ns -> List.length (vals v) = n.
Proof. intros I. rewrite <- (ld_length _ _ _ _ LD v I), map_length. reflexivity. Qed.
(* the exact test on any two variables given others *)
Lemma exact_answer x y S P : NoDup (x :: y :: S) -> (forall z, In z (x :: y :: S) -> In z ns) -> inverts (List.length (x :: y :: S)) P (cov (map col (x :: y :: S))) ->
  exists b, fisher_test Phi th n (List.length S) (matrix_par (List.length (x :: y :: S)) P) = Some b /\ says b (dsep D x y S).
Proof.
  intros NDl Il Inv. assert (NX := NDl). apply NoDup_cons_iff in NX. destruct NX as [Nx NY]. apply NoDup_cons_iff in NY. destruct NY as [Ny _].
  destruct (dsepb D x y S) eqn:Q.
  - assert (Sep : dsep D x y S) by (apply (dsepb_iff D (do_acyclic _ _ (ld_dag _ _ _ _ LD))); exact Q). exists true. split; [|split; auto].
    rewrite (separated_par n ns es col Hn ND LD x y S (Il x ltac:(left; reflexivity)) (Il y ltac:(right; left; reflexivity)) ltac:(intros s Hs; apply Il; right; right; exact Hs)
               ltac:(intros ->; apply Nx; left; reflexivity) ltac:(intros I; apply Nx; right; exact I) Ny Sep P H2 Inv).
    apply C62_zero; [exact P0|exact Ht|]. assert (E := enough_observations n (map col (x :: y :: S)) P H2 (obs_of _ Il)). rewrite map_length in E. specialize (E Inv). cbn [List.length] in E. lia.
  - assert (Sep : ~ dsep D x y S) by (intros X; apply (dsepb_iff D (do_acyclic _ _ (ld_dag _ _ _ _ LD))) in X; congruence). exists false. split; [apply (De x y S P NDl Il Sep Inv)|split; [discriminate|contradiction]].
Qed.
Lemma pair_par x y P : In x ns -> In y ns -> x <> y -> inverts 2 P (cov (map col [x; y])) -> pearson (col x) (col y) = Some (matrix_par 2 P).
Proof.
  intros Ix Iy Ne Inv. assert (Ob : observations n (map col [x; y])) by (apply obs_of; intros z [<-|[<-|[]]]; assumption). cbn [map] in *.
  destruct (C46_partial_correlation n (col x) (col y) [] P H2 Ob Inv) as (_ & M & _). cbn [List.length] in M.
  rewrite (M (center (col x)) (center (col y)) (center_residual n ns es col Hn LD x Ix) (center_residual n ns es col Hn LD y Iy)).
  rewrite (pearson_cosine n _ _ Hn (Ob _ ltac:(left; reflexivity)) (Ob _ ltac:(right; left; reflexivity))). destruct (Req_EM_T _ 0) as [Z|_]; [exfalso|reflexivity].
  set (X := fun k => at_ (center (nth k [col x; col y] []))). assert (Inv' := inv_ip n 2 [col x; col y] P H2 eq_refl Ob Inv).
  assert (V : forall k, (k < 2)%nat -> ip n (X k) (X k) <> 0).
  { intros k Hk Zk. assert (E := Inv' k k Hk Hk). destruct (Nat.eq_dec k k); [|contradiction]. rewrite (sumn_ext 2 _ (fun _ => 0)), sumn_zero in E; [lra|]. intros j _. fold (X j). fold (X k). rewrite (ip_sym n (X j)), (ip_zero_l n (X k) (X j) Zk). ring. }
  apply Rmult_integral in Z. destruct Z as [Z|Z]; [exact (V 0%nat ltac:(lia) Z)|exact (V 1%nat ltac:(lia) Z)].
Qed.
Lemma pair_inverse x y : In x ns -> In y ns -> x <> y -> exists P, inverts 2 P (cov (map col [x; y])).
Proof.
  intros Ix Iy Ne. apply (covariance_inverse n ns es col Hn ND LD Va [x; y] H2); [|intros z [<-|[<-|[]]]; assumption]. constructor; [intros [E|[]]; exact (Ne (eq_sym E))|]. constructor; [intros []|constructor].
Qed.
Lemma pearson_swap x y : pearson (col x) (col y) = pearson (col y) (col x).
Proof.
  unfold pearson. assert (E : mean (vmul (center (col x)) (center (col y))) = mean (vmul (center (col y)) (center (col x)))).
  { rewrite vmul_swap. reflexivity. }
  rewrite E, (Rmult_comm (std (col x))). reflexivity.
Qed.
Lemma linear_perfect : perfect_tests N vals ns D (fun x y => code (pearson (col x) (col y))).
Proof.
  split.
  - intros x y. rewrite pearson_swap. reflexivity.
  - intros x y Ix Iy Ne. apply (et_pearson _ _ _ _ _ _ _ _ EX x y Ix Iy Ne).
  - intros x y Ix Iy Ne. destruct (pair_inverse x y Ix Iy Ne) as [P Inv]. assert (Pe := pair_par x y P Ix Iy Ne Inv). rewrite vals_length by exact Ix. rewrite Pe.
    destruct (exact_answer x y [] P) as (b & Fb & Sb); [constructor; [intros [E|[]]; exact (Ne (eq_sym E))|constructor; [intros []|constructor]]|intros z [<-|[<-|[]]]; assumption|exact Inv|].
    exists b. split; [|exact Sb]. apply (et_corr _ _ _ _ _ _ _ _ EX x y _ b Ix Iy Ne Pe Fb).
  - intros x y z Ix Iy Iz NDl. assert (Il : forall w, In w [x; y; z] -> In w ns) by (intros w [<-|[<-|[<-|[]]]]; assumption).
    destruct (covariance_inverse n ns es col Hn ND LD Va [x; y; z] H2 NDl Il) as [P Inv]. destruct (C46_agree n (col x) (col y) (col z) P H2 (obs_of _ Il) Inv) as (rxy & rxz & ryz & Exy & Exz & Eyz & Pa).
    destruct (exact_answer x y [z] P NDl Il Inv) as (b & Fb & Sb). exists b. split; [|exact Sb]. rewrite vals_length by exact Ix. rewrite Exy, Exz, Eyz.
    apply (et_partial _ _ _ _ _ _ _ _ EX x y z rxy rxz ryz _ b Ix Iy Iz NDl Exy Exz Eyz Pa Fb).
  - intros x y S NDl Il NS. destruct (covariance_inverse n ns es col Hn ND LD Va (x :: y :: S) H2 NDl Il) as [P Inv]. destruct (exact_answer x y S P NDl Il Inv) as (b & Fb & Sb). exists b. split; [|exact Sb].
    apply (et_matrix _ _ _ _ _ _ _ _ EX x y S P b NDl Il NS Inv Fb).
Qed.
End Exact.
