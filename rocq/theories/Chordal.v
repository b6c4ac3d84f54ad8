(* Graphs with a perfect elimination order, for the completeness of Meek's rules: any vertex can be put last. *)
From Coq Require Import Permutation.
From Verif Require Import Base Graph Dag.
Open Scope list_scope.
Open Scope nat_scope.

(* ---- a finite acyclic relation has a sink ---- *)
Lemma repeated (l : list id) : ~ NoDup l -> exists x p q r, l = p ++ x :: q ++ x :: r.
Proof.
  induction l as [|a l IH]; intros N; [destruct N; constructor|]. destruct (in_dec string_dec a l) as [M|M].
  - apply in_split in M. destruct M as (q & r & ->). exists a, [], q, r. reflexivity.
  - destruct IH as (x & p & q & r & ->). { intros D. apply N. constructor; assumption. } exists x, (a :: p), q, r. reflexivity.
Qed.
Lemma chain_tail (R : id -> id -> Prop) p l : chain R (p ++ l) -> chain R l.
Proof.
  induction p as [|a p IH]; intros C; [exact C|]. apply IH. cbn in C. destruct (p ++ l) as [|b m]; [constructor|]. inversion C; subst; assumption.
Qed.
Lemma chain_plus (R : id -> id -> Prop) x q y r : chain R (x :: q ++ y :: r) -> reach_plus R x y.
Proof.
  revert x. induction q as [|z q IH]; intros x C; cbn in C; inversion C as [| |a b l H C']; subst.
  - exists y. split; [exact H|constructor].
  - destruct (IH z C') as (w & W1 & W2). exists z. split; [exact H|]. econstructor; eassumption.
Qed.
Lemma sink_exists (E : id -> id -> Prop) (dec : forall x y, {E x y} + {~ E x y}) l : acyclic E -> l <> [] -> exists v, In v l /\ forall x, In x l -> ~ E v x.
Proof.
  intros AC NE. assert (S : forall m, (exists v, In v m /\ forall x, In x l -> ~ E v x) \/ forall v, In v m -> exists x, In x l /\ E v x).
  { induction m as [|a m [(v & V1 & V2)|IH]]; [right; intros v []|left; exists v; split; [right; exact V1|exact V2]|].
    destruct (Exists_dec (E a) l (dec a)) as [X|X].
    - right. intros v [<-|Hv]; [apply Exists_exists in X; destruct X as (x & X1 & X2); eauto|auto].
    - left. exists a. split; [left; reflexivity|]. intros x Hx H. apply X, Exists_exists. eauto. }
  destruct (S l) as [H|H]; [exact H|]. exfalso.
  assert (W : forall k a, In a l -> exists w, List.length w = k /\ chain E (a :: w) /\ forall x, In x w -> In x l).
  { induction k as [|k IH]; intros a Ha; [exists []; split; [reflexivity|split; [constructor|intros x []]]|]. destruct (H a Ha) as (x & Hx & Ex). destruct (IH x Hx) as (w & W1 & W2 & W3).
    exists (x :: w). split; [cbn; lia|]. split; [constructor; assumption|]. intros y [<-|Hy]; auto. }
  destruct l as [|a l0] eqn:El; [congruence|]. rewrite <- El in *. assert (Ha : In a l) by (rewrite El; left; reflexivity). destruct (W (List.length l) a Ha) as (w & W1 & W2 & W3).
  destruct (repeated (a :: w)) as (x & p & q & r & Eq).
  { intros D. assert (L : List.length (a :: w) <= List.length l) by (apply NoDup_incl_length; [exact D|intros y [<-|Hy]; auto]). cbn in L. lia. }
  rewrite Eq in W2. apply chain_tail in W2. exact (AC x (chain_plus E x q x r W2)).
Qed.

(* ---- positions in a list ---- *)
Fixpoint pos (l : list id) (x : id) : nat := match l with [] => 0 | a :: r => if string_dec a x then 0 else S (pos r x) end.
Lemma pos_inj l x y : In x l -> In y l -> pos l x = pos l y -> x = y.
Proof.
  induction l as [|a l IH]; intros Hx Hy; [destruct Hx|]. cbn. destruct (string_dec a x), (string_dec a y); intros P; try discriminate; [congruence|]. injection P as P.
  destruct Hx as [->|Hx]; [congruence|]. destruct Hy as [->|Hy]; [congruence|]. auto.
Qed.
Lemma pos_lt l x : In x l -> pos l x < List.length l.
Proof. induction l as [|a l IH]; intros Hx; [destruct Hx|]. cbn. destruct (string_dec a x); [lia|]. destruct Hx as [->|Hx]; [congruence|]. specialize (IH Hx). lia. Qed.
Lemma pos_last l a : ~ In a l -> pos (l ++ [a]) a = List.length l.
Proof. induction l as [|b l IH]; intros N; cbn; [destruct (string_dec a a); congruence|]. destruct (string_dec b a) as [->|_]; [destruct N; left; reflexivity|]. rewrite IH; [reflexivity|]. intros H; apply N; right; exact H. Qed.

Section Chordal.
Variable U : id -> id -> Prop.
Hypothesis Usym : forall x y, U x y -> U y x.
Hypothesis Udec : forall x y, {U x y} + {~ U x y}.
Hypothesis Uirr : forall x, ~ U x x.

Definition clique (l : list id) : Prop := forall x y, In x l -> In y l -> x <> y -> U x y.
Definition simplicial (v : id) (l : list id) : Prop := forall x y, In x l -> In y l -> U v x -> U v y -> x <> y -> U x y.
Fixpoint perfect (l : list id) : Prop := match l with [] => True | v :: r => simplicial v r /\ perfect r end.
Definition rm (a : id) (l : list id) : list id := filter (fun x => if string_dec x a then false else true) l.
Lemma rm_In a l x : In x (rm a l) <-> In x l /\ x <> a.
Proof. unfold rm. rewrite filter_In. destruct (string_dec x a); intuition congruence. Qed.
Lemma rm_NoDup a l : NoDup l -> NoDup (rm a l).
Proof. apply NoDup_filter. Qed.
Lemma rm_length a l : NoDup l -> In a l -> S (List.length (rm a l)) = List.length l.
Proof.
  induction l as [|b l IH]; intros ND Ha; [destruct Ha|]. inversion ND as [|? ? N1 N2]; subst. cbn. destruct (string_dec b a) as [->|Ne].
  - f_equal. clear IH Ha ND N2. induction l as [|c l IH]; [reflexivity|]. cbn. destruct (string_dec c a) as [->|_]; [destruct N1; left; reflexivity|]. cbn. rewrite IH; [reflexivity|]. intros H; apply N1; right; exact H.
  - cbn. f_equal. apply IH; [exact N2|]. destruct Ha as [->|Ha]; [congruence|exact Ha].
Qed.
Lemma simplicial_sub v l m : (forall x, In x m -> In x l) -> simplicial v l -> simplicial v m.
Proof. intros I S x y Hx Hy. apply S; auto. Qed.
Lemma perfect_rm a l : perfect l -> perfect (rm a l).
Proof.
  induction l as [|v l IH]; intros P; [exact I|]. destruct P as [S P]. cbn. destruct (string_dec v a); [apply IH; exact P|]. split; [|apply IH; exact P].
  eapply simplicial_sub; [|exact S]. intros x Hx. change (filter (fun x => if string_dec x a then false else true) l) with (rm a l) in Hx. apply rm_In in Hx. tauto.
Qed.
Lemma two_simplicial l : NoDup l -> perfect l -> clique l \/ exists x y, In x l /\ In y l /\ x <> y /\ ~ U x y /\ simplicial x l /\ simplicial y l.
Proof.
  induction l as [|v l IH]; intros ND P; [left; intros x y []|]. inversion ND as [|? ? Nv ND']; subst. destruct P as [S P].
  assert (Sv : simplicial v (v :: l)).
  { intros x y [<-|Hx] [<-|Hy] A B Ne; [congruence|destruct (Uirr _ A)|destruct (Uirr _ B)|]. apply S; assumption. }
  destruct (IH ND' P) as [C|(x & y & Hx & Hy & Ne & NU & Sx & Sy)].
  - destruct (Forall_Exists_dec (U v) (Udec v) l) as [F|X].
    + left. rewrite Forall_forall in F. intros x y [<-|Hx] [<-|Hy] Ne; [congruence|apply F; exact Hy|apply Usym, F; exact Hx|apply C; assumption].
    + right. apply Exists_exists in X. destruct X as (w & Hw & Nw). exists v, w. split; [left; reflexivity|]. split; [right; exact Hw|]. split; [intros ->; contradiction|]. split; [exact Nw|]. split; [exact Sv|].
      intros x y [<-|Hx] [<-|Hy] A B Ne; [congruence|destruct Nw; apply Usym; exact A|destruct Nw; apply Usym; exact B|]. apply C; assumption.
  - right.
    assert (K : forall z, In z l -> simplicial z l -> ~ U v z -> exists x y, In x (v :: l) /\ In y (v :: l) /\ x <> y /\ ~ U x y /\ simplicial x (v :: l) /\ simplicial y (v :: l)).
    { intros z Hz Sz Nz. exists v, z. split; [left; reflexivity|]. split; [right; exact Hz|]. split; [intros ->; contradiction|]. split; [exact Nz|]. split; [exact Sv|].
      intros a b [<-|Ha] [<-|Hb] A B Nab; [congruence|destruct Nz; apply Usym; exact A|destruct Nz; apply Usym; exact B|]. apply Sz; assumption. }
    destruct (Udec v x) as [Ux|Nx]; [|exact (K x Hx Sx Nx)]. destruct (Udec v y) as [Uy|Ny]; [|exact (K y Hy Sy Ny)]. destruct NU. apply S; assumption.
Qed.
Lemma other_simplicial l a : NoDup l -> perfect l -> In a l -> 2 <= List.length l -> exists v, In v l /\ v <> a /\ simplicial v l.
Proof.
  intros ND P Ha L. destruct (two_simplicial l ND P) as [C|(x & y & Hx & Hy & Ne & _ & Sx & Sy)].
  - assert (X : exists v, In v l /\ v <> a).
    { destruct l as [|b [|c l]]; cbn in L; try lia. destruct (string_dec b a) as [->|Nb]; [|exists b; split; [left; reflexivity|exact Nb]].
      exists c. split; [right; left; reflexivity|]. inversion ND as [|? ? N1 _]; subst. intros ->. apply N1; left; reflexivity. }
    destruct X as (v & Hv & Nv). exists v. split; [exact Hv|]. split; [exact Nv|]. intros x y Hx Hy _ _ Ne. apply C; assumption.
  - destruct (string_dec x a) as [->|Nx]; [exists y; split; [exact Hy|split; [congruence|exact Sy]]|exists x; auto].
Qed.
Lemma reroot : forall n l a, List.length l = n -> NoDup l -> perfect l -> In a l ->
  exists m, NoDup (m ++ [a]) /\ perfect (m ++ [a]) /\ (forall x, In x (m ++ [a]) <-> In x l) /\ List.length (m ++ [a]) = n.
Proof.
  induction n as [|n IH]; intros l a L ND P Ha; [destruct l; [destruct Ha|discriminate]|]. destruct n as [|n].
  - destruct l as [|b [|c l]]; try discriminate. destruct Ha as [->|[]]. exists []. cbn. split; [exact ND|]. split; [exact P|]. split; [reflexivity|reflexivity].
  - destruct (other_simplicial l a ND P Ha ltac:(lia)) as (v & Hv & Nv & Sv). assert (RL := rm_length v l ND Hv).
    destruct (IH (rm v l) a) as (m & M1 & M2 & M3 & M4); [lia|apply rm_NoDup; exact ND|apply perfect_rm; exact P|apply rm_In; split; [exact Ha|congruence]|].
    exists (v :: m). cbn [app]. split; [constructor; [|exact M1]; rewrite M3, rm_In; tauto|]. split; [split; [|exact M2]|].
    + eapply simplicial_sub; [|exact Sv]. intros x Hx. apply M3, rm_In in Hx. tauto.
    + split; [|cbn; lia]. intros x. cbn. rewrite M3, rm_In. split; [intros [->|[? _]]; assumption|]. intros Hx. destruct (string_dec v x); [left; assumption|right; split; [exact Hx|congruence]].
Qed.
Lemma perfect_pos l z x y : NoDup l -> perfect l -> In z l -> In x l -> In y l -> pos l z < pos l x -> pos l z < pos l y -> U z x -> U z y -> x <> y -> U x y.
Proof.
  induction l as [|v l IH]; intros ND P Hz Hx Hy; [destruct Hz|]. inversion ND as [|? ? Nv ND']; subst. destruct P as [S P]. cbn.
  destruct (string_dec v x); [lia|]. destruct (string_dec v y); [lia|]. destruct Hx as [|Hx]; [contradiction|]. destruct Hy as [|Hy]; [contradiction|].
  destruct (string_dec v z) as [<-|Nz]; intros L1 L2 A B Ne; [apply S; assumption|]. destruct Hz as [|Hz]; [contradiction|]. apply IH; try assumption; lia.
Qed.
End Chordal.
