(* A DAG over groups of variables without arrows between them: d-separation and Meek's orientations within a group
   are those of the group alone. *)
From Verif Require Import Base PyDict PyDictFacts Graph GraphSpec GraphFacts PathSpec Pipeline IndepTests Dag DagFacts SkelSpec OrientSpec NamesFacts.
Open Scope list_scope.
Open Scope nat_scope.

Section Group.
Variables (D : list (id * id)) (ns : list id).
Hypothesis Closed : forall x y, In (x, y) D -> (In x ns <-> In y ns).
Definition within : list (id * id) := filter (fun p => existsb (eqb (fst p)) ns) D.
Notation E := (edge_in D).
Notation E' := (edge_in within).

Lemma within_iff x y : E' x y <-> E x y /\ In x ns.
Proof.
  unfold edge_in, within. rewrite filter_In. cbn [fst]. rewrite existsb_exists. split.
  - intros [H (z & Hz & Q)]. destruct (eqb_spec x z) as [->|]; [auto|discriminate].
  - intros [H Hx]. split; [exact H|]. exists x. split; [exact Hx|]. destruct (eqb_spec x x); [reflexivity|congruence].
Qed.
Lemma within_over x y : In (x, y) within -> In x ns /\ In y ns.
Proof. intros H. apply within_iff in H. destruct H as [H Hx]. split; [exact Hx|]. apply (Closed x y H). exact Hx. Qed.
Lemma within_same x y : In x ns -> In y ns -> (edge_in within x y <-> edge_in D x y).
Proof. intros Hx _. rewrite within_iff. tauto. Qed.
Lemma within_adj x y : In x ns -> (adjacent E' x y <-> adjacent E x y).
Proof.
  intros Hx. unfold adjacent. rewrite !within_iff. split; [tauto|]. intros [H|H]; [left; auto|right]. split; [exact H|]. apply (Closed y x H). exact Hx.
Qed.
Lemma adj_stays x y : In x ns -> adjacent E x y -> In y ns.
Proof. intros Hx [H|H]; [apply (Closed x y H)|apply (Closed y x H)]; exact Hx. Qed.
Lemma chain_stays x p : In x ns -> chain (adjacent E) (x :: p) -> (forall z, In z (x :: p) -> In z ns) /\ chain (adjacent E') (x :: p).
Proof.
  revert x. induction p as [|y p IH]; intros x Hx C.
  - split; [intros z [<-|[]]; exact Hx|constructor].
  - inversion C as [| |a b l A B]; subst. destruct (IH y (adj_stays x y Hx A) B) as [I C']. split.
    + intros z [<-|Hz]; [exact Hx|exact (I z Hz)].
    + constructor; [apply within_adj; assumption|exact C'].
Qed.
Lemma reach_stays x y : reach E' x y -> reach E x y.
Proof. induction 1 as [x|x y z H _ IH]; [constructor|]. eapply reach_step; [exact (proj1 (proj1 (within_iff _ _) H))|exact IH]. Qed.
Lemma reach_within x y : In x ns -> reach E x y -> reach E' x y.
Proof.
  intros Hx R. revert Hx. induction R as [x|x y z H _ IH]; intros Hx; [constructor|]. eapply reach_step; [apply within_iff; split; [exact H|exact Hx]|]. apply IH. apply (Closed x y H). exact Hx.
Qed.
Lemma within_acyclic : acyclic E -> acyclic E'.
Proof. intros A x (y & H & R). apply (A x). exists y. split; [exact (proj1 (proj1 (within_iff _ _) H))|exact (reach_stays _ _ R)]. Qed.
Lemma within_dsep x y S : In x ns -> (forall z, In z S -> In z ns) -> (dsep within x y S <-> dsep D x y S).
Proof.
  intros Hx HS. split.
  - intros H p (St & En & C & ND) Op. destruct St as (q & ->). destruct (chain_stays x q Hx C) as [I C']. apply (H (x :: q)).
    + split; [exists q; reflexivity|]. split; [exact En|]. split; [exact C'|exact ND].
    + intros a b c T. destruct (Op a b c T) as [O1 O2]. destruct T as (p1 & p2 & Ep).
      assert (Ib : In b ns) by (apply I; rewrite Ep; apply in_or_app; cbn; auto). assert (Ia : In a ns) by (apply I; rewrite Ep; apply in_or_app; cbn; auto).
      assert (Ic : In c ns) by (apply I; rewrite Ep; apply in_or_app; cbn; auto).
      assert (Col : collider E' a b c <-> collider E a b c) by (unfold collider; rewrite (within_same a b Ia Ib), (within_same c b Ic Ib); reflexivity).
      split.
      * intros K. destruct (O1 (proj1 Col K)) as (d & R & Sd). exists d. split; [exact (reach_within b d Ib R)|exact Sd].
      * intros K. apply O2. intros K'. apply K. apply Col. exact K'.
  - intros H. apply (dsep_carry within D ns (fun z => z) within_over (fun x y _ _ e => e) within_same x y S Hx HS). rewrite map_id. exact H.
Qed.
Lemma within_vs x z y : In z ns -> (vstruct within x z y <-> vstruct D x z y).
Proof.
  intros Hz. assert (St : forall u, E u z -> In u ns) by (intros u H; apply (Closed u z H); exact Hz).
  unfold vstruct. rewrite !within_iff. split.
  - intros ([A Hx] & [B Hy] & Ne & F). repeat (split; [assumption|]). intros K. apply F. apply within_adj; assumption.
  - intros (A & B & Ne & F). split; [auto|]. split; [auto|]. split; [exact Ne|]. intros K. apply F. apply within_adj; [exact (St x A)|exact K].
Qed.
Lemma within_oriented x y : In x ns -> (oriented within x y <-> oriented D x y).
Proof.
  intros Hx. split; [exact (or_carry within D ns (fun z => z) within_over (fun x y _ _ e => e) within_same x y)|].
  intros O. assert (G : forall u v, oriented D u v -> (In u ns <-> In v ns)).
  { assert (Ad : forall u v, adjacent E u v -> (In u ns <-> In v ns)) by (intros u v [H|H]; [exact (Closed _ _ H)|symmetry; exact (Closed _ _ H)]).
    induction 1 as [a b c V|a b c _ _ A _ _ _|a b c _ _ _ _ A|a b c d _ _ _ _ _ _ A _ _ _|a b c d _ _ _ _ _ _ A _ _ _]; [exact (Closed _ _ (proj1 V))| | | |]; exact (Ad _ _ A). }
  revert Hx. induction O as [a b c V|a b c O1 IH A Ne NA NV|a b c O1 IH O2 IH' A|a b c d O1 IH O2 IH' A1 A2 A3 Ne NA NV|a b c d O1 IH O2 IH' A1 A2 A3 Ne NA NV]; intros Hx.
  - apply or_v with (y := c). apply within_vs; [apply (Closed _ _ (proj1 V)); exact Hx|exact V].
  - assert (Ha : In a ns) by (apply (G a b O1); exact Hx). apply or_1 with (x := a); [exact (IH Ha)|apply within_adj; assumption|exact Ne| |].
    + intros K. apply NA. apply within_adj; assumption.
    + intros K. apply NV. apply within_vs; assumption.
  - assert (Hb : In b ns) by (apply (G a b O1); exact Hx). apply or_2 with (z := b); [exact (IH Hx)|exact (IH' Hb)|apply within_adj; assumption].
  - assert (Hb := adj_stays a b Hx A1). assert (Hc := adj_stays a c Hx A2).
    apply or_3 with (y := b) (w := c); [exact (IH Hb)|exact (IH' Hc)|apply within_adj; assumption|apply within_adj; assumption|apply within_adj; assumption|exact Ne| |].
    + intros K. apply NA. apply within_adj; assumption.
    + intros K. apply NV. apply within_vs; assumption.
  - assert (Hb := adj_stays a b Hx A1). assert (Hc := adj_stays a c Hx A2).
    apply or_4 with (y := b) (w := c); [exact (IH Hb)|exact (IH' Hc)|apply within_adj; assumption|apply within_adj; assumption|apply within_adj; assumption|exact Ne| |].
    + intros K. apply NA. apply within_adj; assumption.
    + intros K. apply NV. apply within_vs; assumption.
Qed.

(* perfect tests for D on a table that contains the group are perfect for the group *)
Lemma within_tests N vals vals' ns' c : (forall x, In x ns -> In x ns' /\ vals x = vals' x) -> perfect_tests N vals' ns' D c -> perfect_tests N vals ns within c.
Proof.
  intros V [T1 T2 T3 T4 T5]. assert (V1 := fun x h => proj1 (V x h)). assert (V2 := fun x h => proj2 (V x h)). split.
  - exact T1.
  - intros x y Hx Hy Ne. rewrite (V2 x Hx), (V2 y Hy). auto.
  - intros x y Hx Hy Ne. rewrite (V2 x Hx). destruct (T3 x y) as (b & Eb & Sb); auto. exists b. split; [exact Eb|]. unfold says in *. rewrite (within_dsep x y [] Hx ltac:(intros z [])). exact Sb.
  - intros x y z Hx Hy Hz ND. rewrite (V2 x Hx). destruct (T4 x y z) as (b & Eb & Sb); auto. exists b. split; [exact Eb|]. unfold says in *. rewrite (within_dsep x y [z] Hx ltac:(intros w [<-|[]]; exact Hz)). exact Sb.
  - intros x y S ND Il Sn. assert (Hx : In x ns) by (apply Il; left; reflexivity). destruct (T5 x y S ND ltac:(intros z Hz; apply V1; exact (Il z Hz)) Sn) as (b & Eb & Sb). exists b. split.
    + replace (map vals (x :: y :: S)) with (map vals' (x :: y :: S)); [exact Eb|]. apply map_ext_in. intros z Hz. symmetry. apply V2. exact (Il z Hz).
    + unfold says in *. rewrite (within_dsep x y S Hx); [exact Sb|]. intros z Hz. apply Il. right. right. exact Hz.
Qed.
End Group.
