(* d-separation and Meek's rules in a part of a DAG that contains the causes of its variables. *)
From Verif Require Import Base PyDict Graph Dag DagFacts DagSep IndepTests SkelSpec OrientSpec OrientGraph AncestralSpec.
Open Scope list_scope.

Section Part.
Variables (D : list (id * id)) (A : list id).
Hypothesis closed : closed_under_causes D A.
Definition part : list (id * id) := filter (fun e => mem (snd e) A) D.
Notation E := (edge_in D).
Notation E' := (edge_in part).

Lemma part_In x y : E' x y <-> E x y /\ In y A.
Proof. unfold edge_in, part. rewrite filter_In. cbn [snd]. rewrite mem_In. reflexivity. Qed.
Lemma part_both x y : E' x y -> In x A /\ In y A.
Proof. intros H. apply part_In in H. destruct H as [H Hy]. split; [exact (closed x y H Hy)|exact Hy]. Qed.
Lemma part_adj x y : In x A -> In y A -> adjacent E x y <-> adjacent E' x y.
Proof. intros Hx Hy. unfold adjacent. rewrite !part_In. tauto. Qed.
Lemma part_adj_in x y : adjacent E' x y -> In x A /\ In y A.
Proof. intros [H|H]; apply part_both in H; tauto. Qed.
Lemma part_reach x y : reach E' x y -> reach E x y.
Proof. induction 1 as [|x y z H _ IH]; [constructor|]. apply part_In in H. econstructor; [apply H|exact IH]. Qed.
Lemma reach_closed x y : reach E x y -> In y A -> In x A.
Proof. induction 1 as [|x y z H _ IH]; intros Hy; [exact Hy|]. exact (closed x y H (IH Hy)). Qed.
Lemma reach_part x y : reach E x y -> In y A -> reach E' x y.
Proof. induction 1 as [|x y z H R IH]; intros Hy; [constructor|]. econstructor; [apply part_In; split; [exact H|exact (reach_closed y z R Hy)]|exact (IH Hy)]. Qed.
Lemma part_dag ns : dag_over ns D -> dag_over A part.
Proof.
  intros [_ Ac]. split; [exact part_both|]. intros x (y & H & R). apply (Ac x). exists y. apply part_In in H. split; [apply H|apply part_reach, R].
Qed.

(* ---- open paths stay in A ---- *)
Lemma open_tail S a p : open_path E S (a :: p) -> open_path E S p.
Proof. intros O x y z (p1 & p2 & ->). apply O. exists (a :: p1), p2. reflexivity. Qed.
Lemma leaves (S : id -> Prop) : (forall z, S z -> In z A) -> forall r a o y, E a o -> ~ In o A -> In y A -> chain (adjacent E) (o :: r) -> ends y (o :: r) -> open_path E S (a :: o :: r) -> False.
Proof.
  intros HS. induction r as [|b r IH]; intros a o y Ho No Hy C F O.
  - destruct F as (q & F). destruct q as [|c q]; [injection F as ->; contradiction|destruct q; discriminate F].
  - inversion C as [| |? ? ? Ad C']; subst. assert (F' : ends y (b :: r)).
    { destruct F as (q & F). destruct q as [|c q]; [discriminate F|]. injection F as _ F. exists q. exact F. }
    destruct Ad as [H|H].
    + apply (IH o b y H); try assumption; [intros Hb; exact (No (closed o b H Hb))|exact (open_tail S a _ O)].
    + destruct (O a o b) as [O1 _]; [exists [], r; reflexivity|]. destruct (O1 (conj Ho H)) as (d & R & Sd). exact (No (reach_closed o d R (HS d Sd))).
Qed.
Lemma stays (S : id -> Prop) : (forall z, S z -> In z A) -> forall p x y, In x A -> In y A -> chain (adjacent E) (x :: p) -> ends y (x :: p) -> open_path E S (x :: p) -> forall z, In z (x :: p) -> In z A.
Proof.
  intros HS. induction p as [|b p IH]; intros x y Hx Hy C F O z Hz.
  - destruct Hz as [<-|[]]. exact Hx.
  - destruct Hz as [<-|Hz]; [exact Hx|]. inversion C as [| |? ? ? Ad C']; subst. assert (F' : ends y (b :: p)).
    { destruct F as (q & F). destruct q as [|c q]; [discriminate F|]. injection F as _ F. exists q. exact F. }
    destruct (@in_dec id string_dec b A) as [Hb|Nb]; [exact (IH b y Hb Hy C' F' (open_tail S x _ O) z Hz)|]. exfalso. destruct Ad as [H|H].
    + exact (leaves S HS p x b y H Nb Hy C' F' O).
    + exact (Nb (closed b x H Hx)).
Qed.
Lemma part_collider a b c : In a A -> In b A -> In c A -> collider E a b c <-> collider E' a b c.
Proof. intros Ha Hb Hc. unfold collider. rewrite !part_In. tauto. Qed.
Lemma chain_impl {V} (R R' : V -> V -> Prop) p : chain R p -> (forall x y, In x p -> In y p -> R x y -> R' x y) -> chain R' p.
Proof.
  induction 1 as [|x|x y l H C IH]; intros K; [constructor|constructor|]. constructor; [apply K; cbn; auto|]. apply IH. intros a b Ha Hb. apply K; right; assumption.
Qed.
Lemma triple_in {V} p (a b c : V) : triple_on p a b c -> In a p /\ In b p /\ In c p.
Proof. intros (p1 & p2 & ->). rewrite !in_app_iff. cbn. tauto. Qed.
Lemma part_dsep x y S : In x A -> In y A -> (forall z, In z S -> In z A) -> dsep D x y S <-> dsep part x y S.
Proof.
  intros Hx Hy HS. unfold dsep. split; intros H p (St & En & C & ND) O.
  - assert (In_A : forall z, In z p -> In z A).
    { destruct St as (q & ->). clear - C Hx closed. intros z Hz. revert x Hx C Hz. induction q as [|b q IH]; intros x Hx C Hz; [destruct Hz as [<-|[]]; exact Hx|].
      destruct Hz as [<-|Hz]; [exact Hx|]. inversion C as [| |? ? ? Ad C']; subst. apply part_adj_in in Ad. exact (IH b (proj2 Ad) C' Hz). }
    apply (H p).
    + split; [exact St|]. split; [exact En|]. split; [|exact ND]. apply (chain_impl _ _ p C). intros a b Ha Hb. apply (part_adj a b); auto.
    + intros a b c T. destruct (O a b c T) as [O1 O2]. destruct (triple_in p a b c T) as (Ta & Tb & Tc). rewrite (part_collider a b c) by auto. split; [|exact O2].
      intros K. destruct (O1 K) as (d & R & Sd). exists d. split; [exact (part_reach b d R)|exact Sd].
  - assert (In_A : forall z, In z p -> In z A).
    { destruct St as (q & ->). exact (stays (fun z => In z S) HS q x y Hx Hy C En O). }
    apply (H p).
    + split; [exact St|]. split; [exact En|]. split; [|exact ND]. apply (chain_impl _ _ p C). intros a b Ha Hb. apply (part_adj a b); auto.
    + intros a b c T. destruct (O a b c T) as [O1 O2]. destruct (triple_in p a b c T) as (Ta & Tb & Tc). rewrite <- (part_collider a b c) by auto. split; [|exact O2].
      intros K. destruct (O1 K) as (d & R & Sd). exists d. split; [exact (reach_part b d R (HS d Sd))|exact Sd].
Qed.

(* ---- Meek's rules ---- *)
Lemma part_vs x z y : In z A -> vstruct D x z y <-> vstruct part x z y.
Proof.
  intros Hz. unfold vstruct. rewrite !part_In. split.
  - intros (H1 & H2 & Ne & Na). repeat (split; [tauto|]). intros K. apply Na. apply part_adj in K; [exact K|exact (closed x z H1 Hz)|exact (closed y z H2 Hz)].
  - intros ((H1 & _) & (H2 & _) & Ne & Na). repeat (split; [tauto|]). intros K. apply Na. apply part_adj; [exact (closed x z H1 Hz)|exact (closed y z H2 Hz)|exact K].
Qed.
Hypothesis acyc : acyclic E.
Lemma oriented_part x y : oriented D x y -> In y A -> oriented part x y.
Proof.
  assert (Cl : forall a b, oriented D a b -> In b A -> In a A) by (intros a b O; apply closed; exact (oriented_sound D acyc a b O)).
  induction 1 as [x z y V|x z y O1 IH1 Ad Ne Na Nv|x z y O1 IH1 O2 IH2 Ad|x y w z O1 IH1 O2 IH2 A1 A2 A3 Ne Na Nv|x y w z O1 IH1 O2 IH2 A1 A2 A3 Ne Na Nv]; intros Hz.
  - apply (or_v _ x z y). apply part_vs; assumption.
  - assert (Hzz : In z A) by (apply (Cl z y); [exact (or_1 D x z y O1 Ad Ne Na Nv)|exact Hz]). assert (Hx := Cl x z O1 Hzz).
    apply (or_1 _ x z y); [exact (IH1 Hzz)|apply part_adj; assumption|exact Ne| |].
    + intros K. apply Na. apply part_adj in K; assumption.
    + intros K. apply Nv. apply part_vs; assumption.
  - assert (Hzz := Cl z y O2 Hz). assert (Hx := Cl x z O1 Hzz). apply (or_2 _ x z y); [exact (IH1 Hzz)|exact (IH2 Hz)|apply part_adj; assumption].
  - assert (Hx : In x A) by (apply (Cl x z); [exact (or_3 D x y w z O1 O2 A1 A2 A3 Ne Na Nv)|exact Hz]). assert (Hy := Cl y z O1 Hz). assert (Hw := Cl w z O2 Hz).
    apply (or_3 _ x y w z); [exact (IH1 Hz)|exact (IH2 Hz)|apply part_adj; assumption|apply part_adj; assumption|apply part_adj; assumption|exact Ne| |].
    + intros K. apply Na. apply part_adj in K; assumption.
    + intros K. apply Nv. apply part_vs; assumption.
  - assert (Hx : In x A) by (apply (Cl x z); [exact (or_4 D x y w z O1 O2 A1 A2 A3 Ne Na Nv)|exact Hz]). assert (Hw := Cl w z O2 Hz). assert (Hy := Cl y w O1 Hw).
    apply (or_4 _ x y w z); [exact (IH1 Hw)|exact (IH2 Hz)|apply part_adj; assumption|apply part_adj; assumption|apply part_adj; assumption|exact Ne| |].
    + intros K. apply Na. apply part_adj in K; assumption.
    + intros K. apply Nv. apply part_vs; assumption.
Qed.
Lemma part_oriented x y : oriented part x y -> oriented D x y.
Proof.
  assert (Ac : acyclic E').
  { intros x0 (y0 & H & R). apply (acyc x0). exists y0. apply part_In in H. split; [apply H|apply part_reach, R]. }
  assert (Cl : forall a b, oriented part a b -> In a A /\ In b A) by (intros a b O; apply part_both; exact (oriented_sound part Ac a b O)).
  assert (Ad' : forall a b, adjacent E' a b -> adjacent E a b) by (intros a b K; destruct (part_adj_in a b K); apply part_adj; assumption).
  induction 1 as [x z y V|x z y O1 IH1 Ad Ne Na Nv|x z y O1 IH1 O2 IH2 Ad|x y w z O1 IH1 O2 IH2 A1 A2 A3 Ne Na Nv|x y w z O1 IH1 O2 IH2 A1 A2 A3 Ne Na Nv].
  - apply (or_v _ x z y). apply part_vs; [|exact V]. destruct V as (V & _). apply part_both in V. tauto.
  - destruct (Cl x z O1) as [Hx Hz]. destruct (part_adj_in z y Ad) as [_ Hy]. apply (or_1 _ x z y IH1 (Ad' z y Ad) Ne).
    + intros K. apply Na. apply part_adj; assumption.
    + intros K. apply Nv. apply part_vs; assumption.
  - exact (or_2 _ x z y IH1 IH2 (Ad' x y Ad)).
  - destruct (Cl y z O1) as [Hy Hz]. destruct (Cl w z O2) as [Hw _]. destruct (part_adj_in x y A1) as [Hx _].
    apply (or_3 _ x y w z IH1 IH2 (Ad' _ _ A1) (Ad' _ _ A2) (Ad' _ _ A3) Ne).
    + intros K. apply Na. apply part_adj; assumption.
    + intros K. apply Nv. apply part_vs; assumption.
  - destruct (Cl w z O2) as [Hw Hz]. destruct (Cl y w O1) as [Hy _]. destruct (part_adj_in x y A1) as [Hx _].
    apply (or_4 _ x y w z IH1 IH2 (Ad' _ _ A1) (Ad' _ _ A2) (Ad' _ _ A3) Ne).
    + intros K. apply Na. apply part_adj; assumption.
    + intros K. apply Nv. apply part_vs; assumption.
Qed.
End Part.
