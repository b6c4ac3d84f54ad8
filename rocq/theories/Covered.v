(* Reversing a covered arrow x -> y (the parents of y are x and the parents of x) keeps d-separation. *)
From Verif Require Import Base Graph Dag DagFacts DagSep SkelSpec OrientSpec Ball.
Open Scope list_scope.
Open Scope nat_scope.

Section Flip.
Variable E : id -> id -> Prop.
Hypothesis Ac : acyclic E.
Variables x y : id.
Hypothesis Exy : E x y.
Hypothesis cov : forall z, E z y <-> E z x \/ z = x.
(* the relation with x -> y reversed *)
Variable F : id -> id -> Prop.
Hypothesis HF : forall a b, F a b <-> (a = y /\ b = x) \/ (E a b /\ ~ (a = x /\ b = y)).

Lemma xny : x <> y.
Proof. intros ->. exact (no_loop E Ac y Exy). Qed.
Lemma F_yx : F y x.
Proof. apply HF. left; auto. Qed.
Lemma F_keep a b : E a b -> (a <> x \/ b <> y) -> F a b.
Proof. intros H N. apply HF. right. split; [exact H|intros [-> ->]; destruct N; congruence]. Qed.
(* a common parent *)
Lemma par_x z : E z x -> F z x /\ F z y.
Proof.
  intros H. assert (z <> x) by (intros ->; exact (no_loop E Ac x H)). split; apply F_keep; auto. apply cov. auto.
Qed.
Lemma par_y z : E z y -> z <> x -> F z x /\ F z y.
Proof. intros H N. apply par_x. apply cov in H. destruct H; [assumption|contradiction]. Qed.

Section Sim.
Variable S : list id.
Variable u : id.
Hypothesis uS : ~ In u S.
Notation b2 := (ball F S u).
Notation B1 := (ball E S u).
Definition PIN : Prop := b2 x true /\ b2 y true.
Definition Ix : Prop := b2 x false \/ (~ In y S /\ b2 y false) \/ (In y S /\ PIN) \/ u = x \/ u = y.
Definition Iy : Prop := PIN \/ (~ In x S /\ b2 x false) \/ (~ In x S /\ ~ In y S /\ b2 y false) \/ u = x \/ u = y.
Definition Inv (v : id) (h : bool) : Prop :=
  (v = x /\ (if h then PIN else Ix)) \/ (v = y /\ (if h then Iy else b2 y false)) \/ (v <> x /\ v <> y /\ b2 v h).

(* a step of the ball from outside x and y *)
Lemma enter_child a w : a <> x -> a <> y -> (F a w -> b2 w true) -> (w = x \/ w = y -> F a x -> F a y -> PIN) -> E a w -> Inv w true.
Proof.
  intros Nx Ny K KP H. destruct (string_dec w x) as [->|Wx].
  - left. split; [reflexivity|]. destruct (par_x a H). apply KP; auto.
  - destruct (string_dec w y) as [->|Wy].
    + right; left. split; [reflexivity|]. left. destruct (par_y a H Nx). apply KP; auto.
    + right; right. split; [exact Wx|split; [exact Wy|]]. apply K. apply F_keep; auto.
Qed.
Lemma enter_parent a w : a <> x -> a <> y -> (F w a -> b2 w false) -> E w a -> Inv w false.
Proof.
  intros Nx Ny K H. assert (B : b2 w false) by (apply K; apply F_keep; auto). destruct (string_dec w x) as [->|Wx]; [left; split; [reflexivity|left; exact B]|].
  destruct (string_dec w y) as [->|Wy]; [right; left; auto|right; right; auto].
Qed.
(* leaving x or y *)
Lemma child_of_x w : E x w -> w <> y -> (F x w -> b2 w true) -> Inv w true.
Proof. intros H N K. right; right. split; [intros ->; exact (no_loop E Ac x H)|]. split; [exact N|]. apply K. apply F_keep; auto. Qed.
Lemma child_of_y w : E y w -> (F y w -> b2 w true) -> Inv w true.
Proof. intros H K. right; right. split; [intros ->; exact (no_two E Ac _ _ Exy H)|]. split; [intros ->; exact (no_loop E Ac y H)|]. apply K. apply F_keep; auto. left. intros X; apply xny; auto. Qed.
Lemma parent_out w : E w x -> (F w x -> F w y -> b2 w false) -> Inv w false.
Proof.
  intros H K. right; right. split; [intros ->; exact (no_loop E Ac x H)|]. split; [intros ->; exact (no_two E Ac _ _ Exy H)|]. destruct (par_x w H). apply K; auto.
Qed.

Lemma sim v h : B1 v h -> Inv v h.
Proof.
  assert (NE := xny). assert (YX := F_yx).
  induction 1 as [w H|w H|v h w B IH N H|v w B IH N H|v w B IH I H].
  - destruct (string_dec u x) as [Ux|Ux].
    { rewrite Ux in H. destruct (string_dec w y) as [->|Wy]; [right; left; split; [reflexivity|]; right; right; right; left; exact Ux|]. apply (child_of_x w H Wy). intros X. apply b_out. rewrite Ux. exact X. }
    destruct (string_dec u y) as [Uy|Uy]; [rewrite Uy in H; apply (child_of_y w H); intros X; apply b_out; rewrite Uy; exact X|].
    apply (enter_child u w Ux Uy); [intros X; apply b_out; exact X| |exact H]. intros _ X Y. split; apply b_out; assumption.
  - destruct (string_dec u x) as [Ux|Ux]; [rewrite Ux in H; apply (parent_out w H); intros X Y; apply b_in; rewrite Ux; exact X|].
    destruct (string_dec u y) as [Uy|Uy].
    { rewrite Uy in H. destruct (string_dec w x) as [->|Wx]; [left; split; [reflexivity|]; right; right; right; right; exact Uy|].
      assert (H' := H). apply cov in H'. destruct H' as [H'|H']; [|contradiction]. apply (parent_out w H'). intros X Y. apply b_in. rewrite Uy. exact Y. }
    apply (enter_parent u w Ux Uy); [intros X; apply b_in; exact X|exact H].
  - destruct IH as [[-> P]|[[-> P]|(Vx & Vy & P)]].
    + (* from x downwards, x not in S *)
      destruct (string_dec w y) as [->|Wy].
      * right; left. split; [reflexivity|]. destruct h; [left; exact P|]. destruct P as [P|[[Ny P]|[[Iy' P]|[P|P]]]]; [right; left; auto|right; right; left; auto|left; exact P|right; right; right; left; exact P|right; right; right; right; exact P].
      * apply (child_of_x w H Wy). intros X. assert (Q : b2 x true \/ b2 x false \/ u = x).
        { destruct h; [left; exact (proj1 P)|]. destruct P as [P|[[Ny P]|[[Iy' P]|[P|P]]]]; [right; left; exact P|left; exact (b_down _ _ _ y false x P Ny YX)|left; exact (proj1 P)|right; right; exact P|left; apply b_out; rewrite P; exact YX]. }
        destruct Q as [Q|[Q|Q]]; [exact (b_down _ _ _ x true w Q N X)|exact (b_down _ _ _ x false w Q N X)|apply b_out; rewrite Q; exact X].
    + apply (child_of_y w H). intros X. assert (Q : b2 y true \/ b2 y false \/ u = y).
      { destruct h; [|right; left; exact P]. destruct P as [P|[[Nx P]|[[Nx [Ny P]]|[P|P]]]]; [left; exact (proj2 P)|right; left; exact (b_up _ _ _ x y P Nx YX)|right; left; exact P|right; left; apply b_in; rewrite P; exact YX|right; right; exact P]. }
      destruct Q as [Q|[Q|Q]]; [exact (b_down _ _ _ y true w Q N X)|exact (b_down _ _ _ y false w Q N X)|apply b_out; rewrite Q; exact X].
    + apply (enter_child v w Vx Vy); [intros X; exact (b_down _ _ _ v h w P N X)| |exact H]. intros _ X Y. split; [exact (b_down _ _ _ v h x P N X)|exact (b_down _ _ _ v h y P N Y)].
  - destruct IH as [[-> P]|[[-> P]|(Vx & Vy & P)]].
    + apply (parent_out w H). intros X Y. destruct P as [P|[[Ny P]|[[Iy' P]|[P|P]]]]; [exact (b_up _ _ _ x w P N X)|exact (b_up _ _ _ y w P Ny Y)|exact (b_turn _ _ _ y w (proj2 P) Iy' Y)|apply b_in; rewrite P; exact X|apply b_in; rewrite P; exact Y].
    + destruct (string_dec w x) as [->|Wx]; [left; split; [reflexivity|]; right; left; auto|].
      assert (H' := H). apply cov in H'. destruct H' as [H'|H']; [|contradiction]. apply (parent_out w H'). intros X Y. exact (b_up _ _ _ y w P N Y).
    + apply (enter_parent v w Vx Vy); [intros X; exact (b_up _ _ _ v w P N X)|exact H].
  - destruct IH as [[-> P]|[[-> P]|(Vx & Vy & P)]].
    + apply (parent_out w H). intros X Y. exact (b_turn _ _ _ x w (proj1 P) I X).
    + destruct (string_dec w x) as [->|Wx].
      * left. split; [reflexivity|]. destruct P as [P|[[Nx P]|[[Nx [Ny P]]|[P|P]]]]; [right; right; left; auto|left; exact P|contradiction|right; right; right; left; exact P|right; right; right; right; exact P].
      * assert (H' := H). apply cov in H'. destruct H' as [H'|H']; [|contradiction]. apply (parent_out w H'). intros X Y.
        destruct P as [P|[[Nx P]|[[Nx [Ny P]]|[P|P]]]]; [exact (b_turn _ _ _ y w (proj2 P) I Y)|exact (b_up _ _ _ x w P Nx X)|contradiction|apply b_in; rewrite P; exact X|rewrite P in uS; contradiction].
    + apply (enter_parent v w Vx Vy); [intros X; exact (b_turn _ _ _ v w P I X)|exact H].
Qed.
Lemma flip_ball t h : u <> t -> ~ In t S -> B1 t h -> exists h', b2 t h'.
Proof.
  intros Ne Nt B. assert (YX := F_yx). destruct (sim t h B) as [[-> P]|[[-> P]|(_ & _ & P)]]; [| |exists h; exact P].
  - destruct h; [exists true; exact (proj1 P)|]. destruct P as [P|[[Ny P]|[[Iy' P]|[P|P]]]]; [exists false; exact P|exists true; exact (b_down _ _ _ y false x P Ny YX)|exists true; exact (proj1 P)|contradiction|exists true; apply b_out; rewrite P; exact YX].
  - destruct h; [|exists false; exact P]. destruct P as [P|[[Nx P]|[[Nx [Ny P]]|[P|P]]]]; [exists true; exact (proj2 P)|exists false; exact (b_up _ _ _ x y P Nx YX)|exists false; exact P|exists false; apply b_in; rewrite P; exact YX|contradiction].
Qed.
End Sim.

(* the reversed relation has no cycle *)
Definition E' (a b : id) : Prop := E a b /\ ~ (a = x /\ b = y).
Lemma E'_reach a b : reach E' a b -> reach E a b.
Proof. induction 1 as [a|a b c H R IH]; [constructor|]. econstructor; [exact (proj1 H)|exact IH]. Qed.
Lemma F_reach a b : reach F a b -> reach E' a b \/ (reach E' a y /\ reach E' x b).
Proof.
  induction 1 as [a|a b c H R IH]; [left; constructor|]. apply HF in H. destruct H as [[-> ->]|H].
  - right. split; [constructor|]. destruct IH as [IH|[_ IH]]; exact IH.
  - destruct IH as [IH|[IH1 IH2]]; [left; econstructor; eassumption|right; split; [econstructor; eassumption|exact IH2]].
Qed.
Lemma no_xy : ~ reach E' x y.
Proof.
  intros R. assert (G : forall a c, reach E' a c -> a = c \/ exists z, reach E' a z /\ E' z c).
  { intros a c0 Ra. induction Ra as [a|a b c H Ra IH]; [left; reflexivity|]. right. destruct IH as [->|(z & Rz & Hz)]; [exists a; split; [constructor|exact H]|exists z; split; [econstructor; eassumption|exact Hz]]. }
  destruct (G x y R) as [X|(z & Rz & Hz & Nz)]; [exact (xny X)|]. assert (z <> x) by (intros ->; apply Nz; auto). apply cov in Hz. destruct Hz as [Hz|Hz]; [|contradiction].
  apply E'_reach in Rz. exact (no_cycle E Ac z x Hz Rz).
Qed.
Lemma flip_acyclic : acyclic F.
Proof.
  intros a (b & H & R). apply F_reach in R. apply HF in H. destruct H as [[-> ->]|H].
  - destruct R as [R|[_ R]]; exact (no_xy R).
  - destruct R as [R|[R1 R2]].
    + exact (no_cycle E Ac a b (proj1 H) (E'_reach b a R)).
    + apply no_xy. assert (T : forall p q s, reach E' p q -> reach E' q s -> reach E' p s) by (intros p q s Q1; induction Q1; intros; [assumption|econstructor; eauto]).
      apply (T x a y R2). econstructor; eassumption.
Qed.
Lemma flip_adj a b : adjacent F a b <-> adjacent E a b.
Proof.
  unfold adjacent. rewrite !HF. split.
  - intros [[[-> ->]|[H _]]|[[-> ->]|[H _]]]; auto.
  - intros [H|H].
    + destruct (string_dec a x) as [->|N]; [|left; right; split; [exact H|intros [X _]; contradiction]]. destruct (string_dec b y) as [->|N']; [right; left; auto|left; right; split; [exact H|intros [_ X]; contradiction]].
    + destruct (string_dec b x) as [->|N]; [|right; right; split; [exact H|intros [X _]; contradiction]]. destruct (string_dec a y) as [->|N']; [left; left; auto|right; right; split; [exact H|intros [_ X]; contradiction]].
Qed.
Lemma flip_cov z : F z x <-> F z y \/ z = y.
Proof.
  rewrite !HF. assert (NE := xny). split.
  - intros [[-> _]|[H N]]; [auto|]. left. right. split; [apply cov; auto|]. intros [-> _]. exact (no_loop E Ac x H).
  - intros [[[-> ->]|[H N]]| ->]; [contradiction| |auto]. right. apply cov in H. destruct H as [H| ->]; [|destruct N; auto]. split; [exact H|intros [_ X]; contradiction].
Qed.
Lemma flip_back a b : E a b <-> (a = x /\ b = y) \/ (F a b /\ ~ (a = y /\ b = x)).
Proof.
  rewrite HF. split.
  - intros H. destruct (string_dec a x) as [->|N]; [destruct (string_dec b y) as [->|N']; [left; auto|]|]; right; (split; [right; split; [exact H|intros [? ?]; contradiction]|intros [-> ->]; exact (no_two E Ac _ _ Exy H)]).
  - intros [[-> ->]|[[[-> ->]|[H _]] N]]; [exact Exy|destruct N; auto|exact H].
Qed.
(* v-structures stay *)
Lemma flip_vs a z b : E a z -> E b z -> a <> b -> ~ adjacent E a b -> F a z /\ F b z.
Proof.
  intros Ha Hb N NA. destruct (string_dec z y) as [->|Ny]; [|split; apply F_keep; auto]. split; apply F_keep; auto; left; intros ->; apply NA.
  - apply cov in Hb. destruct Hb as [Hb|Hb]; [right; exact Hb|congruence].
  - apply cov in Ha. destruct Ha as [Ha|Ha]; [left; exact Ha|congruence].
Qed.
End Flip.

Lemma flip_sep (E : id -> id -> Prop) (x y : id) (F : id -> id -> Prop) (S : list id) : acyclic E -> (forall a b, {E a b} + {~ E a b}) -> E x y -> (forall z, E z y <-> E z x \/ z = x) ->
  (forall a b, F a b <-> (a = y /\ b = x) \/ (E a b /\ ~ (a = x /\ b = y))) ->
  forall u t, u <> t -> ~ In u S -> ~ In t S -> (d_separated E u t (fun z => In z S) <-> d_separated F u t (fun z => In z S)).
Proof.
  intros Ac dec Exy cov HF u t Ne Nu Nt.
  assert (AcF := flip_acyclic E Ac x y Exy cov F HF).
  assert (decF : forall a b, {F a b} + {~ F a b}).
  { intros a b. destruct (string_dec a y) as [Ay|Ay]; [destruct (string_dec b x) as [Bx|Bx]; [left; apply HF; auto|]|].
    all: destruct (dec a b) as [D|D]; [|right; intros X; apply HF in X; tauto].
    all: destruct (string_dec a x) as [Ax|Ax]; [destruct (string_dec b y) as [By|By]|]; [right|left|left]; rewrite HF; tauto. }
  rewrite (sep_ball E dec Ac S u t Ne), (sep_ball F decF AcF S u t Ne). split; intros K h B.
  - destruct (flip_ball F AcF y x (F_yx E x y F HF) (flip_cov E Ac x y Exy cov F HF) E (flip_back E Ac x y Exy cov F HF) S u Nu t h Ne Nt B) as (h' & B'). exact (K h' B').
  - destruct (flip_ball E Ac x y Exy cov F HF S u Nu t h Ne Nt B) as (h' & B'). exact (K h' B').
Qed.
