(* Facts about d-separation in acyclic graphs, independent of the model. *)
From Verif Require Import Base Dag DagFacts PathFacts.

Section Sep.
Context {V : Type}.
Variable E : V -> V -> Prop.

Lemma reach_trans x y z : reach E x y -> reach E y z -> reach E x z.
Proof. induction 1 as [|a b c A _ IH]; intros R; [exact R|]. eapply reach_step; [exact A|apply IH; exact R]. Qed.
Lemma reach_snoc x y z : reach E x y -> E y z -> reach E x z.
Proof. intros R A. eapply reach_trans; [exact R|]. eapply reach_step; [exact A|constructor]. Qed.

Hypothesis Ac : acyclic E.

Lemma no_cycle x y : E x y -> reach E y x -> False.
Proof. intros A R. apply (Ac x). exists y; auto. Qed.
Lemma no_two x y : E x y -> E y x -> False.
Proof. intros A B. eapply no_cycle; [exact A|]. eapply reach_step; [exact B|constructor]. Qed.
Lemma no_loop x : ~ E x x.
Proof. intros A. exact (no_two x x A A). Qed.
Lemma reach_antisym x y : reach E x y -> reach E y x -> x = y.
Proof.
  intros R1 R2. inversion R1 as [|a b c A R]; subst; [reflexivity|]. exfalso. eapply no_cycle; [exact A|]. eapply reach_trans; eassumption.
Qed.

(* a path that starts forwards from a descendant of x and ends outside of the descendants of x has a
   collider that is a descendant of x *)
Lemma forward_walk x y : ~ reach E x y -> forall r a b, reach E x a -> E a b -> chain (adjacent E) (a :: b :: r) -> ends y (a :: b :: r) ->
  exists a' b' c', triple_on (a :: b :: r) a' b' c' /\ collider E a' b' c' /\ reach E x b'.
Proof.
  intros NR; induction r as [|c r IH]; intros a b R A C F.
  - exfalso; apply NR. destruct F as [q F]. destruct q as [|q0 [|q1 q]]; try discriminate.
    + injection F as -> ->. eapply reach_snoc; eassumption.
    + injection F as _ _ F. destruct q; discriminate.
  - inversion C as [| |? ? ? _ C']; subst. inversion C' as [| |? ? ? B C'']; subst. destruct B as [B|B].
    + destruct (IH b c (reach_snoc _ _ _ R A) B C') as (a' & b' & c' & T & K & R').
      { destruct F as [q F]. destruct q as [|q0 q]; [discriminate|]. injection F as -> F. exists q; exact F. }
      exists a', b', c'. split; [|auto]. destruct T as (p1 & p2 & T). exists (a :: p1), p2. rewrite T; reflexivity.
    + exists a, b, c. split; [exists [], r; reflexivity|]. split; [split; assumption|]. eapply reach_snoc; eassumption.
Qed.

Lemma path_start x y p : x <> y -> simple_path (adjacent E) x y p -> exists a r, p = x :: a :: r /\ adjacent E x a /\ chain (adjacent E) (x :: a :: r).
Proof.
  intros N ((q & ->) & F & C & ND). destruct q as [|a r].
  - destruct F as [q F]. destruct q as [|q0 q]; [injection F as ->; congruence|]. injection F as _ F. destruct q; discriminate.
  - exists a, r. split; [reflexivity|]. split; [inversion C; assumption|exact C].
Qed.

(* the parents of x separate x from every non-adjacent non-descendant *)
Lemma parents_separate x y (S : V -> Prop) : x <> y -> ~ adjacent E x y -> ~ reach E x y -> (forall z, S z <-> E z x) ->
  d_separated E x y S.
Proof.
  intros N NA NR HS p P O. destruct (path_start x y p N P) as (a & r & -> & A & C). destruct P as (_ & F & _ & ND).
  destruct A as [A|A].
  - destruct (forward_walk x y NR r x a (reach_refl _ _ _) A C F) as (a' & b' & c' & T & K & R).
    destruct (O _ _ _ T) as [O1 _]. destruct (O1 K) as (d & Rd & Sd). apply HS in Sd.
    eapply no_cycle; [exact Sd|]. eapply reach_trans; eassumption.
  - destruct r as [|b r].
    + apply NA. destruct F as [q F]. destruct q as [|q0 [|q1 q]]; try discriminate; [injection F as F0 F1; subst; right; exact A|].
      injection F as _ _ F. destruct q; discriminate.
    + destruct (O x a b) as [_ O2]; [exists [], r; reflexivity|]. apply O2; [|apply HS; exact A].
      intros [K _]. eapply no_two; eassumption.
Qed.

(* adjacent nodes cannot be separated *)
Lemma adjacent_connected x y (S : V -> Prop) : x <> y -> adjacent E x y -> ~ d_separated E x y S.
Proof.
  intros N A D. apply (D [x; y]).
  - split; [exists [y]; reflexivity|]. split; [exists [x]; reflexivity|]. split; [constructor; [exact A|constructor]|].
    constructor; [intros [X|[]]; congruence|constructor; [intros []|constructor]].
  - intros a b c (p1 & p2 & T). destruct p1 as [|q0 [|q1 p1]]; try discriminate. injection T as _ _ T. destruct p1; discriminate.
Qed.

(* x with the single parent z: separation of z and y carries over to x *)
Lemma single_parent x y z : x <> y -> ~ adjacent E x y -> ~ reach E x y -> (forall w, E w x <-> w = z) ->
  d_separated E z y (fun _ => False) -> d_separated E x y (fun _ => False).
Proof.
  intros N NA NR HP D p P O. assert (P' := P). destruct (path_start x y p N P) as (a & r & -> & A & C). destruct P as (_ & F & _ & ND).
  destruct A as [A|A].
  - destruct (forward_walk x y NR r x a (reach_refl _ _ _) A C F) as (a' & b' & c' & T & K & R).
    destruct (O _ _ _ T) as [O1 _]. destruct (O1 K) as (d & _ & []).
  - apply HP in A. subst a. apply (D (z :: r)).
    + split; [exists r; reflexivity|]. split; [|split].
      * destruct F as [q F]. destruct q as [|q0 q]; [discriminate|]. injection F as -> F. exists q; exact F.
      * inversion C; assumption.
      * inversion ND; assumption.
    + intros a b c (p1 & p2 & T). apply O. exists (x :: p1), p2. rewrite T. reflexivity.
Qed.

(* the middle of an unshielded triple is in a separating set iff it is not a collider *)
Lemma open_two x z y (S : V -> Prop) : x <> y -> x <> z -> z <> y -> adjacent E x z -> adjacent E z y ->
  d_separated E x y S -> ~ ((collider E x z y -> exists d, reach E z d /\ S d) /\ (~ collider E x z y -> ~ S z)).
Proof.
  intros N N1 N2 A B D K. apply (D [x; z; y]).
  - split; [exists [z; y]; reflexivity|]. split; [exists [x; z]; reflexivity|]. split; [constructor; [exact A|constructor; [exact B|constructor]]|].
    repeat constructor; cbn; intuition congruence.
  - intros a b c (p1 & p2 & T). destruct p1 as [|q0 [|q1 [|q2 p1]]]; try discriminate.
    + injection T as T1 T2 T3 T4; subst. exact K.
    + injection T as _ _ _ T. destruct p1; discriminate.
Qed.
Lemma sep_collider x z y S : x <> y -> x <> z -> z <> y -> collider E x z y -> d_separated E x y S -> ~ S z.
Proof.
  intros N N1 N2 [A B] D K. apply (open_two x z y S N N1 N2); [left; exact A|right; exact B|exact D|].
  split; [intros _; exists z; split; [constructor|exact K]|intros X; exfalso; apply X; split; assumption].
Qed.
Lemma sep_non_collider x z y S : x <> y -> x <> z -> z <> y -> adjacent E x z -> adjacent E z y -> ~ collider E x z y ->
  d_separated E x y S -> ~ ~ S z.
Proof.
  intros N N1 N2 A B NC D NS. apply (open_two x z y S N N1 N2 A B D). split; [intros K; contradiction|intros _; exact NS].
Qed.
End Sep.
