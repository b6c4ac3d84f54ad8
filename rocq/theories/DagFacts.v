(* Facts about the d-separation specification that do not mention the code. *)
From Verif Require Import Base Dag.

Lemma chain_app_inv {V} (R : V -> V -> Prop) p q : chain R (p ++ q) -> chain R p /\ chain R q.
Proof.
  induction p as [|x p IH]; intros H; [split; [constructor|exact H]|].
  destruct p as [|y p].
  - split; [constructor|]. simpl in H; destruct q; [constructor|]; inversion H; subst; assumption.
  - simpl in H; inversion H as [| |? ? ? A C]; subst. destruct (IH C); split; [constructor; assumption|assumption].
Qed.

Lemma chain_mid {V} (R : V -> V -> Prop) p a b q : chain R (p ++ a :: b :: q) -> R a b.
Proof. intros H; apply chain_app_inv in H; destruct H as [_ H]; inversion H; assumption. Qed.

Lemma chain_join {V} (R : V -> V -> Prop) p a q : chain R (p ++ [a]) -> chain R (a :: q) -> chain R (p ++ a :: q).
Proof.
  induction p as [|x p IH]; intros H1 H2; [exact H2|].
  destruct p as [|y p]; simpl in *.
  - inversion H1; subst; constructor; assumption.
  - inversion H1; subst; constructor; [assumption|apply IH; assumption].
Qed.

Lemma chain_rev {V} (R : V -> V -> Prop) p : (forall a b, R a b -> R b a) -> chain R p -> chain R (rev p).
Proof.
  intros Hs; induction 1 as [|x|x y l A C IH]; [constructor|constructor|].
  simpl in *. rewrite <- app_assoc. simpl. apply chain_join; [exact IH|]. constructor; [apply Hs; exact A|constructor].
Qed.

Lemma simple_path_rev {V} (R : V -> V -> Prop) x y p : (forall a b, R a b -> R b a) ->
  simple_path R x y p -> simple_path R y x (rev p).
Proof.
  intros Hs ((q & ->) & (r & E) & C & N). split; [|split; [|split]].
  - rewrite E, rev_app_distr; exists (rev r); reflexivity.
  - exists (rev q); reflexivity.
  - apply chain_rev; assumption.
  - apply NoDup_rev; exact N.
Qed.

Lemma triple_rev {V} p (a b c : V) : triple_on (rev p) a b c -> triple_on p c b a.
Proof.
  intros (p1 & p2 & E). assert (F := f_equal (@rev V) E). rewrite rev_involutive, rev_app_distr in F; simpl in F.
  exists (rev p2), (rev p1). rewrite F, <- !app_assoc; reflexivity.
Qed.

Lemma open_path_rev {V} (E : V -> V -> Prop) S p : open_path E S p -> open_path E S (rev p).
Proof.
  intros H a b c T; apply triple_rev in T; destruct (H c b a T) as [H1 H2]; split.
  - intros [A B]; apply H1; split; assumption.
  - intros N; apply H2; intros [A B]; apply N; split; assumption.
Qed.

Lemma adjacent_sym {V} (E : V -> V -> Prop) a b : adjacent E a b -> adjacent E b a.
Proof. unfold adjacent; tauto. Qed.

Lemma d_separated_sym {V} (E : V -> V -> Prop) x y S : d_separated E x y S -> d_separated E y x S.
Proof.
  intros H p P O; apply (H (rev p)).
  - apply simple_path_rev; [intros; apply adjacent_sym; assumption|exact P].
  - apply open_path_rev; exact O.
Qed.

Lemma d_separated_ext {V} (E E' : V -> V -> Prop) x y (S S' : V -> Prop) :
  (forall a b, E a b <-> E' a b) -> (forall a, S a <-> S' a) -> d_separated E x y S -> d_separated E' x y S'.
Proof.
  intros HE HS H p ((q & ->) & F & C & N) O. apply (H (x :: q)).
  - split; [exists q; reflexivity|split; [exact F|split; [|exact N]]].
    clear - C HE. induction C; constructor; auto. unfold adjacent in *; rewrite !HE; assumption.
  - intros a b c T; destruct (O a b c T) as [O1 O2]; split.
    + intros [A B]; destruct O1 as (d & Rd & Sd); [split; apply HE; assumption|].
      exists d; split; [|apply HS; exact Sd]. clear - Rd HE. induction Rd; [constructor|]. econstructor; [apply HE; eassumption|assumption].
    + intros Nc Sb; apply O2; [|apply HS; exact Sb]. intros [A B]; apply Nc; split; apply HE; assumption.
Qed.

Lemma reach_rank {V} (E : V -> V -> Prop) (rank : V -> nat) : (forall a b, E a b -> rank a < rank b) ->
  forall a b, reach E a b -> rank a <= rank b.
Proof. intros H a b R; induction R as [|x y z A _ IH]; [lia|]. apply H in A; lia. Qed.

Lemma acyclic_rank {V} (E : V -> V -> Prop) (rank : V -> nat) : (forall a b, E a b -> rank a < rank b) -> acyclic E.
Proof. intros H x (y & A & R). apply (reach_rank E rank H) in R; apply H in A; lia. Qed.
