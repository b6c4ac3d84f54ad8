(* Deciding d-separation in a finite DAG, and numerics whose tests answer by it.  Used to show that the
   hypothesis "perfect tests" can be met for every DAG. *)
From Verif Require Import Base PyDict PyDictFacts Graph Dag DagFacts DagSep SkelSpec IndepTests Construct Toy.
Open Scope list_scope.

Section Walk.
Variable nb : id -> list id.
(* simple paths from x that avoid vis *)
Fixpoint walks (n : nat) (vis : list id) (x : id) : list (list id) :=
  match n with
  | O => []
  | S n => [x] :: flat_map (fun y => if mem y (x :: vis) then [] else map (cons x) (walks n (x :: vis) y)) (nb x)
  end.
Notation R := (fun x y => In y (nb x)).
Lemma walks_sound : forall n vis x p, ~ In x vis -> In p (walks n vis x) -> starts x p /\ chain R p /\ NoDup p /\ (forall z, In z p -> ~ In z vis).
Proof.
  induction n as [|n IH]; intros vis x p Hx H; [destruct H|]. cbn [walks] in H. destruct H as [<-|H].
  - split; [exists []; reflexivity|]. split; [constructor|]. split; [constructor; [intros []|constructor]|]. intros z [<-|[]]; exact Hx.
  - apply in_flat_map in H. destruct H as (y & Hy & H). destruct (mem y (x :: vis)) eqn:M; [destruct H|]. apply mem_not_In in M.
    apply in_map_iff in H. destruct H as (q & <- & Hq). destruct (IH _ _ _ M Hq) as ((q' & ->) & C & ND & V).
    split; [eexists; reflexivity|]. split; [constructor; assumption|]. split.
    + constructor; [|exact ND]. intros Hin. apply (V x Hin). left; reflexivity.
    + intros z [<-|Hz]; [exact Hx|]. intros Hv. apply (V z Hz). right; exact Hv.
Qed.
Lemma walks_complete : forall n vis x p, starts x p -> chain R p -> NoDup p -> (forall z, In z p -> ~ In z vis) -> List.length p <= n -> In p (walks n vis x).
Proof.
  induction n as [|n IH]; intros vis x p (q & ->) C ND V L; [cbn in L; lia|]. cbn [walks]. destruct q as [|y q]; [left; reflexivity|right].
  apply in_flat_map. exists y. inversion C as [| |? ? ? Hxy C']; subst. split; [exact Hxy|]. inversion ND as [|? ? Nx ND']; subst.
  assert (M : mem y (x :: vis) = false).
  { apply mem_not_In. intros [->|Hv]; [apply Nx; left; reflexivity|]. exact (V y (or_intror (or_introl eq_refl)) Hv). }
  rewrite M. apply in_map. apply IH; [eexists; reflexivity|exact C'|exact ND'| |cbn in L |- *; lia].
  intros z Hz [->|Hv]; [exact (Nx Hz)|exact (V z (or_intror Hz) Hv)].
Qed.
End Walk.

Section Dec.
Variable D : list (id * id).
Notation E := (edge_in D).
Definition kids (x : id) : list id := map snd (filter (fun e => eqb (fst e) x) D).
Definition neighbors (x : id) : list id := kids x ++ map fst (filter (fun e => eqb (snd e) x) D).
Definition bound : nat := S (List.length (map fst D ++ map snd D)).
Definition last_is (y : id) (p : list id) : bool := match p with [] => false | _ => eqb (List.last p y) y end.
Definition reachb (x y : id) : bool := existsb (last_is y) (walks kids bound [] x).
Definition edgeb (x y : id) : bool := mem (x, y) D.
Definition blockedb (S : list id) (a b c : id) : bool :=
  if edgeb a b && edgeb c b then negb (existsb (reachb b) S) else mem b S.
Fixpoint openb (S : list id) (p : list id) : bool :=
  match p with
  | a :: ((b :: c :: _) as q) => negb (blockedb S a b c) && openb S q
  | _ => true
  end.
Definition dsepb (x y : id) (S : list id) : bool :=
  negb (existsb (fun p => last_is y p && openb S p) (walks neighbors bound [] x)).

Lemma kids_In x y : In y (kids x) <-> E x y.
Proof.
  unfold kids, edge_in. rewrite in_map_iff. split.
  - intros ([a b] & <- & H). apply filter_In in H. destruct H as [H Eq]. cbn in *. destruct (eqb_spec a x); [subst; exact H|discriminate].
  - intros H. exists (x, y). split; [reflexivity|]. apply filter_In. split; [exact H|]. cbn. apply eqb_refl.
Qed.
Lemma neighbors_In x y : In y (neighbors x) <-> adjacent E x y.
Proof.
  unfold neighbors, adjacent. rewrite in_app_iff, kids_In. split; intros [H|H]; auto; right.
  - apply in_map_iff in H. destruct H as ([a b] & <- & H). apply filter_In in H. destruct H as [H Eq]. cbn in *. destruct (eqb_spec b x); [subst; exact H|discriminate].
  - apply in_map_iff. exists (y, x). split; [reflexivity|]. apply filter_In. split; [exact H|]. cbn. apply eqb_refl.
Qed.
Lemma edgeb_iff x y : edgeb x y = true <-> E x y.
Proof. unfold edgeb, edge_in. apply mem_In. Qed.
Lemma last_is_iff y p : last_is y p = true <-> ends y p.
Proof.
  unfold last_is, ends. split.
  - intros H. destruct p as [|a p] using rev_ind; [discriminate|].
    assert (H1 : eqb (List.last (p ++ [a]) y) y = true) by (destruct p; exact H).
    rewrite last_last in H1. destruct (eqb_spec a y); [subst|discriminate]. exists p; reflexivity.
  - intros (q & ->). assert (H : eqb (List.last (q ++ [y]) y) y = true) by (rewrite last_last; apply eqb_refl). destruct q; exact H.
Qed.
Lemma chain_ext (R R' : id -> id -> Prop) p : (forall x y, R x y -> R' x y) -> chain R p -> chain R' p.
Proof. intros H C. induction C; constructor; auto. Qed.
Lemma touched (R : id -> id -> Prop) : (forall x y, R x y -> adjacent E x y) -> forall p, chain R p -> forall x q, p = x :: q -> forall z, In z p -> In z (x :: map fst D ++ map snd D).
Proof.
  intros HR p C. induction C as [|x|x y l Hxy C IH]; intros x0 q0 Eq z Hz; [discriminate|injection Eq as -> _; destruct Hz as [<-|[]]; left; reflexivity|].
  injection Eq as <- _. destruct Hz as [<-|Hz]; [left; reflexivity|]. assert (H := IH _ _ eq_refl z Hz). destruct H as [<-|H]; [|right; exact H].
  right. apply in_app_iff. destruct (HR _ _ Hxy) as [H|H]; [right; apply in_map_iff; exists (x, y); auto|left; apply in_map_iff; exists (y, x); auto].
Qed.
Lemma short (R : id -> id -> Prop) x p : (forall x y, R x y -> adjacent E x y) -> chain R p -> starts x p -> NoDup p -> List.length p <= bound.
Proof.
  intros HR C (q & ->) ND. unfold bound. change (S (List.length (map fst D ++ map snd D))) with (List.length (x :: map fst D ++ map snd D)).
  apply NoDup_incl_length; [exact ND|]. intros z Hz. exact (touched R HR _ C x q eq_refl z Hz).
Qed.
Lemma paths_iff x y p : simple_path (adjacent E) x y p <-> In p (walks neighbors bound [] x) /\ last_is y p = true.
Proof.
  rewrite last_is_iff. split.
  - intros (S1 & En & C & ND). split; [|exact En]. assert (C' : chain (fun x y => In y (neighbors x)) p) by (eapply chain_ext; [|exact C]; intros; apply neighbors_In; assumption).
    apply walks_complete; [exact S1|exact C'|exact ND|intros z _ []|exact (short (adjacent E) x p (fun _ _ h => h) C S1 ND)].
  - intros [H En]. destruct (walks_sound neighbors bound [] x p (fun h => h) H) as (S1 & C & ND & _).
    split; [exact S1|]. split; [exact En|]. split; [|exact ND]. eapply chain_ext; [|exact C]. intros a b Hab. apply neighbors_In; exact Hab.
Qed.
Lemma chain_reach : forall p, chain E p -> forall x y, starts x p -> ends y p -> reach E x y.
Proof.
  intros p C. induction C as [|a|a b l Hab C IH]; intros x y (q & Eq) (r & Er).
  - discriminate.
  - injection Eq as -> _. destruct r as [|? [|? ?]]; try discriminate. injection Er as ->. constructor.
  - injection Eq as -> _. destruct r as [|? r]; [discriminate|]. injection Er as -> Er. econstructor; [exact Hab|]. apply IH; [eexists; reflexivity|exists r; exact Er].
Qed.
Hypothesis Ac : acyclic E.
Lemma reach_chain x y : reach E x y -> exists p, chain E p /\ starts x p /\ ends y p /\ NoDup p /\ forall z, In z p -> reach E x z.
Proof.
  intros R. induction R as [x|x y z Hxy R IH].
  - exists [x]. split; [constructor|]. split; [exists []; reflexivity|]. split; [exists []; reflexivity|]. split; [constructor; [intros []|constructor]|]. intros z [<-|[]]; constructor.
  - destruct IH as (p & C & (q & ->) & (r & Er) & ND & Rp). exists (x :: y :: q). split; [constructor; assumption|]. split; [eexists; reflexivity|].
    split; [exists (x :: r); rewrite Er; reflexivity|]. split.
    + constructor; [|exact ND]. intros Hin. apply (Ac x). exists y. split; [exact Hxy|apply Rp; exact Hin].
    + intros w [<-|Hw]; [constructor|]. econstructor; [exact Hxy|apply Rp; exact Hw].
Qed.
Lemma reachb_iff x y : reachb x y = true <-> reach E x y.
Proof.
  unfold reachb. rewrite existsb_exists. split.
  - intros (p & H & L). apply last_is_iff in L. destruct (walks_sound kids bound [] x p (fun h => h) H) as (S1 & C & _ & _).
    eapply chain_reach; [|exact S1|exact L]. eapply chain_ext; [|exact C]. intros a b Hab. apply kids_In; exact Hab.
  - intros R. destruct (reach_chain x y R) as (p & C & S1 & En & ND & _). exists p. split; [|apply last_is_iff; exact En].
    apply walks_complete; [exact S1|eapply chain_ext; [|exact C]; intros; apply kids_In; assumption|exact ND|intros z _ []|].
    exact (short E x p (fun _ _ h => or_introl h) C S1 ND).
Qed.
Lemma blockedb_iff S a b c : blockedb S a b c = false <-> (collider E a b c -> exists d, reach E b d /\ In d S) /\ (~ collider E a b c -> ~ In b S).
Proof.
  unfold blockedb, collider. destruct (edgeb a b) eqn:E1, (edgeb c b) eqn:E2; cbn [andb].
  - apply edgeb_iff in E1, E2. rewrite negb_false_iff, existsb_exists. split.
    + intros (d & H & R). split; [intros _; exists d; split; [apply reachb_iff; exact R|exact H]|intros N; destruct N; auto].
    + intros [H _]. destruct (H (conj E1 E2)) as (d & R & Hd). exists d. split; [exact Hd|apply reachb_iff; exact R].
  - assert (N : ~ (E a b /\ E c b)) by (intros [_ H]; apply edgeb_iff in H; congruence). split; [intros M; apply mem_not_In in M; tauto|intros [_ H]; apply mem_not_In; auto].
  - assert (N : ~ (E a b /\ E c b)) by (intros [H _]; apply edgeb_iff in H; congruence). split; [intros M; apply mem_not_In in M; tauto|intros [_ H]; apply mem_not_In; auto].
  - assert (N : ~ (E a b /\ E c b)) by (intros [H _]; apply edgeb_iff in H; congruence). split; [intros M; apply mem_not_In in M; tauto|intros [_ H]; apply mem_not_In; auto].
Qed.
Lemma openb_iff S p : openb S p = true <-> open_path E (fun z => In z S) p.
Proof.
  unfold open_path. induction p as [|a q IH]; [split; [intros _ a b c ([|? ?] & ? & H); discriminate|reflexivity]|].
  destruct q as [|b [|c r]].
  - split; [intros _ a' b c ([|? [|? ?]] & ? & H); discriminate|reflexivity].
  - split; [intros _ a' b' c ([|? [|? [|? ?]]] & ? & H); discriminate|reflexivity].
  - change (openb S (a :: b :: c :: r)) with (negb (blockedb S a b c) && openb S (b :: c :: r)). rewrite andb_true_iff, negb_true_iff, blockedb_iff, IH. split.
    + intros [H1 H2] a' b' c' (p1 & p2 & H). destruct p1 as [|? p1]; [injection H as <- <- <- _; exact H1|]. injection H as _ H. apply H2. exists p1, p2. exact H.
    + intros H. split; [apply H; exists [], r; reflexivity|]. intros a' b' c' (p1 & p2 & Eq). apply H. exists (a :: p1), p2. rewrite Eq. reflexivity.
Qed.
Theorem dsepb_iff x y S : says (dsepb x y S) (dsep D x y S).
Proof.
  unfold says, dsepb, dsep, d_separated. rewrite negb_true_iff. split.
  - intros H p Hp O. apply paths_iff in Hp. destruct Hp as [Hp L]. apply openb_iff in O.
    assert (T : existsb (fun p => last_is y p && openb S p) (walks neighbors bound [] x) = true) by (apply existsb_exists; exists p; rewrite L, O; auto). congruence.
  - intros H. destruct (existsb _ _) eqn:T; [|reflexivity]. exfalso. apply existsb_exists in T. destruct T as (p & Hp & T). apply andb_true_iff in T. destruct T as [L O].
    apply (H p); [apply paths_iff; auto|apply openb_iff; exact O].
Qed.
End Dec.
