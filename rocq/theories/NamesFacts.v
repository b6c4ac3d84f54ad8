(* Renaming the variables of a DAG: reachability, d-separation and Meek's orientations are carried along. *)
From Verif Require Import Base PyDict PyDictFacts Graph GraphSpec GraphFacts PathSpec Pipeline IndepTests Dag DagFacts SkelSpec OrientSpec TestedSpec.
Open Scope list_scope.
Open Scope nat_scope.

Section Carry.
Variables (D D' : list (id * id)) (ns : list id) (s : id -> id).
Hypothesis Over : forall x y, In (x, y) D -> In x ns /\ In y ns.
Hypothesis Inj : forall x y, In x ns -> In y ns -> s x = s y -> x = y.
Hypothesis Same : forall x y, In x ns -> In y ns -> (edge_in D x y <-> edge_in D' (s x) (s y)).
Notation E := (edge_in D).
Notation E' := (edge_in D').

Lemma edge_carry x y : E x y -> E' (s x) (s y).
Proof. intros H. destruct (Over _ _ H) as [A B]. apply Same; assumption. Qed.
Lemma reach_carry x y : reach E x y -> reach E' (s x) (s y).
Proof. induction 1 as [x|x y z H _ IH]; [constructor|]. eapply reach_step; [apply edge_carry; exact H|exact IH]. Qed.
Lemma plus_carry x y : reach_plus E x y -> reach_plus E' (s x) (s y).
Proof. intros (z & H & R). exists (s z). split; [apply edge_carry; exact H|apply reach_carry; exact R]. Qed.
Lemma reach_in x y : In x ns -> reach E x y -> In y ns.
Proof. intros Hx R. revert Hx. induction R as [x|x y z H _ IH]; [auto|]. intros _. apply IH. exact (proj2 (Over _ _ H)). Qed.
Lemma adj_carry x y : In x ns -> In y ns -> (adjacent E x y <-> adjacent E' (s x) (s y)).
Proof. intros Hx Hy. unfold adjacent. rewrite (Same x y Hx Hy), (Same y x Hy Hx). reflexivity. Qed.
Lemma adj_over x y : adjacent E x y -> In x ns /\ In y ns.
Proof. intros [H|H]; apply Over in H; tauto. Qed.

Lemma chain_in x p : In x ns -> chain (adjacent E) (x :: p) -> forall z, In z (x :: p) -> In z ns.
Proof.
  revert x. induction p as [|y p IH]; intros x Hx C z Hz.
  - destruct Hz as [<-|[]]; exact Hx.
  - destruct Hz as [<-|Hz]; [exact Hx|]. inversion C as [| |a b l A B]; subst. apply (IH y); [exact (proj2 (adj_over _ _ A))|exact B|exact Hz].
Qed.
Lemma chain_carry p : chain (adjacent E) p -> chain (adjacent E') (map s p).
Proof.
  induction 1 as [|x|x y l A B IH]; cbn [map]; [constructor|constructor|]. constructor; [|exact IH].
  destruct (adj_over _ _ A) as [Hx Hy]. apply (adj_carry x y Hx Hy). exact A.
Qed.
Lemma nodup_carry p : (forall z, In z p -> In z ns) -> NoDup p -> NoDup (map s p).
Proof.
  intros H ND. induction ND as [|x p A B IH]; cbn [map]; [constructor|]. constructor.
  - intros Hin. apply in_map_iff in Hin. destruct Hin as (z & Ez & Hz). apply A. rewrite <- (Inj z x (H z (or_intror Hz)) (H x (or_introl eq_refl)) Ez). exact Hz.
  - apply IH. intros z Hz. apply H. right. exact Hz.
Qed.
Lemma triple_back p a b c : triple_on (map s p) a b c -> exists a' b' c', triple_on p a' b' c' /\ a = s a' /\ b = s b' /\ c = s c'.
Proof.
  intros (p1 & p2 & Ep). apply map_eq_app in Ep. destruct Ep as (q1 & q2 & -> & _ & E2).
  apply map_eq_cons in E2. destruct E2 as (a' & q3 & -> & <- & E3). apply map_eq_cons in E3. destruct E3 as (b' & q4 & -> & <- & E4).
  apply map_eq_cons in E4. destruct E4 as (c' & q5 & -> & <- & _). exists a', b', c'. split; [exists q1, q5; reflexivity|auto].
Qed.
Lemma dsep_carry x y S : In x ns -> (forall z, In z S -> In z ns) -> dsep D' (s x) (s y) (map s S) -> dsep D x y S.
Proof.
  intros Hx HS H p (St & En & C & ND) Op. destruct St as (q & ->). assert (In_p := chain_in x q Hx C).
  apply (H (map s (x :: q))).
  - split; [exists (map s q); reflexivity|]. split; [|split; [exact (chain_carry _ C)|exact (nodup_carry _ In_p ND)]].
    destruct En as (q' & ->). exists (map s q'). rewrite map_app. reflexivity.
  - intros a b c T. apply triple_back in T. destruct T as (a' & b' & c' & T & -> & -> & ->). destruct (Op _ _ _ T) as [O1 O2].
    assert (I3 : In a' ns /\ In b' ns /\ In c' ns).
    { destruct T as (p1 & p2 & Ep). split; [|split]; apply In_p; rewrite Ep; apply in_or_app; right; cbn; auto. }
    destruct I3 as (Ia & Ib & Ic). assert (Col : collider E a' b' c' <-> collider E' (s a') (s b') (s c')).
    { unfold collider. rewrite (Same a' b' Ia Ib), (Same c' b' Ic Ib). reflexivity. }
    split.
    + intros K. apply Col in K. destruct (O1 K) as (d & R & Sd). exists (s d). split; [apply reach_carry; exact R|apply in_map; exact Sd].
    + intros K Hs. apply in_map_iff in Hs. destruct Hs as (w & Ew & Hw). apply (O2 (fun k => K (proj1 Col k))).
      rewrite <- (Inj w b' (HS w Hw) Ib Ew). exact Hw.
Qed.

Lemma vs_carry x z y : In x ns -> In z ns -> In y ns -> (vstruct D x z y <-> vstruct D' (s x) (s z) (s y)).
Proof.
  intros Hx Hz Hy. unfold vstruct. rewrite (Same x z Hx Hz), (Same y z Hy Hz), (adj_carry x y Hx Hy).
  split; intros (A & B & Ne & F); (split; [exact A|split; [exact B|split; [|exact F]]]); intros Eq; apply Ne; [exact (Inj _ _ Hx Hy Eq)|rewrite Eq; reflexivity].
Qed.
Lemma or_over x y : oriented D x y -> In x ns /\ In y ns.
Proof.
  induction 1 as [x z y V|x z y _ _ A _ _ _|x z y _ _ _ _ A|x y w z _ _ _ _ _ _ A _ _ _|x y w z _ _ _ _ _ _ A _ _ _].
  - exact (Over _ _ (proj1 V)).
  - exact (adj_over _ _ A).
  - exact (adj_over _ _ A).
  - exact (adj_over _ _ A).
  - exact (adj_over _ _ A).
Qed.
Lemma ne_carry x y : In x ns -> In y ns -> x <> y -> s x <> s y.
Proof. intros Hx Hy Ne Eq. apply Ne. exact (Inj _ _ Hx Hy Eq). Qed.
Lemma or_carry x y : oriented D x y -> oriented D' (s x) (s y).
Proof.
  induction 1 as [x z y V|x z y O IH A Ne NA NV|x z y O IH O' IH' A|x y w z O IH O' IH' A1 A2 A3 Ne NA NV|x y w z O IH O' IH' A1 A2 A3 Ne NA NV].
  - assert (Hx := Over _ _ (proj1 V)). assert (Hy := Over _ _ (proj1 (proj2 V))). apply or_v with (y := s y). apply vs_carry; tauto.
  - destruct (or_over _ _ O) as [Hx Hz]. destruct (adj_over _ _ A) as [_ Hy].
    apply or_1 with (x := s x); [exact IH|apply adj_carry; assumption|apply ne_carry; assumption| |].
    + intros K. apply NA. apply adj_carry; assumption.
    + intros K. apply NV. apply vs_carry; assumption.
  - destruct (adj_over _ _ A) as [Hx Hy]. apply or_2 with (z := s z); [exact IH|exact IH'|apply adj_carry; assumption].
  - destruct (adj_over _ _ A1) as [Hx Hy]. destruct (adj_over _ _ A2) as [_ Hw]. destruct (adj_over _ _ A3) as [_ Hz].
    apply or_3 with (y := s y) (w := s w); [exact IH|exact IH'|apply adj_carry; assumption|apply adj_carry; assumption|apply adj_carry; assumption|apply ne_carry; assumption| |].
    + intros K. apply NA. apply adj_carry; assumption.
    + intros K. apply NV. apply vs_carry; assumption.
  - destruct (adj_over _ _ A1) as [Hx Hy]. destruct (adj_over _ _ A2) as [_ Hw]. destruct (adj_over _ _ A3) as [_ Hz].
    apply or_4 with (y := s y) (w := s w); [exact IH|exact IH'|apply adj_carry; assumption|apply adj_carry; assumption|apply adj_carry; assumption|apply ne_carry; assumption| |].
    + intros K. apply NA. apply adj_carry; assumption.
    + intros K. apply NV. apply vs_carry; assumption.
Qed.
End Carry.

(* a renaming of a list of names has an inverse there *)
Definition back (s : id -> id) (ns : list id) (u : id) : id := match find (fun x => eqb (s x) u) ns with Some x => x | None => u end.
Section Rename.
Variables (ns ns' : list id) (s : id -> id) (D : list (id * id)).
Hypothesis Perm : Permutation ns' (map s ns).
Hypothesis Inj : forall x y, In x ns -> In y ns -> s x = s y -> x = y.
Notation t := (back s ns).
Definition image : list (id * id) := map (fun p => (s (fst p), s (snd p))) D.

Lemma into x : In x ns -> In (s x) ns'.
Proof. intros H. eapply Permutation_in; [apply Permutation_sym; exact Perm|apply in_map; exact H]. Qed.
Lemma back_s x : In x ns -> t (s x) = x.
Proof.
  intros H. unfold back. destruct (find (fun w => eqb (s w) (s x)) ns) as [w|] eqn:F.
  - apply find_some in F. destruct F as [Hw Ew]. destruct (eqb_spec (s w) (s x)) as [Q|Q]; [|discriminate]. exact (Inj w x Hw H Q).
  - exfalso. assert (F' := find_none _ _ F x H). cbn beta in F'. destruct (eqb_spec (s x) (s x)); [discriminate|congruence].
Qed.
Lemma back_in u : In u ns' -> In (t u) ns /\ s (t u) = u.
Proof.
  intros H. assert (X := Permutation_in _ Perm H). apply in_map_iff in X. destruct X as (x & <- & Hx). rewrite (back_s x Hx). auto.
Qed.
Lemma back_inj u v : In u ns' -> In v ns' -> t u = t v -> u = v.
Proof. intros Hu Hv Eq. destruct (back_in u Hu) as [_ A]. destruct (back_in v Hv) as [_ B]. congruence. Qed.

Hypothesis Over : forall x y, In (x, y) D -> In x ns /\ In y ns.
Lemma image_edges x y : In x ns -> In y ns -> (edge_in D x y <-> edge_in image (s x) (s y)).
Proof.
  intros Hx Hy. unfold edge_in, image. rewrite in_map_iff. split.
  - intros H. exists (x, y). auto.
  - intros ([a b] & Eq & H). cbn [fst snd] in Eq. injection Eq as Ea Eb. destruct (Over _ _ H) as [Ha Hb]. rewrite (Inj _ _ Ha Hx Ea), (Inj _ _ Hb Hy Eb) in H. exact H.
Qed.
Lemma image_over u v : In (u, v) image -> In u ns' /\ In v ns'.
Proof.
  unfold image. rewrite in_map_iff. intros ([a b] & Eq & H). cbn [fst snd] in Eq. injection Eq as <- <-. destruct (Over _ _ H) as [Ha Hb]. split; apply into; assumption.
Qed.
Lemma image_back u v : In u ns' -> In v ns' -> (edge_in image u v <-> edge_in D (t u) (t v)).
Proof. intros Hu Hv. destruct (back_in u Hu) as [Iu Eu]. destruct (back_in v Hv) as [Iv Ev]. rewrite (image_edges _ _ Iu Iv), Eu, Ev. reflexivity. Qed.
Lemma image_acyclic : acyclic (edge_in D) -> acyclic (edge_in image).
Proof. intros A u H. exact (A (t u) (plus_carry image D ns' t image_over image_back u u H)). Qed.
Lemma image_dsep x y S : In x ns -> (forall z, In z S -> In z ns) -> In y ns -> (dsep image (s x) (s y) (map s S) <-> dsep D x y S).
Proof.
  intros Hx HS Hy. split.
  - apply (dsep_carry D image ns s Over Inj image_edges x y S Hx HS).
  - intros H. apply (dsep_carry image D ns' t image_over back_inj image_back); [apply into; exact Hx| |].
    + intros z Hz. apply in_map_iff in Hz. destruct Hz as (w & <- & Hw). apply into. exact (HS w Hw).
    + rewrite (back_s x Hx), (back_s y Hy), map_map. replace (map (fun z => t (s z)) S) with S; [exact H|].
      rewrite <- (map_id S) at 1. apply map_ext_in. intros z Hz. symmetry. apply back_s. exact (HS z Hz).
Qed.
Lemma image_adjacent x y : In x ns -> In y ns -> (adjacent (edge_in D) x y <-> adjacent (edge_in image) (s x) (s y)).
Proof. exact (adj_carry D image ns s image_edges x y). Qed.
Lemma image_oriented x y : In x ns -> In y ns -> (oriented D x y <-> oriented image (s x) (s y)).
Proof.
  intros Hx Hy. split; [exact (or_carry D image ns s Over Inj image_edges x y)|]. intros H.
  apply (or_carry image D ns' t image_over back_inj image_back) in H. rewrite (back_s x Hx), (back_s y Hy) in H. exact H.
Qed.

(* tests that are perfect for D on the columns are perfect for the renamed DAG on the renamed columns *)
Lemma image_tests N vals vals' c : (forall x, In x ns -> vals' (s x) = vals x) -> perfect_tests N vals ns D c ->
  perfect_tests N vals' ns' image (fun u v => c (t u) (t v)).
Proof.
  intros V [T1 T2 T3 T4 T5]. assert (B := back_in).
  assert (V' : forall u, In u ns' -> vals' u = vals (t u)) by (intros u Hu; destruct (B u Hu) as [Iu Eu]; rewrite <- (V _ Iu), Eu; reflexivity).
  assert (Ds : forall u v S, In u ns' -> In v ns' -> (forall z, In z S -> In z ns') -> (dsep image u v S <-> dsep D (t u) (t v) (map t S))).
  { intros u v S Hu Hv HS. destruct (B u Hu) as [Iu Eu]. destruct (B v Hv) as [Iv Ev]. rewrite <- (image_dsep (t u) (t v) (map t S) Iu).
    - rewrite Eu, Ev, map_map. replace (map (fun z => s (t z)) S) with S; [reflexivity|]. rewrite <- (map_id S) at 1. apply map_ext_in. intros z Hz. symmetry. exact (proj2 (B z (HS z Hz))).
    - intros z Hz. apply in_map_iff in Hz. destruct Hz as (w & <- & Hw). exact (proj1 (B w (HS w Hw))).
    - exact Iv. }
  split.
  - intros u v. apply T1.
  - intros u v Hu Hv Ne. rewrite (V' u Hu), (V' v Hv). apply T2; [apply B; exact Hu|apply B; exact Hv|]. intros Eq. exact (Ne (back_inj _ _ Hu Hv Eq)).
  - intros u v Hu Hv Ne. rewrite (V' u Hu). destruct (T3 (t u) (t v)) as (b & Eb & Sb); [apply B; exact Hu|apply B; exact Hv|intros Eq; exact (Ne (back_inj _ _ Hu Hv Eq))|].
    exists b. split; [exact Eb|]. unfold says in *. rewrite (Ds u v [] Hu Hv ltac:(intros z [])). exact Sb.
  - intros u v w Hu Hv Hw ND. rewrite (V' u Hu).
    destruct (T4 (t u) (t v) (t w)) as (b & Eb & Sb); [apply B; exact Hu|apply B; exact Hv|apply B; exact Hw| |].
    { apply (nodup_carry ns' t back_inj [u; v; w]); [|exact ND]. intros z [<-|[<-|[<-|[]]]]; assumption. }
    exists b. split; [exact Eb|]. unfold says in *. rewrite (Ds u v [w] Hu Hv ltac:(intros z [<-|[]]; exact Hw)). exact Sb.
  - intros u v S ND Il Sn.
    assert (Hu : In u ns') by (apply Il; left; reflexivity). assert (Hv : In v ns') by (apply Il; right; left; reflexivity).
    assert (HS : forall z, In z S -> In z ns') by (intros z Hz; apply Il; right; right; exact Hz).
    destruct (T5 (t u) (t v) (map t S)) as (b & Eb & Sb).
    + exact (nodup_carry ns' t back_inj (u :: v :: S) Il ND).
    + intros z Hz. change (In z (map t (u :: v :: S))) in Hz. apply in_map_iff in Hz. destruct Hz as (w & <- & Hw). exact (proj1 (B w (Il w Hw))).
    + intros Eq. apply Sn. apply map_eq_nil in Eq. exact Eq.
    + exists b. split.
      * replace (map vals' (u :: v :: S)) with (map vals (map t (u :: v :: S))); [exact Eb|]. rewrite map_map. apply map_ext_in. intros z Hz. symmetry. apply V'. exact (Il z Hz).
      * unfold says in *. rewrite (Ds u v S Hu Hv HS). exact Sb.
Qed.
End Rename.
