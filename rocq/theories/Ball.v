(* d-connection by walks with a state, equivalent to d-connection by simple paths. *)
From Verif Require Import Base Graph Dag DagFacts DagSep Chordal.
Open Scope list_scope.
Open Scope nat_scope.

Section Ball.
Variable E : id -> id -> Prop.
Variable S : list id.
Variable u : id.
(* ball v true: a walk that starts in u arrives at v along an arrow into v; ball v false: along an arrow out of v *)
Inductive ball : id -> bool -> Prop :=
| b_out : forall w, E u w -> ball w true
| b_in : forall w, E w u -> ball w false
| b_down : forall v h w, ball v h -> ~ In v S -> E v w -> ball w true
| b_up : forall v w, ball v false -> ~ In v S -> E w v -> ball w false
| b_turn : forall v w, ball v true -> In v S -> E w v -> ball w false.
End Ball.

Section Walk.
Variable E : id -> id -> Prop.
Variable dec : forall x y, {E x y} + {~ E x y}.
Hypothesis Ac : acyclic E.
Variable S : list id.
Notation inS := (fun z => In z S).

(* ---- from an open path to the ball ---- *)
Lemma detour u b d : reach E b d -> In d S -> ball E S u b true -> In b S \/ (~ In b S /\ ball E S u b false).
Proof.
  intros R. induction R as [b|b c d Ebc R IH]; intros Sd B; [left; exact Sd|]. destruct (in_dec string_dec b S) as [I|I]; [left; exact I|]. right. split; [exact I|].
  destruct (IH Sd (b_down _ _ _ b true c B I Ebc)) as [Ic|[Nc Bc]].
  - exact (b_turn _ _ _ c b (b_down _ _ _ b true c B I Ebc) Ic Ebc).
  - exact (b_up _ _ _ c b Bc Nc Ebc).
Qed.
Definition arrives (u a b : id) : Prop := (E a b -> ball E S u b true) /\ (E b a -> ball E S u b false).
Lemma path_ball u t : forall r a b, chain (adjacent E) (a :: b :: r) -> open_path E inS (a :: b :: r) -> ends t (a :: b :: r) -> arrives u a b -> exists h, ball E S u t h.
Proof.
  induction r as [|c r IH]; intros a b C O T A.
  - destruct T as (q & T). destruct q as [|q0 [|q1 q]]; cbn in T; [discriminate| |destruct q; discriminate]. injection T as Ea Eb. rewrite Eb in *. clear Ea.
    assert (Aab : adjacent E a t) by (inversion C; subst; assumption). destruct Aab as [H|H]; [exists true; apply (proj1 A); exact H|exists false; apply (proj2 A); exact H].
  - assert (Aab : adjacent E a b) by (inversion C; subst; assumption). assert (C' : chain (adjacent E) (b :: c :: r)) by (inversion C; subst; assumption).
    destruct (O a b c (ex_intro _ [] (ex_intro _ r eq_refl))) as [O1 O2].
    apply (IH b c C').
    + intros x y z (p1 & p2 & Eq). apply (O x y z). exists (a :: p1), p2. cbn. rewrite Eq. reflexivity.
    + destruct T as (q & T). destruct q as [|q0 q]; [discriminate|]. cbn in T. injection T as _ T. exists q. exact T.
    + destruct (dec a b) as [Eab|Nab].
      * assert (B := proj1 A Eab). split; intros H.
        -- assert (NC : ~ collider E a b c) by (intros [_ X]; exact (no_two E Ac _ _ H X)). exact (b_down _ _ _ b true c B (O2 NC) H).
        -- destruct (O1 (conj Eab H)) as (d & Rd & Sd). destruct (detour u b d Rd Sd B) as [I|[N Bf]]; [exact (b_turn _ _ _ b c B I H)|exact (b_up _ _ _ b c Bf N H)].
      * assert (NC : ~ collider E a b c) by (intros [X _]; exact (Nab X)). assert (Eba : E b a) by (destruct Aab; [contradiction|assumption]). assert (B := proj2 A Eba). split; intros H.
        -- exact (b_down _ _ _ b false c B (O2 NC) H).
        -- exact (b_up _ _ _ b c B (O2 NC) H).
Qed.
Lemma open_ball u t p : u <> t -> simple_path (adjacent E) u t p -> open_path E inS p -> exists h, ball E S u t h.
Proof.
  intros Ne SP O. destruct (path_start E u t p Ne SP) as (a & r & -> & Aua & C). destruct SP as (_ & T & _ & _). apply (path_ball u t r u a C O T). split; intros H; [apply b_out|apply b_in]; exact H.
Qed.

(* ---- from the ball to an open walk ---- *)
Definition walk_to (u v : id) (h : bool) : Prop := exists q a, starts u (q ++ [a; v]) /\ chain (adjacent E) (q ++ [a; v]) /\ open_path E inS (q ++ [a; v]) /\ (if h then E a v else E v a).
Lemma triple_snoc (q : list id) a v w x y z : triple_on (q ++ [a; v; w]) x y z -> triple_on (q ++ [a; v]) x y z \/ (x = a /\ y = v /\ z = w).
Proof.
  intros (p1 & p2 & Eq). destruct p2 as [|e p2] using rev_ind.
  - right. assert (X : (q ++ [a]) ++ [v; w] = (p1 ++ [x]) ++ [y; z]) by (rewrite <- !app_assoc; exact Eq). assert (Y : ((q ++ [a]) ++ [v]) ++ [w] = ((p1 ++ [x]) ++ [y]) ++ [z]) by (rewrite <- !app_assoc in *; exact Eq).
    apply app_inj_tail in Y. destruct Y as [Y ->]. apply app_inj_tail in Y. destruct Y as [Y ->]. apply app_inj_tail in Y. destruct Y as [_ ->]. auto.
  - left. assert (Y : (q ++ [a; v]) ++ [w] = (p1 ++ x :: y :: z :: p2) ++ [e]) by (rewrite <- !app_assoc; cbn; exact Eq). apply app_inj_tail in Y. destruct Y as [Y _]. exists p1, p2. exact Y.
Qed.
Lemma chain_snoc (R : id -> id -> Prop) q a v w : chain R (q ++ [a; v]) -> R v w -> chain R (q ++ [a; v; w]).
Proof. intros C H. replace (q ++ [a; v; w]) with ((q ++ [a]) ++ v :: [w]) by (rewrite <- app_assoc; reflexivity). apply chain_join; [rewrite <- app_assoc; exact C|constructor; [exact H|constructor]]. Qed.
Lemma extend u v h w (h' : bool) : walk_to u v h -> (if h' then E v w else E w v) ->
  (forall a, (if h then E a v else E v a) -> (collider E a v w -> exists d, reach E v d /\ In d S) /\ (~ collider E a v w -> ~ In v S)) -> walk_to u w h'.
Proof.
  intros (q & a & St & C & O & H) W T. exists (q ++ [a]), v. replace ((q ++ [a]) ++ [v; w]) with (q ++ [a; v; w]) by (rewrite <- app_assoc; reflexivity). split; [|split; [|split; [|exact W]]].
  - destruct St as (r & St). exists (r ++ [w]). replace (q ++ [a; v; w]) with ((q ++ [a; v]) ++ [w]) by (rewrite <- app_assoc; reflexivity). rewrite St. reflexivity.
  - apply chain_snoc; [exact C|]. destruct h'; [left|right]; exact W.
  - intros x y z X. apply triple_snoc in X. destruct X as [X|(-> & -> & ->)]; [exact (O x y z X)|exact (T a H)].
Qed.
Lemma ball_walk u v h : ball E S u v h -> walk_to u v h.
Proof.
  assert (S0 : forall w (h : bool), (if h then E u w else E w u) -> walk_to u w h).
  { intros w h0 H. exists [], u. split; [exists [w]; reflexivity|]. split; [constructor; [destruct h0; [left|right]; exact H|constructor]|]. split; [|exact H].
    intros x y z (p1 & p2 & Eq). cbn [app] in Eq. apply (f_equal (@List.length _)) in Eq. rewrite app_length in Eq. cbn [List.length] in Eq. lia. }
  induction 1 as [w H|w H|v h w B IH N H|v w B IH N H|v w B IH I H].
  - exact (S0 w true H).
  - exact (S0 w false H).
  - apply (extend u v h w true IH H). intros a Ha. split; [intros [_ X]; destruct (no_two E Ac _ _ H X)|auto].
  - apply (extend u v false w false IH H). intros a Ha. split; [intros [X _]; destruct (no_two E Ac _ _ Ha X)|auto].
  - apply (extend u v true w false IH H). intros a Ha. split; [intros _; exists v; split; [constructor|exact I]|intros X; destruct X; split; assumption].
Qed.

(* ---- from an open walk to an open path ---- *)
Lemma loop_turns : forall r a b z, E a b -> chain (adjacent E) (a :: b :: r) -> open_path E inS (a :: b :: r) -> ends z (a :: b :: r) ->
  (forall q c, a :: b :: r = q ++ [c; z] -> E z c) -> exists d, reach E a d /\ In d S.
Proof.
  induction r as [|c r IH]; intros a b z Eab C O T L.
  - destruct T as (q & T). destruct q as [|q0 [|q1 q]]; cbn in T; [discriminate| |destruct q; discriminate]. injection T as -> ->. destruct (no_two E Ac q0 z Eab (L [] q0 eq_refl)).
  - assert (C' : chain (adjacent E) (b :: c :: r)) by (inversion C; subst; assumption). assert (Abc : adjacent E b c) by (inversion C'; subst; assumption).
    destruct (O a b c (ex_intro _ [] (ex_intro _ r eq_refl))) as [O1 O2]. destruct (dec c b) as [Ecb|Ncb].
    + destruct (O1 (conj Eab Ecb)) as (d & Rd & Sd). exists d. split; [econstructor; eassumption|exact Sd].
    + assert (Ebc : E b c) by (destruct Abc; [assumption|contradiction]). destruct (IH b c z Ebc C') as (d & Rd & Sd).
      * intros x y w (p1 & p2 & Eq). apply (O x y w). exists (a :: p1), p2. cbn. rewrite Eq. reflexivity.
      * destruct T as (q & T). destruct q as [|q0 q]; [discriminate|]. cbn in T. injection T as _ T. exists q. exact T.
      * intros q e Eq. apply (L (a :: q) e). cbn. rewrite Eq. reflexivity.
      * exists d. split; [econstructor; eassumption|exact Sd].
Qed.
Lemma triple_glue (p1 : list id) v r x y z : triple_on (p1 ++ v :: r) x y z ->
  triple_on (p1 ++ [v]) x y z \/ triple_on (v :: r) x y z \/ (exists p0 r0, p1 = p0 ++ [x] /\ y = v /\ r = z :: r0).
Proof.
  intros (l1 & l2 & Eq). revert l1 Eq. induction p1 as [|a p1 IH]; intros l1 Eq; cbn [app] in Eq.
  - right; left. exists l1, l2. exact Eq.
  - destruct l1 as [|b l1]; cbn [app] in Eq.
    + injection Eq as -> Eq. destruct p1 as [|a1 p1]; cbn [app] in Eq.
      * injection Eq as -> ->. right; right. exists [], l2. auto.
      * injection Eq as -> Eq. left. destruct p1 as [|a2 p1]; cbn [app] in Eq; injection Eq as -> Eq; [exists [], []; reflexivity|exists [], (p1 ++ [v]); reflexivity].
    + injection Eq as -> Eq. destruct (IH l1 Eq) as [(m1 & m2 & X)|[X|(p0 & r0 & -> & -> & ->)]].
      * left. exists (b :: m1), m2. cbn. rewrite X. reflexivity.
      * right; left. exact X.
      * right; right. exists (b :: p0), r0. auto.
Qed.
Lemma shorten u t p : starts u p -> ends t p -> chain (adjacent E) p -> open_path E inS p -> ~ NoDup p ->
  exists p', List.length p' < List.length p /\ starts u p' /\ ends t p' /\ chain (adjacent E) p' /\ open_path E inS p'.
Proof.
  intros St En C O ND. destruct (repeated p ND) as (v & p1 & q & r & ->). exists (p1 ++ v :: r).
  assert (Cmid : chain (adjacent E) (v :: q ++ v :: r)) by (exact (chain_tail _ p1 _ C)).
  assert (Cend : chain (adjacent E) (v :: r)) by (apply (chain_tail _ (v :: q)); exact Cmid).
  assert (Cpre : chain (adjacent E) (p1 ++ [v])).
  { replace (p1 ++ v :: q ++ v :: r) with ((p1 ++ [v]) ++ q ++ v :: r) in C by (rewrite <- app_assoc; reflexivity). apply chain_app_inv in C. exact (proj1 C). }
  split; [rewrite !app_length; cbn; rewrite app_length; cbn; lia|]. split; [destruct St as (s & St); destruct p1 as [|a p1]; cbn in *; injection St as -> _; eexists; reflexivity|].
  split.
  { destruct En as (e & En). destruct r as [|x r] using rev_ind.
    - exists p1. f_equal. assert (X : (p1 ++ v :: q) ++ [v] = e ++ [t]) by (rewrite <- En, <- app_assoc; reflexivity). apply app_inj_tail in X. destruct X as [_ ->]. reflexivity.
    - exists (p1 ++ v :: r). assert (X : (p1 ++ v :: q ++ v :: r) ++ [x] = e ++ [t]) by (rewrite <- En, <- app_assoc; cbn; rewrite <- app_assoc; reflexivity). apply app_inj_tail in X. destruct X as [_ ->]. rewrite <- app_assoc. reflexivity. }
  split; [apply chain_join; assumption|].
  intros x y z T. apply triple_glue in T. destruct T as [(m1 & m2 & X)|[(m1 & m2 & X)|(p0 & r0 & -> & -> & ->)]].
  - apply O. exists m1, (m2 ++ q ++ v :: r). replace (p1 ++ v :: q ++ v :: r) with ((p1 ++ [v]) ++ q ++ v :: r) by (rewrite <- app_assoc; reflexivity). rewrite X, <- app_assoc. reflexivity.
  - apply O. exists (p1 ++ v :: q ++ m1), m2. rewrite X, <- (app_assoc p1). cbn [app]. rewrite <- (app_assoc q). reflexivity.
  - destruct q as [|q1 q].
    { exfalso. cbn in Cmid. assert (X : adjacent E v v) by (inversion Cmid; subst; assumption). destruct X as [X|X]; exact (no_loop E Ac v X). }
    assert (T1 : triple_on ((p0 ++ [x]) ++ v :: (q1 :: q) ++ v :: z :: r0) x v q1) by (exists p0, (q ++ v :: z :: r0); rewrite <- app_assoc; reflexivity).
    destruct (exists_last (l := q1 :: q) ltac:(discriminate)) as (q' & qk & Eq).
    assert (T2 : triple_on ((p0 ++ [x]) ++ v :: (q1 :: q) ++ v :: z :: r0) qk v z) by (exists ((p0 ++ [x]) ++ v :: q'), r0; rewrite Eq; repeat (rewrite <- app_assoc; cbn [app]); reflexivity).
    destruct (O _ _ _ T1) as [A1 A2]. destruct (O _ _ _ T2) as [B1 B2]. split.
    + intros [Exv Ezv]. destruct (dec q1 v) as [E1|N1]; [apply A1; split; assumption|]. destruct (dec qk v) as [E2|N2]; [apply B1; split; assumption|].
      assert (Evq : E v q1) by (cbn in Cmid; assert (X : adjacent E v q1) by (inversion Cmid; subst; assumption); destruct X; [assumption|contradiction]).
      assert (Cl : chain (adjacent E) (v :: q1 :: q ++ [v])).
      { replace (v :: (q1 :: q) ++ v :: z :: r0) with ((v :: q1 :: q ++ [v]) ++ z :: r0) in Cmid by (cbn; rewrite <- app_assoc; reflexivity). apply chain_app_inv in Cmid. exact (proj1 Cmid). }
      assert (Evk : E v qk).
      { replace (v :: q1 :: q ++ [v]) with (v :: (q1 :: q) ++ [v]) in Cl by reflexivity. rewrite Eq in Cl. replace (v :: (q' ++ [qk]) ++ [v]) with ((v :: q') ++ qk :: v :: []) in Cl by (rewrite <- app_assoc; reflexivity).
        assert (X := chain_mid _ (v :: q') qk v [] Cl). destruct X as [X|X]; [contradiction|exact X]. }
      apply (loop_turns (q ++ [v]) v q1 v Evq Cl).
      * intros a b c (m1 & m2 & X). apply O. exists ((p0 ++ [x]) ++ m1), (m2 ++ z :: r0). replace ((p0 ++ [x]) ++ v :: (q1 :: q) ++ v :: z :: r0) with ((p0 ++ [x]) ++ (v :: q1 :: q ++ [v]) ++ z :: r0) by (cbn; rewrite <- !app_assoc; reflexivity).
        rewrite X, <- !app_assoc. reflexivity.
      * exists (v :: q1 :: q). reflexivity.
      * intros s c Es. replace (v :: q1 :: q ++ [v]) with ((v :: (q1 :: q)) ++ [v]) in Es by reflexivity. rewrite Eq in Es. replace (s ++ [c; v]) with ((s ++ [c]) ++ [v]) in Es by (rewrite <- app_assoc; reflexivity).
        apply app_inj_tail in Es. destruct Es as [Es _]. replace (v :: q' ++ [qk]) with ((v :: q') ++ [qk]) in Es by reflexivity. apply app_inj_tail in Es. destruct Es as [_ <-]. exact Evk.
    + intros NC I. apply NC. split.
      * destruct (dec x v) as [X|X]; [exact X|]. exfalso. apply A2; [intros [Y _]; contradiction|exact I].
      * destruct (dec z v) as [X|X]; [exact X|]. exfalso. apply B2; [intros [_ Y]; contradiction|exact I].
Qed.
Lemma walk_path u t : forall n p, List.length p <= n -> starts u p -> ends t p -> chain (adjacent E) p -> open_path E inS p -> exists p', simple_path (adjacent E) u t p' /\ open_path E inS p'.
Proof.
  induction n as [|n IH]; intros p L St En C O; [destruct St as (q & ->); cbn in L; lia|]. destruct (ListDec.NoDup_dec string_dec p) as [ND|ND]; [exists p; split; [split; auto|exact O]|].
  destruct (shorten u t p St En C O ND) as (p' & L' & St' & En' & C' & O'). apply (IH p'); auto. lia.
Qed.
Lemma sep_ball u t : u <> t -> (d_separated E u t inS <-> forall h, ~ ball E S u t h).
Proof.
  intros Ne. split.
  - intros Sep h B. destruct (ball_walk u t h B) as (q & a & St & C & O & _). assert (En : ends t (q ++ [a; t])) by (exists (q ++ [a]); rewrite <- app_assoc; reflexivity). destruct (walk_path u t _ _ (le_n _) St En C O) as (p & SP & Op). exact (Sep p SP Op).
  - intros N p SP O. destruct (open_ball u t p Ne SP O) as (h & B). exact (N h B).
Qed.
End Walk.
