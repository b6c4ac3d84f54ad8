(* Facts about a ColliderTest step on an arbitrary skeleton: conflicting proposals never delete an
   adjacency, with either conflict strategy. *)
From Verif Require Import Base PyDict PyDictFacts Graph GraphSpec GraphFacts GraphInv GraphQ Actions ActionSpec ActionFacts ActionMain Generators GenSpec GenFacts
  Rules RuleFacts IndepTests Pipeline Parallel PipeSpec PipeFacts PipeMain LoopFacts Dag PathSpec SkelSpec OrientSpec.
Open Scope string_scope.
Open Scope list_scope.
Open Scope nat_scope.

(* which directions are switched off *)
Definition dirs := (id * id -> bool)%type.
Definition upd (D : dirs) (p : id * id) (b : bool) : dirs := fun q => if eqb q p then b else D q.
Definition sim (D : dirs) (i : tresult) : dirs :=
  match t_act i with
  | REMOVE_EDGE_DIRECTED => upd D (t_u i, t_v i) true
  | RESTORE_EDGE_DIRECTED => upd D (t_u i, t_v i) false
  | _ => D
  end.
Definition sims (D : dirs) (l : list tresult) : dirs := fold_left sim l D.
Definition never_off (D : dirs) : Prop := forall a b, D (a, b) = true -> D (b, a) = false.

Section Step.
Variable g0 : graph.
Hypothesis W0 : WF g0.
Hypothesis SK : forall u v e, eget g0 u v = Some e -> eget g0 v u <> None.
Definition has (p : id * id) : Prop := eget g0 (fst p) (snd p) <> None.
Definition matches (g : graph) (D : dirs) : Prop := WF g /\
  (forall a b, match eget g a b, eget g0 a b with
               | Some e, Some _ => e_del e = D (a, b)
               | None, None => True
               | _, _ => False
               end).
Definition item_ok (i : tresult) : Prop :=
  (t_act i = DO_NOTHING) \/ ((t_act i = REMOVE_EDGE_DIRECTED \/ t_act i = RESTORE_EDGE_DIRECTED) /\ has (t_u i, t_v i)).

Lemma matches_dee g D a b : matches g D -> has (a, b) -> directed_edge_exists g a b = negb (D (a, b)).
Proof.
  intros [W M] Ha. rewrite (dee_val g a b W). specialize (M a b). unfold has in Ha. cbn in Ha.
  destruct (eget g0 a b); [|congruence]. destruct (eget g a b); [|destruct M]. rewrite M. reflexivity.
Qed.
Lemma has_sym a b : has (a, b) -> has (b, a).
Proof. unfold has; cbn. intros Ha. destruct (eget g0 a b) as [e|] eqn:E; [exact (SK _ _ _ E)|congruence]. Qed.
Lemma matches_none g D a b : matches g D -> ~ has (a, b) -> directed_edge_exists g a b = false.
Proof.
  intros [W M] Ha. rewrite (dee_val g a b W). specialize (M a b). unfold has in Ha. cbn in Ha.
  destruct (eget g0 a b); [destruct Ha; discriminate|]. destruct (eget g a b); [destruct M|reflexivity].
Qed.

Lemma sim_apply g D i : matches g D -> never_off D -> item_ok i ->
  exists g' b, apply_action i g = (g', Ok b) /\ matches g' (sim D i).
Proof.
  intros Mg NO Hi. destruct (apply_action i g) as [g' r] eqn:R. assert (W := proj1 Mg).
  destruct (apply_action_spec g i g' r W R) as (W' & _ & _ & S).
  destruct Hi as [A|[[A|A] Ha]].
  - unfold sim. rewrite A. unfold action_guard in S. rewrite A in S. destruct r as [[]|e].
    + destruct S as [S _]; discriminate.
    + destruct S as [-> _]. eauto.
    + destruct S as [S _]; discriminate.
  - unfold sim. rewrite A. unfold action_guard, action_ready, action_effect in S. rewrite A in S.
    assert (X : edge_exists g (t_u i) (t_v i) = true).
    { rewrite edge_exists_or, (matches_dee _ _ _ _ Mg Ha), (matches_dee _ _ _ _ Mg (has_sym _ _ Ha)).
      destruct (D (t_u i, t_v i)) eqn:Y; [rewrite (NO _ _ Y); reflexivity|reflexivity]. }
    destruct r as [[]|e].
    + destruct S as (_ & _ & ((_ & OC) & E1 & E2) & _). exists g', true. split; [reflexivity|]. split; [exact W'|]. intros a b.
      destruct Mg as [_ M]. specialize (M a b). unfold upd. destruct (eqb_spec (a, b) (t_u i, t_v i)) as [Y|Y].
      * injection Y as -> ->. rewrite entry_eget in E1. rewrite E1, entry_eget. destruct (eget g (t_u i) (t_v i)), (eget g0 (t_u i) (t_v i)); cbn; auto.
      * destruct (eqb_spec (a, b) (t_v i, t_u i)) as [Z|Z].
        -- injection Z as -> ->. rewrite entry_eget in E2. rewrite E2, entry_eget.
           destruct (directed_edge_exists g (t_v i) (t_u i)), (eget g (t_v i) (t_u i)), (eget g0 (t_v i) (t_u i)); cbn; auto.
        -- specialize (OC a b). rewrite !entry_eget in OC. rewrite OC; [exact M|]. cbn. intros [H|[H|[]]]; congruence.
    + destruct S as [_ S]. congruence.
    + destruct S as (_ & S & _). destruct S; exact I.
  - unfold sim. rewrite A. unfold action_guard, action_ready, action_effect in S. rewrite A in S.
    assert (Dv := matches_dee _ _ _ _ Mg Ha). destruct Mg as [_ M].
    destruct r as [[]|e].
    + destruct S as (_ & _ & ((_ & OC) & E1) & _). exists g', true. split; [reflexivity|]. split; [exact W'|]. intros a b.
      unfold upd. destruct (eqb_spec (a, b) (t_u i, t_v i)) as [Y|Y].
      * injection Y as -> ->. specialize (M (t_u i) (t_v i)). unfold has in Ha; cbn in Ha. rewrite !entry_eget in E1.
        destruct (eget g0 (t_u i) (t_v i)); [|congruence]. destruct (eget g (t_u i) (t_v i)); [|destruct M]. rewrite E1. reflexivity.
      * specialize (OC a b). rewrite !entry_eget in OC. rewrite OC; [exact (M a b)|]. cbn. intros [H|[]]; congruence.
    + destruct S as [-> S]. exists g, false. split; [reflexivity|]. split; [exact W|]. intros a b. unfold upd.
      destruct (eqb_spec (a, b) (t_u i, t_v i)) as [Y|Y]; [|exact (M a b)]. injection Y as -> ->.
      specialize (M (t_u i) (t_v i)). destruct (eget g (t_u i) (t_v i)), (eget g0 (t_u i) (t_v i)); auto. rewrite M.
      destruct (D (t_u i, t_v i)); [|reflexivity]. rewrite Dv in S. discriminate.
    + destruct S as (_ & S & _). destruct S. left. rewrite entry_eget. specialize (M (t_u i) (t_v i)).
      unfold has in Ha; cbn in Ha. destruct (eget g (t_u i) (t_v i)); [discriminate|]. destruct (eget g0 (t_u i) (t_v i)); [destruct M|congruence].
Qed.

(* a sequence of items none of whose prefixes switches a pair off *)
Fixpoint safe (D : dirs) (l : list tresult) : Prop :=
  match l with [] => True | i :: r => item_ok i /\ never_off (sim D i) /\ safe (sim D i) r end.
Lemma safe_app D l m : safe D l -> safe (sims D l) m -> safe D (l ++ m).
Proof.
  revert D; induction l as [|i l IH]; intros D S1 S2; [exact S2|]. destruct S1 as (A & B & C). cbn. split; [exact A|]. split; [exact B|].
  apply IH; [exact C|exact S2].
Qed.
Lemma sims_app D l m : sims D (l ++ m) = sims (sims D l) m.
Proof. unfold sims. apply fold_left_app. Qed.
Lemma safe_never D l : never_off D -> safe D l -> never_off (sims D l).
Proof. revert D; induction l as [|i l IH]; intros D N S; [exact N|]. destruct S as (_ & B & C). exact (IH _ B C). Qed.
Lemma sim_take l : forall g D, matches g D -> never_off D -> safe D l ->
  exists g' t, take_items false l g = (g', Ok t) /\ matches g' (sims D l).
Proof.
  induction l as [|i l IH]; intros g D M N S; [exists g, []; auto|]. destruct S as (A & B & C).
  destruct (sim_apply g D i M N A) as (g1 & b & R & M1). destruct (IH g1 _ M1 B C) as (g2 & t & R2 & M2).
  exists g2, (if b then i :: t else t). split; [|exact M2]. cbn [take_items]. unfold bind. rewrite R, R2. reflexivity.
Qed.

Section Rule.
Variable st : cstrategy.
Variable so : list id -> list id.
Hypothesis SO : forall l z, In z (so l) -> In z l.

(* directions switched off have been proposed for removal *)
Definition proposed (local : list outcome) (p : id * id) : Prop :=
  exists o i, In o local /\ In i (items_of o) /\ t_act i = REMOVE_EDGE_DIRECTED /\ (t_u i, t_v i) = p.
Definition all_ok (local : list outcome) : Prop := forall o i, In o local -> In i (items_of o) -> item_ok i.

Lemma unapplied_In local x z ux i : filter_unapplied_actions (Some local) x z = Ok ux ->
  (In i ux <-> exists o, In o local /\ In i (items_of o) /\ t_u i = x /\ t_v i = z).
Proof.
  cbn. intros E. injection E as <-. rewrite in_flat_map. split.
  - intros ([rs|] & H1 & H2); [|destruct H2]. apply filter_In in H2. destruct H2 as [H2 H3]. apply andb_true_iff in H3. destruct H3 as [H3 H4].
    exists (Some rs). cbn. destruct (eqb_spec (t_u i) x); [|discriminate]. destruct (eqb_spec (t_v i) z); [|discriminate]. auto.
  - intros ([rs|] & H1 & H2 & <- & <-); [|destruct H2]. exists (Some rs). split; [exact H1|]. apply filter_In. split; [exact H2|]. rewrite !eqb_refl. reflexivity.
Qed.
Lemma restores_safe local x z ux D : all_ok local -> filter_unapplied_actions (Some local) x z = Ok ux -> never_off D ->
  safe D (generate_restores ux) /\
  (forall p, sims D (generate_restores ux) p = true -> D p = true) /\
  (proposed local (x, z) -> sims D (generate_restores ux) (x, z) = false).
Proof.
  intros AO Fu. assert (I := fun i => unapplied_In local x z ux i Fu).
  assert (Q : forall l D, (forall i, In i l -> In i ux) -> never_off D -> safe D (generate_restores l) /\
    (forall p, sims D (generate_restores l) p = true -> D p = true) /\
    ((exists i, In i l /\ t_act i = REMOVE_EDGE_DIRECTED) -> sims D (generate_restores l) (x, z) = false)).
  { clear D. induction l as [|a l IH]; intros D Hl N; [split; [exact Logic.I|]; split; [auto|intros (i & [] & _)]|].
    assert (Ha := proj1 (I a) (Hl a (or_introl eq_refl))). destruct Ha as (o & H1 & H2 & H3 & H4).
    unfold generate_restores. cbn [flat_map]. fold (generate_restores l). destruct (taction_eqb (t_act a) REMOVE_EDGE_DIRECTED) eqn:E.
    - assert (E' : t_act a = REMOVE_EDGE_DIRECTED) by (destruct (t_act a); try discriminate E; reflexivity). clear E.
      cbn [app]. set (r := mkT (t_u a) (t_v a) RESTORE_EDGE_DIRECTED (Some [])).
      assert (N' : never_off (sim D r)).
      { intros u v. unfold sim; cbn. unfold upd. intros X. destruct (eqb (v, u) _) eqn:Y; [reflexivity|]. destruct (eqb (u, v) _); [discriminate|]. exact (N _ _ X). }
      destruct (IH (sim D r) (fun i h => Hl i (or_intror h)) N') as (S1 & S2 & S3). split; [|split].
      + cbn [safe]. split; [|split; [exact N'|exact S1]]. right. split; [right; reflexivity|].
        destruct (AO o a H1 H2) as [X|[_ X]]; [congruence|exact X].
      + intros p X. apply S2 in X. unfold sim in X; cbn in X. unfold upd in X. destruct (eqb p _); [discriminate|exact X].
      + intros _. unfold sims. cbn [fold_left]. fold (sims (sim D r) (generate_restores l)).
        destruct (sims (sim D r) (generate_restores l) (x, z)) eqn:X; [|reflexivity]. apply S2 in X. unfold sim in X; cbn in X. unfold upd in X.
        rewrite H3, H4, eqb_refl in X. discriminate.
    - cbn [app]. destruct (IH D (fun i h => Hl i (or_intror h)) N) as (S1 & S2 & S3). split; [exact S1|]. split; [exact S2|].
      intros (i & [<-|Hi] & Ei); [|apply S3; eauto]. rewrite Ei in E. discriminate. }
  intros N. destruct (Q ux D (fun i h => h) N) as (S1 & S2 & S3). split; [exact S1|]. split; [exact S2|].
  intros (o & i & H1 & H2 & H3 & H4). injection H4 as H5 H6. apply S3. exists i. split; [apply I; eauto|exact H3].
Qed.

Lemma never_upd D a b : never_off D -> D (b, a) = false -> a <> b -> never_off (upd D (a, b) true).
Proof.
  intros N H Ne u v. unfold upd. intros X. destruct (eqb_spec (u, v) (a, b)) as [Y|Y].
  - injection Y as -> ->. destruct (eqb_spec (b, a) (a, b)) as [Z|Z]; [congruence|exact H].
  - destruct (eqb_spec (v, u) (a, b)) as [Z|Z]; [injection Z as -> ->; congruence|exact (N _ _ X)].
Qed.
Lemma safe_both local x y z D : has (z, x) -> has (z, y) -> z <> x -> z <> y -> D (x, z) = false -> D (y, z) = false -> never_off D ->
  safe D [remove_directed z x (between x y z); remove_directed z y (between x y z)] /\
  (forall p, sims D [remove_directed z x (between x y z); remove_directed z y (between x y z)] p = true -> D p = true \/ (fst p = z /\ (snd p = x \/ snd p = y)) \/ proposed local p).
Proof.
  intros H1 H2 N1 N2 D1 D2 N. split.
  - cbn [safe]. unfold sim. cbn [t_act t_u t_v remove_directed].
    assert (NA : never_off (upd D (z, x) true)) by (apply never_upd; auto).
    split; [right; split; [left; reflexivity|exact H1]|]. split; [exact NA|]. split; [right; split; [left; reflexivity|exact H2]|]. split; [|exact I].
    apply never_upd; [exact NA| |exact N2]. unfold upd. destruct (eqb_spec (y, z) (z, x)) as [Y|Y]; [injection Y as -> ->; congruence|exact D2].
  - intros p. unfold sims. cbn. unfold sim, upd; cbn. destruct (eqb_spec p (z, y)) as [->|]; [right; left; cbn; auto|]. destruct (eqb_spec p (z, x)) as [->|]; [right; left; cbn; auto|auto].
Qed.

(* what has been switched off while the calls so far and part of the call for x, y are applied *)
Definition off_inv (local : list outcome) (x y : id) (zs : list id) (D : dirs) : Prop :=
  never_off D /\ forall p, D p = true -> proposed local p \/ (In (fst p) zs /\ (snd p = x \/ snd p = y)).

Lemma body_safe local acts g x y zs z rs D : all_ok local -> ~ In x zs -> ~ In y zs -> In z zs -> has (z, x) -> has (z, y) ->
  off_inv local x y zs D -> collider_body st (Some local) acts g x y z = Ok rs ->
  safe D rs /\ off_inv local x y zs (sims D rs).
Proof.
  intros AO Nx Ny Hz H1 H2 [N O] B. apply collider_body_inv in B.
  assert (N1 : z <> x) by (intros ->; contradiction). assert (N2 : z <> y) by (intros ->; contradiction).
  assert (OUT : forall a, ~ In a zs -> D (a, z) = true -> proposed local (a, z)).
  { intros a Na X. destruct (O _ X) as [P|[P _]]; [exact P|contradiction]. }
  assert (BOTH : forall D', never_off D' -> (forall p, D' p = true -> D p = true) -> D' (x, z) = false -> D' (y, z) = false ->
    safe D' [remove_directed z x (between x y z); remove_directed z y (between x y z)] /\
    off_inv local x y zs (sims D' [remove_directed z x (between x y z); remove_directed z y (between x y z)])).
  { intros D' N' Sub X1 X2. destruct (safe_both local x y z D' H1 H2 N1 N2 X1 X2 N') as [S1 S2]. split; [exact S1|]. split; [exact (safe_never _ _ N' S1)|].
    intros p X. destruct (S2 p X) as [Y|[[Y1 Y2]|Y]]; [exact (O p (Sub p Y))|right; rewrite Y1; auto|left; exact Y]. }
  destruct B as (seps & _ & _ & [[_ ->]|(_ & ux & uy & Ux & Uy & [(-> & -> & ->)|(_ & ->)])]).
  - split; [exact I|split; assumption].
  - apply BOTH; auto.
    + destruct (D (x, z)) eqn:X; [|reflexivity]. apply OUT in X; [|exact Nx]. destruct X as (o & i & P1 & P2 & _ & P3). injection P3 as P4 P5.
      assert (Q := proj2 (unapplied_In local x z [] i Ux)). destruct Q; eauto.
    + destruct (D (y, z)) eqn:X; [|reflexivity]. apply OUT in X; [|exact Ny]. destruct X as (o & i & P1 & P2 & _ & P3). injection P3 as P4 P5.
      assert (Q := proj2 (unapplied_In local y z [] i Uy)). destruct Q; eauto.
  - destruct st.
    + assert (Q : forall l, Forall (fun i => t_act i = DO_NOTHING) l -> safe D l /\ sims D l = D).
      { induction 1 as [|i l Hi _ [IH1 IH2]]; [split; [exact I|reflexivity]|]. assert (X : sim D i = D) by (unfold sim; rewrite Hi; reflexivity).
        unfold sims in *. cbn [safe fold_left]. rewrite X. split; [|exact IH2]. split; [left; exact Hi|]. split; assumption. }
      assert (X : Forall (fun i => t_act i = DO_NOTHING) ((match uy with [] => [] | _ :: _ => [mkT z y DO_NOTHING (Some (conflict x y z))] end) ++
        (match ux with [] => [] | _ :: _ => [mkT z x DO_NOTHING (Some (conflict x y z))] end))) by (apply Forall_app; split; [destruct uy|destruct ux]; repeat constructor).
      destruct (Q _ X) as [Q1 Q2]. split; [exact Q1|]. rewrite Q2. split; assumption.
    + destruct (restores_safe local x z ux D AO Ux N) as (S1 & S2 & S3).
      assert (N' := safe_never _ _ N S1). destruct (restores_safe local y z uy _ AO Uy N') as (T1 & T2 & T3).
      assert (N'' := safe_never _ _ N' T1).
      destruct (BOTH _ N'' (fun p h => S2 p (T2 p h))) as [B1 B2].
      * destruct (sims (sims D (generate_restores ux)) (generate_restores uy) (x, z)) eqn:X; [|reflexivity]. apply T2 in X. assert (Y := S2 _ X). apply OUT in Y; [|exact Nx]. rewrite (S3 Y) in X. discriminate.
      * destruct (sims (sims D (generate_restores ux)) (generate_restores uy) (y, z)) eqn:X; [|reflexivity]. assert (Y := S2 _ (T2 _ X)). apply OUT in Y; [|exact Ny]. discriminate (T3 Y).
      * split; [apply safe_app; [exact S1|apply safe_app; assumption]|]. rewrite !sims_app. exact B2.
    + split; [exact I|split; assumption].
Qed.

Lemma bodies_safe local acts g x y zs : all_ok local -> ~ In x zs -> ~ In y zs -> (forall z, In z zs -> has (z, x) /\ has (z, y)) ->
  forall l rs D, (forall z, In z l -> In z zs) -> off_inv local x y zs D -> rflat (collider_body st (Some local) acts g x y) l = Ok rs ->
  safe D rs /\ off_inv local x y zs (sims D rs).
Proof.
  intros AO Nx Ny Hh. induction l as [|z l IH]; intros rs D Hl O E; cbn in E; [injection E as <-; split; [exact I|exact O]|].
  apply rbind_ok in E. destruct E as (a & E1 & E). apply rbind_ok in E. destruct E as (b & E2 & E). injection E as <-.
  assert (Hz := Hl z (or_introl eq_refl)). destruct (Hh z Hz) as [X1 X2].
  destruct (body_safe local acts g x y zs z a D AO Nx Ny Hz X1 X2 O E1) as [S1 O1].
  destruct (IH b _ (fun z' h => Hl z' (or_intror h)) O1 E2) as [S2 O2]. split; [apply safe_app; assumption|rewrite sims_app; exact O2].
Qed.
Lemma safe_items D l i : safe D l -> In i l -> item_ok i.
Proof. revert D; induction l as [|a l IH]; intros D S H; [destruct H|]. destruct S as (A & _ & C). destruct H as [<-|H]; [exact A|exact (IH _ C H)]. Qed.

(* the rows of the graph *)
Lemma row_In x row z : row_of g0 x = Ok row -> In z row -> has (x, z).
Proof.
  unfold row_of, has, eget, dget2; cbn. destruct (dget (edges g0) x) as [r|]; [|discriminate]. intros E; injection E as <-.
  intros H. apply dmem_In in H. unfold dmem in H. destruct (dget r z); [discriminate|discriminate H].
Qed.
Lemma keys_has x y zs z : common_keys so g0 x y = Ok zs -> In z zs -> has (x, z) /\ has (y, z).
Proof.
  unfold common_keys. intros E Hz. apply rbind_ok in E. destruct E as (rx & E1 & E). apply rbind_ok in E. destruct E as (ry & E2 & E). injection E as <-.
  apply SO in Hz. apply filter_In in Hz. destruct Hz as [H1 H2]. apply mem_In in H2. split; eapply row_In; eassumption.
Qed.
Lemma no_self a : ~ has (a, a).
Proof. unfold has; cbn. intros Ha. destruct (eget g0 a a) as [e|] eqn:E; [|congruence]. destruct (wf_fwd _ W0 _ _ _ E) as (_ & _ & Ne & _). congruence. Qed.

Lemma call_safe local ns o D : all_ok local -> never_off D -> (forall p, D p = true -> proposed local p) ->
  collider_test st so g0 ns (Some local) = Ok o ->
  safe D (items_of o) /\ all_ok (local ++ [o]) /\ never_off (sims D (items_of o)) /\ forall p, sims D (items_of o) p = true -> proposed (local ++ [o]) p.
Proof.
  intros AO N O E.
  assert (GEN : safe D (items_of o) -> safe D (items_of o) /\ all_ok (local ++ [o]) /\ never_off (sims D (items_of o)) /\ forall p, sims D (items_of o) p = true -> proposed (local ++ [o]) p).
  { intros S. split; [exact S|]. split; [|split; [exact (safe_never _ _ N S)|]].
    - intros o' i Ho Hi. apply in_app_iff in Ho. destruct Ho as [Ho|[<-|[]]]; [exact (AO o' i Ho Hi)|exact (safe_items _ _ _ S Hi)].
    - assert (Q : forall l D', (forall i, In i l -> In i (items_of o)) -> (forall p, D' p = true -> proposed (local ++ [o]) p) -> forall p, sims D' l p = true -> proposed (local ++ [o]) p).
      { induction l as [|i l IH]; intros D' Hl HD p X; [exact (HD p X)|]. apply (IH (sim D' i) (fun j h => Hl j (or_intror h))) in X; [exact X|].
        intros q. unfold sim. destruct (t_act i) eqn:A; try apply HD; unfold upd; destruct (eqb_spec q (t_u i, t_v i)) as [->|Y]; try discriminate; try apply HD.
        intros _. exists o, i. split; [apply in_app_iff; cbn; auto|]. split; [apply Hl; cbn; auto|auto]. }
      apply (Q (items_of o) D (fun i h => h)). intros p X. destruct (O p X) as (o' & i & H1 & H2). exists o', i. split; [apply in_app_iff; auto|exact H2]. }
  apply GEN. apply collider_inv in E. destruct E as (x & y & _ & _ & [[_ ->]|(_ & zs & acts & rs & -> & Cz & _ & F)]); [exact I|].
  cbn [items_of]. refine (proj1 (bodies_safe local acts g0 x y zs AO _ _ _ zs rs D (fun z h => h) _ F)).
  - intros H. exact (no_self x (proj1 (keys_has _ _ _ _ Cz H))).
  - intros H. exact (no_self y (proj2 (keys_has _ _ _ _ Cz H))).
  - intros z Hz. destruct (keys_has _ _ _ _ Cz Hz) as [A B]. split; apply has_sym; assumption.
  - split; [exact N|]. intros p X. left. exact (O p X).
Qed.

Lemma collect_safe : forall es local os D, all_ok local -> never_off D -> (forall p, D p = true -> proposed local p) ->
  collect (collider_step st so) g0 es local = Ok os ->
  exists new, os = local ++ new /\ safe D (flat_map items_of new).
Proof.
  induction es as [|e es IH]; intros local os D AO N O E; cbn [collect] in E.
  - injection E as <-. exists []. rewrite app_nil_r. split; [reflexivity|exact I].
  - apply rbind_ok in E. destruct E as (ns & _ & E). apply rbind_ok in E. destruct E as (o & C & E).
    unfold call in C. cbn in C. destruct (call_safe local ns o D AO N O C) as (S1 & A1 & N1 & O1).
    destruct (IH _ os _ A1 N1 O1 E) as (new & -> & S2). exists (o :: new). split; [rewrite <- app_assoc; reflexivity|]. cbn [flat_map]. apply safe_app; assumption.
Qed.
End Rule.
End Step.

Lemma entry_ok g u v e : entry g u v = Some e -> get_edge g u v = Ok e.
Proof. unfold entry. destruct (get_edge g u v); congruence. Qed.
Lemma collider_keeps st so P g g' r : WF g -> skeleton g -> (forall l z, In z (so l) -> In z l) ->
  execute_step P no_hooks (collider_step st so) false g = (g', r) ->
  WF g' /\ (forall u v, edge_exists g' u v = edge_exists g u v) /\
  match r with Ok _ => True | Err e => g' = g end.
Proof.
  intros W SKg SO E.
  assert (SK : forall u v e, eget g u v = Some e -> eget g v u <> None).
  { intros u v e G. rewrite <- entry_eget in G. destruct (SKg _ _ _ (entry_ok _ _ _ _ G)) as [_ L]. destruct (live_entry _ _ _ W L) as (e' & G' & _). congruence. }
  assert (M0 : matches g g (fun _ => false)).
  { split; [exact W|]. intros a b. destruct (eget g a b) as [e|] eqn:G; [|exact I]. rewrite <- entry_eget in G. destruct (SKg _ _ _ (entry_ok _ _ _ _ G)) as [L _].
    destruct (live_entry _ _ _ W L) as (e' & G' & D' & _). rewrite <- entry_eget in G'. congruence. }
  unfold execute_step in E. cbn [collider_step s_parallel s_chunked s_sync] in E. unfold bind, gget in E.
  destruct (gen_run (s_gen (collider_step st so) g) g) as [es|e]; cbn [liftr] in E; unfold ret, raise in E; [|injection E as <- <-; auto].
  destruct (collect (collider_step st so) g es []) as [os|e] eqn:C; cbn [liftr] in E; unfold ret, raise in E; [|injection E as <- <-; auto].
  destruct (collect_safe g W SK st so SO es [] os (fun _ => false)) as (new & En & S); [intros o i []|discriminate|discriminate|exact C|].
  cbn in En. subst new. destruct (take_action_flat os false g g' r E) as (r' & T & Rr).
  destruct (sim_take g SK _ g _ M0 ltac:(discriminate) S) as (g2 & t & T2 & M2). rewrite T in T2. injection T2 as -> ->.
  destruct r; [|contradiction]. split; [exact (proj1 M2)|]. split; [|exact I]. intros u v. rewrite !edge_exists_or.
  assert (NV := safe_never g _ _ (fun a b (h : false = true) => match Bool.diff_false_true h with end) S).
  destruct (eget g u v) as [e|] eqn:G.
  - assert (Hu : has g (u, v)) by (unfold has; cbn; congruence). assert (Hv := has_sym g SK _ _ Hu).
    rewrite (matches_dee g g2 _ u v M2 Hu), (matches_dee g g2 _ v u M2 Hv).
    rewrite (matches_dee g g _ u v M0 Hu), (matches_dee g g _ v u M0 Hv). cbn.
    destruct (sims _ _ (u, v)) eqn:X; [rewrite (NV _ _ X); reflexivity|reflexivity].
  - assert (Hu : ~ has g (u, v)) by (unfold has; cbn; congruence). assert (Hv : ~ has g (v, u)) by (intros H; exact (Hu (has_sym g SK _ _ H))).
    rewrite (matches_none g g2 _ u v M2 Hu), (matches_none g g2 _ v u M2 Hv), (matches_none g g _ u v M0 Hu), (matches_none g g _ v u M0 Hv). reflexivity.
Qed.

Lemma collider_pstep_keeps st so fuel P g g' r : WF g -> skeleton g -> (forall l z, In z (so l) -> In z l) ->
  run_pstep fuel P no_hooks (PStep (collider_step st so)) g = (g', r) -> forall u v, edge_exists g' u v = edge_exists g u v.
Proof.
  intros W SK SO R u v. cbn [run_pstep] in R. unfold bind at 1 in R. destruct (execute_step P no_hooks (collider_step st so) false g) as [g1 r1] eqn:E.
  destruct (collider_keeps st so P g g1 r1 W SK SO E) as (W1 & K & H). destruct r1 as [acts|e]; [|injection R as <- <-; apply K].
  unfold bind, log_step in R. set (g2 := with_ahist g1 _) in R. assert (W2 : WF g2) by (apply WF_ahist; exact W1).
  destruct (after_purge g2 W2) as [A Er]. destruct (purge_soft_deleted_edges g2) as [g3 r3]. cbn [fst snd] in *. subst r3. injection R as <- <-.
  rewrite <- K. assert (L : forall p q, directed_edge_exists g3 p q = directed_edge_exists g1 p q).
  { intros p q. change (directed_edge_exists g1 p q) with (directed_edge_exists g2 p q).
    assert (X := af_live _ _ _ A p q). destruct (directed_edge_exists g3 p q), (directed_edge_exists g2 p q); try reflexivity; intuition congruence. }
  rewrite !edge_exists_or, !L. reflexivity.
Qed.

(* runs of pipelines stay within the graphs that mutator calls and actions produce *)
Lemma keeps_act_reached i : keeps reached anyE (apply_action i) (fun _ _ => True).
Proof. intros g R. split; [apply rd_act; exact R|]. destruct (snd (apply_action i g)); exact I. Qed.
Lemma keeps_purge_reached : keeps reached anyE purge_soft_deleted_edges (fun _ _ => True).
Proof.
  intros g R. split; [exact (rd_op g OPurge R I)|]. destruct (snd (purge_soft_deleted_edges g)); exact I.
Qed.
Lemma step_reached P H s dry : pool_runner H P -> step_keeps reached anyE P H anyQ dry s.
Proof.
  intros HP. apply (keeps_step reached anyE anyQ H (any_hooks _ _) dry (fun _ i _ => keeps_act_reached i) anyA P s (fun _ => HP) (any_step _ s)).
Qed.
Lemma pstep_reached fuel P H p : pool_runner H P -> keeps reached anyE (run_pstep fuel P H p) (fun _ _ => True).
Proof.
  intros HP. destruct p.
  - eapply keeps_pstep_plain; [intros; apply rd_log; assumption|apply step_reached; exact HP|apply keeps_purge_reached].
  - eapply keeps_pstep_loop; [intros; apply rd_log; assumption| |exact I|intros; exact I]. apply Forall_any. intros; apply (step_reached P H); exact HP.
  - eapply keeps_pstep_together with (Q := anyQ); [intros; apply rd_log; assumption|apply any_hooks|intros; apply keeps_act_reached|]. apply Forall_any. intros; apply step_reached; exact HP.
Qed.
Lemma pipeline_reached fuel P H l g : pool_runner H P -> reached g -> reached (fst (execute_pipeline fuel P H l g)).
Proof. intros HP R. assert (K : keeps reached anyE (execute_pipeline fuel P H l) (fun _ _ => True)) by (apply keeps_pipeline; apply Forall_any; intros; apply pstep_reached; exact HP). exact (proj1 (K g R)). Qed.
