(* Proofs of C18-C22 and of C10 for actions. *)
From Verif Require Import Base PyDict PyDictFacts Graph GraphSpec GraphFacts GraphInv GraphInv2 GraphInv3 GraphQ GraphMain Actions ActionSpec ActionFacts.

Lemma WF_ahist g h : WF g -> WF (with_ahist g h).
Proof. intros W; destruct W; constructor; assumption. Qed.

Lemma tame_regular_op g o : tame_op g o -> regular_op g o.
Proof.
  destruct o; simpl; auto. destruct soft; auto. unfold get_edge, dmem2.
  destruct (dget2 (edges g) u v), (dget2 (edges g) v u); simpl; congruence.
Qed.

Lemma reached_WF g : reached g -> WF g.
Proof.
  induction 1.
  - apply WF_empty.
  - apply run_op_wf; [assumption|apply tame_regular_op; assumption].
  - apply apply_action_wf; assumption.
  - apply WF_ahist; assumption.
Qed.

Lemma reachable_reached g : reachable g -> reached g.
Proof.
  intros (os & T & ->). assert (G : forall os g, tame os g -> reached g -> reached (run_ops os g)).
  { induction os0 as [|o os0 IH]; intros g H R; [exact R|]. destruct H as [H1 H2]. simpl. apply IH; [exact H2|apply rd_op; assumption]. }
  apply G; [exact T|apply rd_empty].
Qed.

Lemma take_items_reached dry l : forall g, reached g -> reached (fst (take_items dry l g)).
Proof.
  induction l as [|i l IH]; intros g R; [exact R|]. cbn [take_items]. unfold bind.
  destruct dry.
  - unfold ret at 1. specialize (IH g R). destruct (take_items true l g) as [g' [t|e]]; exact IH.
  - assert (R1 := rd_act g i R). destruct (apply_action i g) as [g1 [b|e]]; [|exact R1].
    specialize (IH g1 R1). destruct (take_items false l g1) as [g' [t|e]]; exact IH.
Qed.

Lemma take_action_reached H dry rs : forall g, reached g -> reached (fst (take_action H dry rs g)).
Proof.
  induction rs as [|[items|] rs IH]; intros g R; [exact R| |apply IH; exact R].
  cbn [take_action]. unfold bind, gget. destruct (run_pre_hooks H g items) as [items'|e]; [|exact R].
  assert (R1 := take_items_reached dry items' g R). destruct (take_items dry items' g) as [g1 [t|e]]; [|exact R1].
  destruct (run_post_hooks H g1 t); [|exact R1].
  specialize (IH g1 R1). destruct (take_action H dry rs g1) as [g2 [p|e]]; exact IH.
Qed.

(* ---- C18 ---- *)
Lemma take_items_dry l g : take_items true l g = (g, Ok l).
Proof. induction l as [|i l IH]; [reflexivity|]. cbn [take_items]. unfold bind, ret at 1. rewrite IH. reflexivity. Qed.


Lemma take_action_dry rs g : take_action no_hooks true rs g = (g, Ok (flat_map items_of rs, flat_map items_of rs)).
Proof.
  induction rs as [|[items|] rs IH]; [reflexivity| |exact IH].
  cbn [take_action]. unfold bind, gget. cbn [run_pre_hooks no_hooks pre_hooks rfold run_post_hooks post_hooks].
  rewrite take_items_dry, IH. reflexivity.
Qed.

(* ---- C20 ---- *)
Lemma subseq_app {A} (l1 m1 l2 m2 : list A) : subseq l1 m1 -> subseq l2 m2 -> subseq (l1 ++ l2) (m1 ++ m2).
Proof. induction 1; intros; simpl; [assumption|constructor; auto|constructor; auto]. Qed.

Lemma apply_do_nothing i g g' : apply_action i g = (g', Ok true) -> t_act i <> DO_NOTHING.
Proof.
  intros R E. unfold apply_action in R. rewrite E in R. unfold bind, gget, ret in R. congruence.
Qed.

Lemma take_items_sub l : forall g g' t, take_items false l g = (g', Ok t) ->
  subseq t l /\ forall i, In i t -> t_act i <> DO_NOTHING.
Proof.
  induction l as [|i l IH]; intros g g' t R.
  - injection R as <- <-. split; [constructor|intros i []].
  - cbn [take_items] in R. unfold bind in R. destruct (apply_action i g) as [g1 [b|e]] eqn:E; [|discriminate].
    destruct (take_items false l g1) as [g2 [t2|e]] eqn:E2; [|discriminate]. injection R as <- <-.
    destruct (IH _ _ _ E2) as [S N]. destruct b.
    + split; [constructor; exact S|]. intros j [<-|Hj]; [eapply apply_do_nothing; exact E|apply N; exact Hj].
    + split; [constructor; exact S|exact N].
Qed.

Lemma take_action_sub H rs : forall g g' t all, take_action H false rs g = (g', Ok (t, all)) ->
  subseq t all /\ forall i, In i t -> t_act i <> DO_NOTHING.
Proof.
  induction rs as [|[items|] rs IH]; intros g g' t all R.
  - injection R as <- <- <-. split; [constructor|intros i []].
  - cbn [take_action] in R. unfold bind, gget in R. destruct (run_pre_hooks H g items) as [items'|e]; [|discriminate].
    destruct (take_items false items' g) as [g1 [t1|e]] eqn:E1; [|discriminate].
    destruct (run_post_hooks H g1 t1); [|discriminate].
    destruct (take_action H false rs g1) as [g2 [[t2 a2]|e]] eqn:E2; [|discriminate]. injection R as <- <- <-.
    destruct (take_items_sub _ _ _ _ E1) as [S1 N1]. destruct (IH _ _ _ _ E2) as [S2 N2].
    split; [apply subseq_app; assumption|]. intros i Hi; apply in_app_iff in Hi; destruct Hi; auto.
  - exact (IH _ _ _ _ R).
Qed.

Lemma take_action_all rs : forall dry g g' t all, take_action no_hooks dry rs g = (g', Ok (t, all)) ->
  all = flat_map items_of rs.
Proof.
  induction rs as [|[items|] rs IH]; intros dry g g' t all R.
  - injection R as <- <- <-; reflexivity.
  - cbn [take_action] in R. unfold bind, gget in R. cbn [run_pre_hooks no_hooks pre_hooks rfold run_post_hooks post_hooks] in R.
    destruct (take_items dry items g) as [g1 [t1|e]] eqn:E1; [|discriminate].
    destruct (take_action no_hooks dry rs g1) as [g2 [[t2 a2]|e]] eqn:E2; [|discriminate]. injection R as <- <- <-.
    simpl; f_equal; eapply IH; exact E2.
  - exact (IH _ _ _ _ _ R).
Qed.

(* ---- C21 ---- *)
Lemma apply_skip i g g' : apply_action i g = (g', Ok false) -> g' = g.
Proof.
  unfold apply_action, bind, gget. intros R.
  destruct (t_act i).
  - destruct (edge_exists g _ _); cbn [negb] in R; [|injection R as <-; reflexivity]. repeat match type of R with
      | (let (_, _) := ?x in _) = _ => destruct x as [? [?|?]]; [|discriminate] end. discriminate.
  - destruct (directed_edge_exists g _ _); cbn [negb] in R; [|injection R as <-; reflexivity]. repeat match type of R with
      | (let (_, _) := ?x in _) = _ => destruct x as [? [?|?]]; [|discriminate] end. discriminate.
  - destruct (edge_exists g _ _); cbn [negb] in R; [discriminate|injection R as <-; reflexivity].
  - destruct (directed_edge_exists g _ _); cbn [negb] in R; [discriminate|injection R as <-; reflexivity].
  - destruct (undirected_edge_exists g _ _); cbn [negb] in R; [|injection R as <-; reflexivity]. repeat match type of R with
      | (let (_, _) := ?x in _) = _ => destruct x as [? [?|?]]; [|discriminate] end. discriminate.
  - destruct (negb (directed_edge_exists g _ _) && _); [injection R as <-; reflexivity|]. repeat match type of R with
      | (let (_, _) := ?x in _) = _ => destruct x as [? [?|?]]; [|discriminate] end. discriminate.
  - destruct (edge_exists g _ _); [injection R as <-; reflexivity|]. repeat match type of R with
      | (let (_, _) := ?x in _) = _ => destruct x as [? [?|?]]; [|discriminate] end. discriminate.
  - destruct (directed_edge_exists g _ _); [injection R as <-; reflexivity|]. repeat match type of R with
      | (let (_, _) := ?x in _) = _ => destruct x as [? [?|?]]; [|discriminate] end. discriminate.
  - injection R as <-; reflexivity.
Qed.

Lemma take_items_replay l : forall g g' t, take_items false l g = (g', Ok t) -> take_items false t g = (g', Ok t).
Proof.
  induction l as [|i l IH]; intros g g' t R; [injection R as <- <-; reflexivity|].
  cbn [take_items] in R. unfold bind in R. destruct (apply_action i g) as [g1 [b|e]] eqn:E; [|discriminate].
  destruct (take_items false l g1) as [g2 [t2|e]] eqn:E2; [|discriminate]. injection R as <- <-.
  apply IH in E2. destruct b.
  - cbn [take_items]. unfold bind. rewrite E, E2; reflexivity.
  - apply apply_skip in E; subst g1; exact E2.
Qed.

Lemma take_items_app l m g g1 g2 t1 t2 : take_items false l g = (g1, Ok t1) -> take_items false m g1 = (g2, Ok t2) ->
  take_items false (l ++ m) g = (g2, Ok (t1 ++ t2)).
Proof.
  revert g g1 t1; induction l as [|i l IH]; intros g g1 t1 R1 R2.
  - injection R1 as <- <-; exact R2.
  - cbn [take_items app] in *. unfold bind in *. destruct (apply_action i g) as [ga [b|e]] eqn:E; [|discriminate].
    destruct (take_items false l ga) as [gb [tb|e]] eqn:E2; [|discriminate]. injection R1 as <- <-.
    rewrite (IH _ _ _ E2 R2). destruct b; reflexivity.
Qed.

Lemma take_action_items H rs : forall g g' t all, take_action H false rs g = (g', Ok (t, all)) -> take_items false t g = (g', Ok t).
Proof.
  induction rs as [|[items|] rs IH]; intros g g' t all R.
  - injection R as <- <- <-; reflexivity.
  - cbn [take_action] in R. unfold bind, gget in R. destruct (run_pre_hooks H g items) as [items'|e]; [|discriminate].
    destruct (take_items false items' g) as [g1 [t1|e]] eqn:E1; [|discriminate].
    destruct (run_post_hooks H g1 t1); [|discriminate].
    destruct (take_action H false rs g1) as [g2 [[t2 a2]|e]] eqn:E2; [|discriminate]. injection R as <- <- <-.
    eapply take_items_app; [eapply take_items_replay; exact E1|eapply IH; exact E2].
  - exact (IH _ _ _ _ R).
Qed.

Lemma take_action_single l g g' t : take_items false l g = (g', Ok t) ->
  take_action no_hooks false [Some l] g = (g', Ok (t, l)).
Proof.
  intros E. cbn [take_action]. unfold bind, gget. cbn [run_pre_hooks no_hooks pre_hooks rfold run_post_hooks post_hooks].
  rewrite E. unfold ret. cbn [fst snd]. rewrite !app_nil_r. reflexivity.
Qed.

Lemma c21_main : forall H rs g g' t all, take_action H false rs g = (g', Ok (t, all)) ->
  take_action no_hooks false [Some t] g = (g', Ok (t, t)).
Proof. intros; apply take_action_single; eapply take_action_items; eassumption. Qed.

(* ---- C19 ---- *)
Lemma c19_main : forall g i g' taken, reached g -> apply_action i g = (g', Ok taken) ->
  (taken = false -> g' = g /\ action_guard g i = false) /\
  (taken = true -> action_guard g i = true /\ action_effect g g' i /\ logged (action_pairs i) i g g').
Proof.
  intros g i g' taken R E; destruct (apply_action_spec g i g' _ (reached_WF _ R) E) as (_ & _ & _ & S).
  destruct taken; split; intros X; try discriminate; tauto.
Qed.

Lemma c19_raise : forall g i, reached g ->
  (exists g' e, apply_action i g = (g', Err e)) <-> (action_guard g i = true /\ ~ action_ready g i).
Proof.
  intros g i R; destruct (apply_action i g) as [g' r] eqn:E.
  destruct (apply_action_spec g i g' r (reached_WF _ R) E) as (_ & _ & _ & S). split.
  - intros (g2 & e & X); injection X as -> ->; tauto.
  - intros [A B]; destruct r as [[]|e]; [|destruct S; congruence|exists g', e; reflexivity].
    destruct S as (_ & C & _); contradiction.
Qed.

(* ---- C10 for actions ---- *)
Lemma prefix_refl {A} (l : list A) : prefix l l.
Proof. exists []; rewrite app_nil_r; reflexivity. Qed.
Lemma prefix_trans {A} (l m n : list A) : prefix l m -> prefix m n -> prefix l n.
Proof. intros [r ->] [s ->]; exists (r ++ s); rewrite app_assoc; reflexivity. Qed.

Lemma add_hist_prefix u v i g p : prefix (history g p) (history (fst (add_edge_history u v i g)) p).
Proof.
  unfold add_edge_history, history; cbn [fst ehist with_ehist].
  destruct (eqb_spec (u, v) p) as [<-|N].
  - rewrite dget_dset_same. destruct (dget (ehist g) (u, v)); eexists; reflexivity.
  - rewrite dget_dset_other by congruence. apply prefix_refl.
Qed.

Lemma op_prefix o g p : inv0 g -> prefix (history g p) (history (fst (run_op o g)) p).
Proof.
  intros I; destruct (run_op_inv0 o g I) as (_ & H & _). unfold history.
  destruct (dget (ehist g) p) as [h|] eqn:E; [|exists (match dget (ehist (fst (run_op o g))) p with Some l => l | None => [] end); reflexivity].
  destruct (H p h E) as [h' ->]; exists h'; reflexivity.
Qed.

(* An action is a sequence of operations, each applied to the graph the previous one left. *)
Inductive ops_run : graph -> graph -> Prop :=
| or_nil : forall g, ops_run g g
| or_cons : forall o g g', ops_run (fst (run_op o g)) g' -> ops_run g g'.

Lemma or_one o g : ops_run g (fst (run_op o g)).
Proof. apply (or_cons o), or_nil. Qed.
Lemma or_trans g1 g2 g3 : ops_run g1 g2 -> ops_run g2 g3 -> ops_run g1 g3.
Proof. induction 1; intros; [assumption|eapply or_cons; auto]. Qed.

Lemma or_bind {A B} (m : ST A) (k : A -> ST B) g : ops_run g (fst (m g)) ->
  (forall a g', ops_run g' (fst (k a g'))) -> ops_run g (fst (bind m k g)).
Proof.
  intros H1 H2; unfold bind. destruct (m g) as [g1 [a|e]]; [|exact H1]. eapply or_trans; [exact H1|apply H2].
Qed.

Lemma apply_ops i g : ops_run g (fst (apply_action i g)).
Proof.
  unfold apply_action. apply or_bind; [apply or_nil|]. intros g1 g2. clear g.
  assert (L2 : forall m, ops_run g2 (fst (m g2)) ->
    ops_run g2 (fst ((m ;;; add_edge_history (t_u i) (t_v i) i ;;; add_edge_history (t_v i) (t_u i) i ;;; ret true) g2))).
  { intros m H. apply or_bind; [exact H|]. intros _ g'. apply or_bind; [apply (or_one (OHistory (t_u i) (t_v i) i))|].
    intros _ g''. apply or_bind; [apply (or_one (OHistory (t_v i) (t_u i) i))|]. intros; apply or_nil. }
  assert (L1 : forall m, ops_run g2 (fst (m g2)) ->
    ops_run g2 (fst ((m ;;; add_edge_history (t_u i) (t_v i) i ;;; ret true) g2))).
  { intros m H. apply or_bind; [exact H|]. intros _ g'. apply or_bind; [apply (or_one (OHistory (t_u i) (t_v i) i))|]. intros; apply or_nil. }
  destruct (t_act i).
  - destruct (negb _); [apply or_nil|]. apply L2. apply (or_one (OUpdate (t_u i) (t_v i) (t_data i) None)).
  - destruct (negb _); [apply or_nil|]. apply L1. apply (or_one (OUpdateDirected (t_u i) (t_v i) (t_data i) None)).
  - destruct (negb _); apply or_nil.
  - destruct (negb _); apply or_nil.
  - destruct (negb _); [apply or_nil|]. apply L2. apply (or_one (ORemove (t_u i) (t_v i) true)).
  - destruct (negb _ && _); [apply or_nil|]. apply or_bind; [apply (or_one (ORemoveDirected (t_u i) (t_v i) true))|].
    intros _ g3. apply or_bind.
    + apply or_bind; [apply or_nil|]. intros ga gb. destruct (edge_exists ga _ _); [|apply or_nil].
      apply (or_one (OUpdateDirected (t_v i) (t_u i) None (Some TDirected))).
    + intros _ g4. apply or_bind; [apply (or_one (OHistory (t_u i) (t_v i) i))|]. intros; apply or_nil.
  - destruct (edge_exists _ _ _); [apply or_nil|]. apply L2. apply (or_one (ORestore (t_u i) (t_v i))).
  - destruct (directed_edge_exists _ _ _); [apply or_nil|]. apply L1. apply (or_one (ORestoreDirected (t_u i) (t_v i))).
  - apply or_nil.
Qed.

Lemma take_items_ops dry l : forall g, ops_run g (fst (take_items dry l g)).
Proof.
  induction l as [|i l IH]; intros g; [apply or_nil|]. cbn [take_items]. apply or_bind.
  - destruct dry; [apply or_nil|apply apply_ops].
  - intros b g'. apply or_bind; [apply IH|]. intros; apply or_nil.
Qed.

Lemma take_action_ops H dry rs : forall g, ops_run g (fst (take_action H dry rs g)).
Proof.
  induction rs as [|[items|] rs IH]; intros g; [apply or_nil| |apply IH]. cbn [take_action].
  apply or_bind; [apply or_nil|]. intros ga gb. destruct (run_pre_hooks H ga items); [|apply or_nil].
  apply or_bind; [apply take_items_ops|]. intros t gc. apply or_bind; [apply or_nil|]. intros gd ge.
  destruct (run_post_hooks H gd t); [|apply or_nil]. apply or_bind; [apply IH|]. intros; apply or_nil.
Qed.

Lemma ops_run_hist g g' : ops_run g g' -> inv0 g -> inv0 g' /\ forall p, prefix (history g p) (history g' p).
Proof.
  induction 1 as [g|o g g' _ IH]; intros I; [split; [exact I|intros; apply prefix_refl]|].
  destruct (run_op_inv0 o g I) as (I' & _). destruct (IH I') as [I2 H2]. split; [exact I2|].
  intros p; eapply prefix_trans; [apply op_prefix; exact I|apply H2].
Qed.

Lemma ops_run_any g g' : ops_run g g' -> reachable_any g -> reachable_any g'.
Proof.
  induction 1 as [g|o g g' _ IH]; intros R; [exact R|]. apply IH. destruct R as (os & ->).
  exists (os ++ [o]). unfold run_ops. rewrite fold_left_app. reflexivity.
Qed.

Lemma c10_actions : forall H dry rs g p, reachable_any g -> prefix (history g p) (history (fst (take_action H dry rs g)) p).
Proof.
  intros H dry rs g p R. apply (ops_run_hist g _ (take_action_ops H dry rs g) (reachable_any_inv0 _ R)).
Qed.

(* ---- C22 ---- *)
Lemma c22_main : forall g i g', reached g -> apply_action i g = (g', Ok true) ->
  match t_act i with
  | REMOVE_EDGE_UNDIRECTED | RESTORE_EDGE | RESTORE_EDGE_DIRECTED => True
  | REMOVE_EDGE_DIRECTED => directed_edge_exists g (t_u i) (t_v i) = true
  | _ => False
  end -> directed_edge_exists g' (t_u i) (t_v i) <> directed_edge_exists g (t_u i) (t_v i).
Proof.
  intros g i g' R E. assert (W := reached_WF _ R).
  destruct (apply_action_spec g i g' _ W E) as (W' & _ & _ & G & _ & F & _).
  unfold action_guard, action_effect in *. destruct (t_act i); try contradiction; intros Hc.
  - apply andb_true_iff in G; destruct G as [G _]. destruct F as (_ & F & _). rewrite G.
    rewrite (dee_val g' _ _ W'). rewrite !entry_eget in F. rewrite F. destruct (eget g _ _); cbn; discriminate.
  - destruct F as (_ & F & _). rewrite Hc, (dee_val g' _ _ W'). rewrite !entry_eget in F. rewrite F. destruct (eget g _ _); cbn; discriminate.
  - apply negb_true_iff in G. rewrite edge_exists_or in G. apply orb_false_iff in G; destruct G as [G _]. rewrite G.
    destruct F as (_ & F). rewrite !entry_eget in F. rewrite (dee_val g' _ _ W').
    destruct (eget g (t_u i) (t_v i)), (eget g (t_v i) (t_u i)); [destruct F as [-> _]|destruct F as (d & _ & -> & _)..]; discriminate.
  - apply negb_true_iff in G. rewrite G. destruct F as (_ & F). rewrite !entry_eget in F. rewrite (dee_val g' _ _ W').
    destruct (eget g (t_u i) (t_v i)); [rewrite F|destruct F as (d & _ & ->)]; discriminate.
Qed.

(* ---- C53 ---- *)
Lemma c53_action : forall g i g' e, reached g -> apply_action i g = (g', Err e) -> t_act i <> RESTORE_EDGE -> g' = g.
Proof.
  intros g i g' e R E N; destruct (apply_action_spec g i g' _ (reached_WF _ R) E) as (_ & _ & _ & _ & _ & H); auto.
Qed.

Lemma take_items_err l : forall g g' e, take_items false l g = (g', Err e) ->
  exists l1 i l2 g1 t1, l = l1 ++ i :: l2 /\ take_items false l1 g = (g1, Ok t1) /\ apply_action i g1 = (g', Err e).
Proof.
  induction l as [|i l IH]; intros g g' e R; [discriminate|]. cbn [take_items] in R. unfold bind in R.
  destruct (apply_action i g) as [g1 [b|e1]] eqn:E.
  - destruct (take_items false l g1) as [g2 [t2|e2]] eqn:E2; [discriminate|]. injection R as <- <-.
    destruct (IH _ _ _ E2) as (l1 & j & l2 & ga & ta & -> & A & B).
    exists (i :: l1), j, l2, ga, (if b then i :: ta else ta). split; [reflexivity|]. split; [|exact B].
    cbn [take_items]. unfold bind. rewrite E, A. destruct b; reflexivity.
  - injection R as <- <-. exists [], i, l, g, []. auto.
Qed.

Lemma take_action_flat rs : forall dry g g' r, take_action no_hooks dry rs g = (g', r) ->
  exists r', take_items dry (flat_map items_of rs) g = (g', r') /\
    match r, r' with Ok p, Ok t => fst p = t | Err e, Err e' => e = e' | _, _ => False end.
Proof.
  induction rs as [|[items|] rs IH]; intros dry g g' r R.
  - injection R as <- <-. exists (Ok []); split; reflexivity.
  - cbn [take_action] in R. unfold bind, gget in R. cbn [run_pre_hooks no_hooks pre_hooks rfold run_post_hooks post_hooks] in R.
    cbn [flat_map items_of].
    assert (AP : forall l m ga, take_items dry (l ++ m) ga = match take_items dry l ga with
       | (gb, Err e) => (gb, Err e) | (gb, Ok t) => match take_items dry m gb with (gc, Ok t2) => (gc, Ok (t ++ t2)) | (gc, Err e) => (gc, Err e) end end).
    { clear. induction l as [|i l IH]; intros m ga; [cbn; destruct (take_items dry m ga) as [? [?|?]]; reflexivity|].
      cbn [app take_items]. unfold bind. destruct ((if dry then ret true else apply_action i) ga) as [gb [b|e]]; [|reflexivity].
      rewrite IH. destruct (take_items dry l gb) as [gc [t|e]]; [|reflexivity]. unfold ret.
      destruct (take_items dry m gc) as [gd [t2|e]]; [|reflexivity]. destruct b; reflexivity. }
    rewrite AP. destruct (take_items dry items g) as [g1 [t1|e]] eqn:E1; [|injection R as <- <-; exists (Err e); auto].
    destruct (take_action no_hooks dry rs g1) as [g2 r2] eqn:E2. destruct (IH _ _ _ _ E2) as (r' & E' & M). rewrite E'.
    destruct r2 as [p|e]; destruct r' as [t|e']; try contradiction; injection R as <- <-; eexists; split; try reflexivity.
    + cbn; rewrite M; reflexivity.
    + exact M.
  - exact (IH _ _ _ _ R).
Qed.

Lemma c53_step : forall rs g g' e, reached g -> take_action no_hooks false rs g = (g', Err e) ->
  exists done_ failing rest taken g1,
    flat_map items_of rs = done_ ++ failing :: rest /\
    take_action no_hooks false [Some done_] g = (g1, Ok (taken, done_)) /\
    apply_action failing g1 = (g', Err e) /\
    (t_act failing <> RESTORE_EDGE -> g' = g1).
Proof.
  intros rs g g' e R E. destruct (take_action_flat _ _ _ _ _ E) as (r' & E' & M). destruct r' as [t|e']; [contradiction|]. subst e'.
  destruct (take_items_err _ _ _ _ E') as (l1 & i & l2 & g1 & t1 & Hl & H1 & H2).
  exists l1, i, l2, t1, g1. split; [exact Hl|]. split; [apply take_action_single; exact H1|]. split; [exact H2|].
  intros N. apply (c53_action g1 i g' e); [|exact H2|exact N].
  assert (X := take_items_reached false l1 g R). rewrite H1 in X; exact X.
Qed.
