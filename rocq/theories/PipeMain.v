(* Proofs of C35, C39 and C40. *)
From Verif Require Import Base PyDict PyDictFacts Graph GraphSpec GraphFacts GraphInv GraphInv2 GraphInv3 GraphQ GraphMain
  Actions ActionSpec ActionFacts ActionMain Generators Rules IndepTests Pipeline Parallel PipeSpec PipeFacts.

(* ---- well-formedness and the log ---- *)
Definition anyE (e : exn) : Prop := True.
Definition anyQ (i : tresult) : Prop := True.
Definition anyA (ns : list id) : Prop := True.

Lemma Forall_any {A} (P : A -> Prop) l : (forall a, P a) -> Forall P l.
Proof. intros H; apply Forall_forall; auto. Qed.

Lemma any_hooks Inv H : good_hooks Inv anyE anyQ H.
Proof.
  split; intros; [destruct (run_pre_hooks H g l); [apply Forall_any; intros; exact I|exact I]|destruct (run_post_hooks H g l); exact I].
Qed.
Lemma any_step Inv s : good_step Inv anyE anyQ anyA s.
Proof.
  split.
  - intros g ns us _ _ _. destruct (call s g ns us); [apply Forall_any; intros; exact I|exact I].
  - intros g _. apply Forall_any. intros f g1 _. destruct (f g1); [|exact I]. apply Forall_any. intros e.
    unfold good_em. destruct (negb (s_parallel s) && s_chunked s); [apply Forall_any; intros; exact I|].
    destruct (as_args e); exact I.
Qed.

Definition WFlog (h : list hstep) (g : graph) : Prop := WF g /\ ahist g = h.

Lemma act_wflog h i : keeps (WFlog h) anyE (apply_action i) (fun _ _ => True).
Proof.
  intros g [W Hh]. destruct (apply_action i g) as [g' r] eqn:R. destruct (apply_action_spec g i g' r W R) as (W' & A & _ & _).
  split; [split; [exact W'|cbn; congruence]|]. cbn. destruct r; exact I.
Qed.

Lemma step_wflog h P H s dry : pool_runner H P -> keeps (WFlog h) anyE (execute_step P H s dry) (fun _ _ => True).
Proof.
  intros HP. eapply keeps_weaken; [|intros; exact I].
  apply (keeps_step (WFlog h) anyE anyQ H (any_hooks _ _) dry (fun _ i _ => act_wflog h i) anyA P s (fun _ => HP) (any_step _ s)).
Qed.

Lemma keeps_act_wf i : keeps WF anyE (apply_action i) (fun _ _ => True).
Proof. intros g W. split; [apply apply_action_wf; exact W|]. destruct (snd (apply_action i g)); exact I. Qed.
Lemma keeps_purge_wf : keeps WF anyE purge_soft_deleted_edges (fun _ _ => True).
Proof. intros g W. destruct (purge_spec g W) as (g' & R & W' & _). rewrite R. cbn; auto. Qed.

Lemma step_wf P H s dry : pool_runner H P -> step_keeps WF anyE P H anyQ dry s.
Proof.
  intros HP. apply (keeps_step WF anyE anyQ H (any_hooks _ _) dry (fun _ i _ => keeps_act_wf i) anyA P s (fun _ => HP) (any_step _ s)).
Qed.

Lemma pstep_wf fuel P H p : pool_runner H P -> keeps WF anyE (run_pstep fuel P H p) (fun _ _ => True).
Proof.
  intros HP. destruct p.
  - eapply keeps_pstep_plain; [intros; apply WF_ahist; assumption|apply step_wf; exact HP|apply keeps_purge_wf].
  - eapply keeps_pstep_loop; [intros; apply WF_ahist; assumption| |exact I|intros; exact I]. apply Forall_any. intros; apply (step_wf P H); exact HP.
  - eapply keeps_pstep_together with (Q := anyQ); [intros; apply WF_ahist; assumption|apply any_hooks|intros; apply keeps_act_wf|]. apply Forall_any. intros; apply step_wf; exact HP.
Qed.

Lemma pipeline_wf fuel P H l : pool_runner H P -> keeps WF anyE (execute_pipeline fuel P H l) (fun _ _ => True).
Proof. intros HP; apply keeps_pipeline. apply Forall_any; intros; apply pstep_wf; exact HP. Qed.

(* ---- C40 ---- *)
Lemma pipeline_app fuel P H l m g : execute_pipeline fuel P H (l ++ m) g =
  match execute_pipeline fuel P H l g with (g1, Ok _) => execute_pipeline fuel P H m g1 | (g1, Err e) => (g1, Err e) end.
Proof.
  revert g; induction l as [|p l IH]; intros g; cbn [execute_pipeline app]; [reflexivity|]. unfold bind.
  destruct (run_pstep fuel P H p g) as [g1 [u|e]]; [apply IH|reflexivity].
Qed.

Lemma c40_main fuel P H l s g g' : reached g -> pool_runner H P ->
  execute_pipeline fuel P H (l ++ [PStep s]) g = (g', Ok tt) -> forall u v, directed_edge_is_soft_deleted g' u v = false.
Proof.
  intros R HP E. rewrite pipeline_app in E. destruct (pipeline_wf fuel P H l HP g (reached_WF _ R)) as [W1 _].
  destruct (execute_pipeline fuel P H l g) as [g1 [u|e]]; [|discriminate]. cbn [fst] in W1. cbn [execute_pipeline run_pstep] in E. unfold bind, log_step in E.
  destruct (step_wf P H s false HP g1 W1) as [W2 _].
  destruct (execute_step P H s false g1) as [g2 [a|e]]; [|discriminate]. cbn [fst] in W2.
  assert (W3 := WF_ahist g2 (ahist g2 ++ [HStep (s_name s) (fst a) (snd a) []]) W2).
  destruct (purge_spec _ W3) as (g3 & R3 & _ & _ & _ & _ & D). rewrite R3 in E. injection E as <-. exact D.
Qed.

(* ---- C39: what a step reports ---- *)
Definition sub2 (a : acts2) : Prop := subseq (fst a) (snd a) /\ forall i, In i (fst a) -> t_act i <> DO_NOTHING.
Definition okP {A} (P : A -> Prop) (r : graph * res A) : Prop := match snd r with Ok a => P a | Err _ => True end.

Lemma okP_bind {A B} (m : ST A) (k : A -> ST B) (P : A -> Prop) (P' : B -> Prop) g :
  okP P (m g) -> (forall a g', P a -> okP P' (k a g')) -> okP P' (bind m k g).
Proof. unfold okP, bind; intros H1 H2. destruct (m g) as [g' [a|e]]; cbn in *; [apply H2; exact H1|exact I]. Qed.
Lemma okP_any {A} (m : ST A) g : okP (fun _ => True) (m g).
Proof. unfold okP. destruct (snd (m g)); exact I. Qed.
Lemma okP_ret {A} (P : A -> Prop) a g : P a -> okP P (ret a g).
Proof. intros H; exact H. Qed.

Lemma take_sub2 H rs g : okP sub2 (take_action H false rs g).
Proof.
  unfold okP. destruct (take_action H false rs g) as [g' [[t a]|e]] eqn:E; cbn; [|exact I]. eapply take_action_sub; exact E.
Qed.
Lemma sub2_plus a b : sub2 a -> sub2 b -> sub2 (plus2 a b).
Proof.
  intros [A1 A2] [B1 B2]; split; cbn; [apply subseq_app; assumption|]. intros i Hi; apply in_app_iff in Hi; destruct Hi; auto.
Qed.
Lemma sub2_nil : sub2 ([], []).
Proof. split; [constructor|intros i []]. Qed.

Lemma okP_gget {B} (k : graph -> ST B) (P : B -> Prop) g : okP P (k g g) -> okP P (bind gget k g).
Proof. intros H; exact H. Qed.

Lemma chunks_sub2 H s es : forall g, okP sub2 (run_chunks H false s es g).
Proof.
  induction es as [|e es IH]; intros g; [apply okP_ret, sub2_nil|]. cbn [run_chunks]. apply okP_gget.
  apply (okP_bind _ _ (fun _ => True)); [apply okP_any|]. intros rs g1 _. apply (okP_bind _ _ sub2); [apply take_sub2|].
  intros a g2 A. apply (okP_bind _ _ sub2); [apply IH|]. intros b g3 B. apply okP_ret, sub2_plus; assumption.
Qed.
Lemma blocks_sub2 H s bs : forall g, okP sub2 (run_blocks H false s bs g).
Proof.
  induction bs as [|f bs IH]; intros g; [apply okP_ret, sub2_nil|]. cbn [run_blocks]. apply okP_gget.
  apply (okP_bind _ _ (fun _ => True)); [apply okP_any|]. intros rs g1 _. apply (okP_bind _ _ sub2); [apply chunks_sub2|].
  intros a g2 A. apply (okP_bind _ _ sub2); [apply IH|]. intros b g3 B. apply okP_ret, sub2_plus; assumption.
Qed.
Lemma sync_sub2 H s es : forall g, okP sub2 (run_sync H false s es g).
Proof.
  induction es as [|e es IH]; intros g; [apply okP_ret, sub2_nil|]. cbn [run_sync]. apply okP_gget.
  apply (okP_bind _ _ (fun _ => True)); [apply okP_any|]. intros rs g1 _. apply (okP_bind _ _ sub2); [apply take_sub2|].
  intros a g2 A. apply (okP_bind _ _ sub2); [apply IH|]. intros b g3 B. apply okP_ret, sub2_plus; assumption.
Qed.
Lemma par_sub2 H s bs tasks done_ past g a r : par_run H false s bs tasks done_ past g a r -> sub2 a -> okP sub2 r.
Proof.
  induction 1; intros S; try exact I; auto.
  apply IHpar_run. apply sub2_plus; [exact S|]. assert (X := take_sub2 H (single_results o) g). rewrite H0 in X. exact X.
Qed.
Lemma step_sub2 P H s g : pool_runner H P -> okP sub2 (execute_step P H s false g).
Proof.
  intros HP. unfold execute_step. destruct (s_parallel s).
  - eapply par_sub2; [apply HP|apply sub2_nil].
  - destruct (s_chunked s); apply okP_gget; [apply blocks_sub2|].
    apply (okP_bind _ _ (fun _ => True)); [apply okP_any|]. intros es g1 _. destruct (s_sync s); [apply sync_sub2|].
    apply (okP_bind _ _ (fun _ => True)); [apply okP_any|]. intros rs g2 _. apply take_sub2.
Qed.

(* collected steps: everything proposed is reported *)
Definition same2 (a : acts2) : Prop := fst a = snd a.
Lemma items_dry l : forall g, take_items true l g = (g, Ok l).
Proof. induction l as [|i l IH]; intros g; [reflexivity|]. cbn [take_items]. unfold bind, ret at 1. rewrite IH. reflexivity. Qed.
Lemma take_same2 H rs : forall g, okP same2 (take_action H true rs g).
Proof.
  induction rs as [|[items|] rs IH]; intros g; [reflexivity| |apply IH]. cbn [take_action]. apply okP_gget.
  destruct (run_pre_hooks H g items); [|exact I]. unfold bind. rewrite items_dry. cbn [gget]. unfold gget.
  destruct (run_post_hooks H g a); [|exact I]. specialize (IH g). destruct (take_action H true rs g) as [g' [p|e]]; [|exact I].
  unfold okP, same2 in *; cbn in *. f_equal; exact IH.
Qed.
Lemma same2_plus a b : same2 a -> same2 b -> same2 (plus2 a b).
Proof. unfold same2, plus2; cbn; congruence. Qed.
Lemma chunks_same2 H s es : forall g, okP same2 (run_chunks H true s es g).
Proof.
  induction es as [|e es IH]; intros g; [reflexivity|]. cbn [run_chunks]. apply okP_gget.
  apply (okP_bind _ _ (fun _ => True)); [apply okP_any|]. intros rs g1 _. apply (okP_bind _ _ same2); [apply take_same2|].
  intros a g2 A. apply (okP_bind _ _ same2); [apply IH|]. intros b g3 B. apply okP_ret, same2_plus; assumption.
Qed.
Lemma blocks_same2 H s bs : forall g, okP same2 (run_blocks H true s bs g).
Proof.
  induction bs as [|f bs IH]; intros g; [reflexivity|]. cbn [run_blocks]. apply okP_gget.
  apply (okP_bind _ _ (fun _ => True)); [apply okP_any|]. intros rs g1 _. apply (okP_bind _ _ same2); [apply chunks_same2|].
  intros a g2 A. apply (okP_bind _ _ same2); [apply IH|]. intros b g3 B. apply okP_ret, same2_plus; assumption.
Qed.
Lemma sync_same2 H s es : forall g, okP same2 (run_sync H true s es g).
Proof.
  induction es as [|e es IH]; intros g; [reflexivity|]. cbn [run_sync]. apply okP_gget.
  apply (okP_bind _ _ (fun _ => True)); [apply okP_any|]. intros rs g1 _. apply (okP_bind _ _ same2); [apply take_same2|].
  intros a g2 A. apply (okP_bind _ _ same2); [apply IH|]. intros b g3 B. apply okP_ret, same2_plus; assumption.
Qed.
Lemma par_same2 H s bs tasks done_ past g a r : par_run H true s bs tasks done_ past g a r -> same2 a -> okP same2 r.
Proof.
  induction 1; intros S; try exact I; auto.
  apply IHpar_run. apply same2_plus; [exact S|]. assert (X := take_same2 H (single_results o) g). rewrite H0 in X. exact X.
Qed.
Lemma step_same2 P H s g : pool_runner H P -> okP same2 (execute_step P H s true g).
Proof.
  intros HP. unfold execute_step. destruct (s_parallel s).
  - eapply par_same2; [apply HP|reflexivity].
  - destruct (s_chunked s); apply okP_gget; [apply blocks_same2|].
    apply (okP_bind _ _ (fun _ => True)); [apply okP_any|]. intros es g1 _. destruct (s_sync s); [apply sync_same2|].
    apply (okP_bind _ _ (fun _ => True)); [apply okP_any|]. intros rs g2 _. apply take_same2.
Qed.

Lemma inner_applied P H l : pool_runner H P -> forall g, okP (fun p => Forall2 entry_applied l (fst p) /\ snd p = flat_map h_actions (fst p)) (run_inner P H false l g).
Proof.
  intros HP. induction l as [|s l IH]; intros g; [split; [constructor|reflexivity]|]. cbn [run_inner].
  apply (okP_bind _ _ sub2); [apply step_sub2; exact HP|]. intros a g1 A.
  apply (okP_bind _ _ _ _ g1 (IH g1)). intros b g2 [B1 B2]. apply okP_ret. cbn. split; [|rewrite B2; reflexivity].
  constructor; [|exact B1]. destruct A as [A1 A2]. split; [reflexivity|]. split; [reflexivity|]. auto.
Qed.
Lemma inner_collected P H l : pool_runner H P -> forall g, okP (fun p => Forall2 entry_collected l (fst p)) (run_inner P H true l g).
Proof.
  intros HP. induction l as [|s l IH]; intros g; [constructor|]. cbn [run_inner].
  apply (okP_bind _ _ same2); [apply step_same2; exact HP|]. intros a g1 A.
  apply (okP_bind _ _ _ _ g1 (IH g1)). intros b g2 B. apply okP_ret. cbn.
  constructor; [|exact B]. split; [reflexivity|]. split; [reflexivity|exact A].
Qed.

Lemma loop_log P H exit l : pool_runner H P -> forall fuel n last g,
  okP (fun hs => exists its, hs = List.concat its /\ Forall (Forall2 entry_applied l) its /\
        let tb k := match k with 0 => last | S j => Some (flat_map h_actions (nth j its [])) end in
        (forall k, k < List.length its -> exit (n + k) (tb k) = Ok false) /\ exit (n + List.length its) (tb (List.length its)) = Ok true)
      (run_loop fuel P H exit l n last g).
Proof.
  intros HP; induction fuel as [|f IH]; intros n last g; [exact I|]. cbn [run_loop]. unfold bind at 1.
  destruct (exit n last) as [stop|e] eqn:X; [|exact I]. cbn [liftr]. unfold ret at 1. destruct stop.
  - apply okP_ret. exists []. split; [reflexivity|]. split; [constructor|]. cbn. split; [intros k Hk; lia|]. rewrite Nat.add_0_r; exact X.
  - apply (okP_bind _ _ _ _ g (inner_applied P H l HP g)). intros a g1 [A1 A2].
    apply (okP_bind _ _ _ _ g1 (IH (S n) (Some (snd a)) g1)). intros b g2 (its & -> & B1 & B2 & B3). apply okP_ret.
    exists (fst a :: its). split; [reflexivity|]. split; [constructor; assumption|]. cbn [List.length]. split.
    + intros [|k] Hk; [rewrite Nat.add_0_r; exact X|]. specialize (B2 k ltac:(lia)). rewrite <- Nat.add_succ_comm. destruct k; cbn in *; [rewrite <- A2; exact B2|exact B2].
    + rewrite <- Nat.add_succ_comm. destruct its as [|h its]; cbn in *; [rewrite <- A2; exact B3|exact B3].
Qed.

Lemma pstep_log fuel P H p g g' r : pool_runner H P -> WF g -> run_pstep fuel P H p g = (g', r) ->
  match r with
  | Ok _ => exists h, ahist g' = ahist g ++ [h] /\ log_entry p h
  | Err _ => ahist g' = ahist g
  end.
Proof.
  intros HP W E. assert (SK : forall s dry, keeps (WFlog (ahist g)) anyE (execute_step P H s dry) (fun _ _ => True)) by (intros; apply step_wflog; exact HP).
  destruct p as [s|name exit l|name l]; cbn [run_pstep] in E; unfold bind in E.
  - destruct (SK s false g (conj W eq_refl)) as [[W1 H1] _]. assert (S := step_sub2 P H s g HP).
    destruct (execute_step P H s false g) as [g1 [a|e]]; cbn [fst] in W1, H1; [|injection E as <- <-; exact H1]. unfold log_step in E.
    assert (W3 := WF_ahist g1 (ahist g1 ++ [HStep (s_name s) (fst a) (snd a) []]) W1).
    destruct (purge_ok _ W3) as (g3 & R3 & _ & _ & A3 & _). rewrite R3 in E. injection E as <- <-.
    rewrite A3. cbn. rewrite H1. eexists; split; [reflexivity|]. destruct S as [S1 S2]. split; [reflexivity|]. split; [reflexivity|]. auto.
  - assert (K : forall fuel n last, keeps (WFlog (ahist g)) anyE (run_loop fuel P H exit l n last) (fun _ _ => True)).
    { intros; eapply (keeps_loop (WFlog (ahist g)) anyE P H anyQ exit l); [|exact I|intros; exact I].
      apply Forall_any. intros s. intros ga Ia. destruct (SK s false ga Ia) as [X1 X2]. split; [exact X1|]. destruct (snd _); [|exact I].
      split; apply Forall_any; intros; exact I. }
    destruct (K fuel 0 None g (conj W eq_refl)) as [[W1 H1] _]. assert (L := loop_log P H exit l HP fuel 0 None g).
    destruct (run_loop fuel P H exit l 0 None g) as [g1 [hs|e]]; cbn in *; [|injection E as <- <-; exact H1].
    injection E as <- <-. cbn. rewrite H1. eexists; split; [reflexivity|]. destruct L as (its & -> & L1 & L2 & L3). cbn.
    do 3 (split; [reflexivity|]). exists its. auto.
  - assert (K : keeps (WFlog (ahist g)) anyE (run_together P H l) (fun _ _ => True)).
    { eapply (keeps_together (WFlog (ahist g)) anyE P H anyQ l); [apply any_hooks|intros; apply act_wflog|].
      apply Forall_any. intros s. intros ga Ia. destruct (SK s true ga Ia) as [X1 X2]. split; [exact X1|]. destruct (snd _); [|exact I].
      split; apply Forall_any; intros; exact I. }
    destruct (K g (conj W eq_refl)) as [[W1 H1] _].
    assert (L : okP (fun hs => Forall2 entry_collected l hs) (run_together P H l g)).
    { unfold run_together. apply (okP_bind _ _ _ _ g (inner_collected P H l HP g)). intros a ga A.
      apply (okP_bind _ _ (fun _ => True)); [apply okP_any|]. intros b gb _. apply okP_ret; exact A. }
    destruct (run_together P H l g) as [g1 [hs|e]]; cbn in *; [|injection E as <- <-; exact H1].
    injection E as <- <-. cbn. rewrite H1. eexists; split; [reflexivity|]. cbn. auto.
Qed.

Lemma c39_main fuel P H : pool_runner H P -> forall l g g' r, reached g -> execute_pipeline fuel P H l g = (g', r) ->
  exists l1 l2 hs, l = l1 ++ l2 /\ ahist g' = ahist g ++ hs /\ Forall2 log_entry l1 hs /\ (is_ok r = true <-> l2 = []).
Proof.
  intros HP l g g' r R E. assert (W := reached_WF _ R). clear R. revert g W E. induction l as [|p l IH]; intros g W E.
  - injection E as <- <-. exists [], [], []. split; [reflexivity|]. split; [rewrite app_nil_r; reflexivity|]. split; [constructor|]. split; reflexivity.
  - cbn [execute_pipeline] in E. unfold bind in E. destruct (pstep_wf fuel P H p HP g W) as [W1 _].
    destruct (run_pstep fuel P H p g) as [g1 [u|e]] eqn:E1; cbn in W1.
    + assert (L := pstep_log fuel P H p g g1 _ HP W E1). cbn in L. destruct L as (h & A & L).
      destruct (IH g1 W1 E) as (l1 & l2 & hs & -> & A2 & F & O). exists (p :: l1), l2, (h :: hs).
      split; [reflexivity|]. split; [rewrite A2, A, <- app_assoc; reflexivity|]. split; [constructor; assumption|exact O].
    + injection E as <- <-. assert (L := pstep_log fuel P H p g g1 _ HP W E1). cbn in L.
      exists [], (p :: l), []. split; [reflexivity|]. split; [rewrite app_nil_r; exact L|]. split; [constructor|]. split; discriminate.
Qed.

(* ---- C35 ---- *)
Definition below (g0 g : graph) : Prop := WF g /\ forall u v, directed_edge_exists g u v = true -> directed_edge_exists g0 u v = true.
Definition quiet (i : tresult) : Prop := ~ restores i.

Lemma only_changes_dee ps g g' u v : WF g -> WF g' -> only_changes ps g g' -> ~ In (u, v) ps ->
  directed_edge_exists g' u v = directed_edge_exists g u v.
Proof.
  intros W W' [N C] NI. apply dee_eff; [exact W|exact W'|exact N|]. rewrite <- !entry_eget. apply C; exact NI.
Qed.
Lemma pair_in_dec (p : id * id) ps : In p ps \/ ~ In p ps.
Proof. destruct (mem p ps) eqn:M; [left; apply mem_In; exact M|right; apply mem_not_In; exact M]. Qed.

(* the live directions after an action other than a restore *)
Lemma quiet_live g i g' r : WF g -> quiet i -> apply_action i g = (g', r) ->
  forall u v, directed_edge_exists g' u v = true -> directed_edge_exists g u v = true.
Proof.
  intros W Qi E u v D. destruct (apply_action_spec g i g' r W E) as (W' & _ & N & S).
  destruct r as [[]|e].
  - destruct S as (_ & _ & F & _). unfold action_effect in F. unfold quiet, restores in Qi.
    assert (K : forall ps, only_changes ps g g' -> (forall a b, In (a, b) ps -> (a, b) = (u, v) -> directed_edge_exists g u v = true) -> directed_edge_exists g u v = true).
    { intros ps C G. destruct (pair_in_dec (u, v) ps) as [Hi|Hi]; [eapply G; [exact Hi|reflexivity]|].
      rewrite <- (only_changes_dee ps g g' u v W W' C Hi). exact D. }
    assert (V : forall a b f, entry g' a b = option_map f (entry g a b) -> (forall e, e_del (f e) = false -> e_del e = false) -> (a, b) = (u, v) -> directed_edge_exists g u v = true).
    { intros a b f EQ Hf X. injection X as -> ->. rewrite (dee_val g' u v W') in D. rewrite (dee_val g u v W). rewrite !entry_eget in EQ. rewrite EQ in D.
      destruct (eget g u v) as [e|]; cbn in *; [|discriminate]. apply negb_true_iff in D. rewrite (Hf e D). reflexivity. }
    assert (HN : forall e, e_del (new_data i e) = false -> e_del e = false) by (intros e; unfold new_data; destruct (t_data i); auto).
    assert (HD : forall e, e_del (set_del true e) = false -> e_del e = false) by (intros e; discriminate).
    destruct (t_act i).
    + destruct F as (C & F1 & F2). apply (K _ C). intros a b [X|[X|[]]] Y; rewrite <- X in Y.
      * eapply V; [exact F1|exact HN|exact Y].
      * eapply V; [exact F2|exact HN|exact Y].
    + destruct F as (C & F1). apply (K _ C). intros a b [X|[]] Y; rewrite <- X in Y. eapply V; [exact F1|exact HN|exact Y].
    + contradiction.
    + contradiction.
    + destruct F as (C & F1 & F2). apply (K _ C). intros a b [X|[X|[]]] Y; rewrite <- X in Y.
      * eapply V; [exact F1|exact HD|exact Y].
      * eapply V; [exact F2|exact HD|exact Y].
    + destruct F as (C & F1 & F2). apply (K _ C). intros a b [X|[X|[]]] Y; rewrite <- X in Y.
      * eapply V; [exact F1|exact HD|exact Y].
      * destruct (directed_edge_exists g (t_v i) (t_u i)) eqn:DD; [injection Y as <- <-; exact DD|].
        eapply (V _ _ (fun e => e)); [rewrite F2; destruct (entry g (t_v i) (t_u i)); reflexivity|auto|exact Y].
    + exfalso; apply Qi; left; reflexivity.
    + exfalso; apply Qi; right; reflexivity.
    + contradiction.
  - destruct S as [-> _]; exact D.
  - destruct S as (_ & _ & F). rewrite F in D; [exact D|]. intros X; apply Qi; left; exact X.
Qed.

Lemma act_below g0 i : quiet i -> keeps (below g0) anyE (apply_action i) (fun _ _ => True).
Proof.
  intros Qi g [W B]. destruct (apply_action i g) as [g' r] eqn:E. destruct (apply_action_spec g i g' r W E) as (W' & _).
  split; [split; [exact W'|]|cbn; destruct r; exact I]. cbn. intros u v D. apply B. eapply quiet_live; eassumption.
Qed.
Lemma purge_below g0 : keeps (below g0) anyE purge_soft_deleted_edges (fun _ _ => True).
Proof.
  intros g [W B]. destruct (purge_spec g W) as (g' & R & W' & D & _). rewrite R. cbn. split; [|exact I]. split; [exact W'|].
  intros u v X. rewrite D in X; auto.
Qed.
Lemma log_below g0 g h : below g0 g -> below g0 (with_ahist g h).
Proof. intros [W B]; split; [apply WF_ahist; exact W|exact B]. Qed.

Lemma quiet_step Inv s : never_restores s -> good_step Inv anyE quiet anyA s.
Proof.
  intros NR; split; [|apply (any_step Inv s)].
  intros g ns us _ _ _. unfold call. destruct (s_proc s g ns _) eqn:E; [|exact I]. apply Forall_forall. intros i Hi. eapply NR; eassumption.
Qed.
Lemma below_step g0 P s dry : pool_runner no_hooks P -> never_restores s -> step_keeps (below g0) anyE P no_hooks quiet dry s.
Proof.
  intros HP NR. apply (keeps_step (below g0) anyE quiet no_hooks (no_hooks_good _ _ _) dry (fun _ => act_below g0) anyA P s (fun _ => HP) (quiet_step _ s NR)).
Qed.

Lemma c35_main fuel P l g g' r : reached g -> pool_runner no_hooks P ->
  (forall p s, In p l -> In s (steps_of p) -> never_restores s) ->
  execute_pipeline fuel P no_hooks l g = (g', r) ->
  forall u v, directed_edge_exists g' u v = true -> directed_edge_exists g u v = true.
Proof.
  intros R HP NR E. assert (K : keeps (below g) anyE (execute_pipeline fuel P no_hooks l) (fun _ _ => True)).
  { apply keeps_pipeline. apply Forall_forall. intros p Hp. destruct p as [s|name exit l1|name l1].
    - eapply keeps_pstep_plain; [apply log_below|apply below_step; [exact HP|apply (NR _ _ Hp); left; reflexivity]|apply purge_below].
    - eapply keeps_pstep_loop; [apply log_below| |exact I|intros; exact I]. apply Forall_forall. intros s Hs.
      apply below_step; [exact HP|apply (NR _ _ Hp Hs)].
    - eapply keeps_pstep_together; [apply log_below|apply no_hooks_good|apply act_below|]. apply Forall_forall. intros s Hs.
      apply below_step; [exact HP|apply (NR _ _ Hp Hs)]. }
  destruct (K g (conj (reached_WF _ R) (fun u v D => D))) as [[_ B] _]. rewrite E in B. exact B.
Qed.
