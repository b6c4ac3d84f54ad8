(* A schedule of a parallel step exists; live directions and restores. *)
From Verif Require Import Base PyDict PyDictFacts Graph GraphSpec GraphFacts GraphInv GraphInv2 GraphInv3 GraphQ GraphMain
  Actions ActionSpec ActionFacts ActionMain Generators Rules IndepTests Pipeline Parallel PipeSpec PipeFacts PipeMain RuleFacts.

(* the schedule in which every task is generated and run before the first result is applied *)
Fixpoint take_each (H : hooks) (dry : bool) (os : list outcome) (a : acts2) : ST acts2 :=
  match os with
  | [] => ret a
  | o :: r => b <- take_action H dry (single_results o) ;; take_each H dry r (plus2 a b)
  end.
Definition batch_runner (H : hooks) : runner := fun s dry g =>
  match gen_run (s_gen s g) g with
  | Err e => (g, Err e)
  | Ok es => match rmap (fun e => rbind (as_args e) (fun ns => call s g ns None)) es with
             | Err e => (g, Err e)
             | Ok os => take_each H dry os ([], []) g
             end
  end.

Lemma batch_take H dry s : forall os past g a, par_run H dry s [] [] (rev os) past g a (take_each H dry os a g).
Proof.
  induction os as [|o os IH]; intros past g a; cbn [rev take_each]; [apply par_end|]. unfold bind.
  destruct (take_action H dry (single_results o) g) as [g' [b|e]] eqn:T.
  - eapply par_take; [exact T|]. rewrite app_nil_r. apply IH.
  - eapply par_take_error; exact T.
Qed.
Lemma batch_work H dry s g : forall es done_, 
  par_run H dry s [] es done_ [g] g ([], [])
    match rmap (fun e => rbind (as_args e) (fun ns => call s g ns None)) es with
    | Err e => (g, Err e)
    | Ok os => take_each H dry (rev done_ ++ os) ([], []) g
    end.
Proof.
  induction es as [|t es IH]; intros done_; cbn [rmap].
  - rewrite app_nil_r. rewrite <- (rev_involutive done_) at 1. apply batch_take.
  - destruct (rbind (as_args t) _) as [o|e] eqn:C; cbn [rbind].
    + apply (par_work H dry s [] [] t es done_ [g] g ([], []) g o _ (or_introl eq_refl) C). cbn [app]. specialize (IH (o :: done_)).
      destruct (rmap _ es) as [os|e]; cbn [rbind]; [|exact IH]. cbn [rev] in IH. rewrite <- app_assoc in IH. exact IH.
    + apply (par_work_error H dry s [] [] t es done_ [g] g ([], []) g e (or_introl eq_refl) C).
Qed.
Lemma batch_gen H dry s g : forall bs tasks,
  par_run H dry s bs tasks [] [g] g ([], [])
    match gen_run bs g with
    | Err e => (g, Err e)
    | Ok es => match rmap (fun e => rbind (as_args e) (fun ns => call s g ns None)) (tasks ++ es) with
               | Err e => (g, Err e)
               | Ok os => take_each H dry os ([], []) g
               end
    end.
Proof.
  unfold gen_run; induction bs as [|f bs IH]; intros tasks; cbn [rflat].
  - rewrite app_nil_r. apply (batch_work H dry s g tasks []).
  - destruct (f g) as [es|e] eqn:F; cbn [rbind].
    + eapply par_gen; [left; reflexivity|exact F|]. specialize (IH (tasks ++ es)). destruct (rflat _ bs); cbn [rbind]; [|exact IH].
      rewrite <- app_assoc in IH; exact IH.
    + eapply par_gen_error; [left; reflexivity|exact F].
Qed.
Lemma batch_pool H : pool_runner H (batch_runner H).
Proof. intros s dry g. apply (batch_gen H dry s g (s_gen s g) []). Qed.

(* ---- C35, the general form ---- *)
Definition since (g0 g : graph) : Prop := WF g /\
  (forall p, prefix (history g0 p) (history g p)) /\
  forall u v, directed_edge_exists g u v = true -> directed_edge_exists g0 u v = true \/
    exists l i, history g (u, v) = history g0 (u, v) ++ l /\ In i l /\ t_act i = RESTORE_EDGE_DIRECTED /\ t_u i = u /\ t_v i = v.
Definition no_both (i : tresult) : Prop := t_act i <> RESTORE_EDGE.

Lemma act_since g0 i : no_both i -> keeps (since g0) anyE (apply_action i) (fun _ _ => True).
Proof.
  intros NB g (W & Pre & L). destruct (apply_action i g) as [g' r] eqn:E. destruct (apply_action_spec g i g' r W E) as (W' & _ & N & S).
  split; [|cbn; destruct r; exact I]. cbn [fst]. destruct r as [[]|e].
  - destruct S as (Gd & _ & F & Lg). assert (Pre' : forall p, prefix (history g0 p) (history g' p)).
    { intros p. destruct (Pre p) as [r Hr]. rewrite (Lg p), Hr. exists (r ++ if mem p (action_pairs i) then [i] else []). symmetry; apply app_assoc. }
    split; [exact W'|]. split; [exact Pre'|]. intros u v D.
    assert (Old : directed_edge_exists g u v = true -> directed_edge_exists g0 u v = true \/
      exists l j, history g' (u, v) = history g0 (u, v) ++ l /\ In j l /\ t_act j = RESTORE_EDGE_DIRECTED /\ t_u j = u /\ t_v j = v).
    { intros D0. destruct (L u v D0) as [X|(l & j & Hl & Hj & Hr)]; [left; exact X|right]. exists (l ++ if mem (u, v) (action_pairs i) then [i] else []), j.
      rewrite (Lg (u, v)), Hl, app_assoc. split; [reflexivity|]. split; [apply in_app_iff; left; exact Hj|exact Hr]. }
    assert (Cc : t_act i = RESTORE_EDGE_DIRECTED \/ quiet i).
    { unfold quiet, restores. destruct (t_act i) eqn:TA; try (right; intros [X|X]; discriminate); [exfalso; apply NB; exact TA|left; reflexivity]. }
    destruct Cc as [Cc|Cc]; [|apply Old; eapply quiet_live; eassumption].
    unfold action_effect in F. rewrite Cc in F. destruct F as [C F].
    destruct (pair_in_dec (u, v) [(t_u i, t_v i)]) as [[Hi|[]]|Hi].
    + injection Hi as <- <-. right. destruct (Pre (t_u i, t_v i)) as [r Hr]. exists (r ++ [i]), i.
      rewrite (Lg (t_u i, t_v i)), Hr. assert (M : mem (t_u i, t_v i) (action_pairs i) = true) by (apply mem_In; unfold action_pairs; rewrite Cc; left; reflexivity). rewrite M.
      split; [symmetry; apply app_assoc|]. split; [apply in_app_iff; right; left; reflexivity|auto].
    + apply Old. rewrite <- (only_changes_dee _ g g' u v W W' C Hi). exact D.
  - destruct S as [-> _]; split; [exact W|split; [exact Pre|exact L]].
  - destruct S as (_ & _ & F). rewrite (F NB). split; [exact W|split; [exact Pre|exact L]].
Qed.
Lemma purge_since g0 : keeps (since g0) anyE purge_soft_deleted_edges (fun _ _ => True).
Proof.
  intros g (W & Pre & L). destruct (purge_ok g W) as (g1 & R1 & _ & _ & _ & EH & _). destruct (purge_spec g W) as (g' & R & W' & D & _).
  rewrite R in R1. injection R1 as <-. rewrite R. cbn [fst snd]. split; [|exact I].
  assert (HH : forall p, history g' p = history g p) by (intros p; unfold history; rewrite EH; reflexivity).
  split; [exact W'|]. split; [intros p; rewrite HH; apply Pre|]. intros u v X. rewrite D in X. rewrite HH. apply L; exact X.
Qed.
Lemma log_since g0 g h : since g0 g -> since g0 (with_ahist g h).
Proof. intros (W & Pre & L); split; [apply WF_ahist; exact W|split; [exact Pre|exact L]]. Qed.

Definition never_both (s : step) : Prop :=
  forall g ns us o i, s_proc s g ns us = Ok o -> In i (items_of o) -> t_act i <> RESTORE_EDGE.
Lemma no_both_step Inv s : never_both s -> good_step Inv anyE no_both anyA s.
Proof.
  intros NR; split; [|apply (any_step Inv s)].
  intros g ns us _ _ _. unfold call. destruct (s_proc s g ns _) eqn:E; [|exact I]. apply Forall_forall. intros i Hi. eapply NR; eassumption.
Qed.
Lemma since_step g0 P s dry : pool_runner no_hooks P -> never_both s -> step_keeps (since g0) anyE P no_hooks no_both dry s.
Proof.
  intros HP NR. apply (keeps_step (since g0) anyE no_both no_hooks (no_hooks_good _ _ _) dry (fun _ => act_since g0) anyA P s (fun _ => HP) (no_both_step _ s NR)).
Qed.

Lemma c35_restores fuel P l g g' r : reached g -> pool_runner no_hooks P ->
  (forall p s, In p l -> In s (steps_of p) -> never_both s) ->
  execute_pipeline fuel P no_hooks l g = (g', r) ->
  forall u v, directed_edge_exists g' u v = true -> directed_edge_exists g u v = true \/
    exists l i, history g' (u, v) = history g (u, v) ++ l /\ In i l /\ t_act i = RESTORE_EDGE_DIRECTED /\ t_u i = u /\ t_v i = v.
Proof.
  intros R HP NR E. assert (K : keeps (since g) anyE (execute_pipeline fuel P no_hooks l) (fun _ _ => True)).
  { apply keeps_pipeline. apply Forall_forall. intros p Hp. destruct p as [s|name exit l1|name l1].
    - eapply keeps_pstep_plain; [apply log_since|apply since_step; [exact HP|apply (NR _ _ Hp); left; reflexivity]|apply purge_since].
    - eapply keeps_pstep_loop; [apply log_since| |exact I|intros; exact I]. apply Forall_forall. intros s Hs.
      apply since_step; [exact HP|apply (NR _ _ Hp Hs)].
    - eapply keeps_pstep_together; [apply log_since|apply no_hooks_good|apply act_since|]. apply Forall_forall. intros s Hs.
      apply since_step; [exact HP|apply (NR _ _ Hp Hs)]. }
  destruct (K g) as [(_ & _ & B) _]; [|rewrite E in B; exact B].
  split; [apply reached_WF; exact R|]. split; [intros p; exists []; rewrite app_nil_r; reflexivity|]. auto.
Qed.

Lemma collider_last_acts st so : act_in [REMOVE_EDGE_DIRECTED; DO_NOTHING; RESTORE_EDGE_DIRECTED] (collider_step st so).
Proof.
  intros g ns us o i E Hi. cbn in E. apply collider_inv in E. destruct E as (x & y & _ & _ & [[_ ->]|(_ & zs & acts & rs & -> & _ & _ & F)]); [destruct Hi|].
  cbn in Hi. destruct (rflat_In _ _ _ _ F Hi) as (z & l & _ & B & Hl). apply collider_body_inv in B.
  assert (GR : forall ux, In i (generate_restores ux) -> t_act i = RESTORE_EDGE_DIRECTED).
  { intros ux H. unfold generate_restores in H. apply in_flat_map in H. destruct H as (a & _ & H). destruct (taction_eqb _ _); [|destruct H].
    destruct H as [<-|[]]; reflexivity. }
  destruct B as (seps & _ & _ & [[_ ->]|(_ & ux & uy & _ & _ & [(_ & _ & ->)|(_ & ->)])]); [destruct Hl| |].
  - destruct Hl as [<-|[<-|[]]]; cbn; auto.
  - destruct st; [| |destruct Hl].
    + apply in_app_iff in Hl. destruct Hl as [Hl|Hl].
      * destruct uy; [destruct Hl|]. destruct Hl as [<-|[]]; cbn; auto.
      * destruct ux; [destruct Hl|]. destruct Hl as [<-|[]]; cbn; auto.
    + apply in_app_iff in Hl. destruct Hl as [Hl|Hl]; [rewrite (GR _ Hl); cbn; auto|]. apply in_app_iff in Hl.
      destruct Hl as [Hl|Hl]; [rewrite (GR _ Hl); cbn; auto|]. destruct Hl as [<-|[<-|[]]]; cbn; auto.
Qed.
Lemma never_never s : never_restores s -> never_both s.
Proof. intros NR g ns us o i E Hi X. apply (NR _ _ _ _ _ E Hi). left; exact X. Qed.
Lemma collider_never_both st so : never_both (collider_step st so).
Proof. intros g ns us o i E Hi X. assert (Y := collider_last_acts st so g ns us o i E Hi). rewrite X in Y. cbn in Y. intuition discriminate. Qed.

Lemma fci_acts so g ns us o i : collider_rule_fci so g ns us = Ok o -> In i (items_of o) -> t_act i = UPDATE_EDGE_DIRECTED.
Proof.
  unfold collider_rule_fci; intros E Hi. inv_ok E; [injection E as <-; destruct Hi|]. injection E as <-. cbn in Hi.
  destruct (rflat_In _ _ _ _ E4 Hi) as (z & l & _ & B1 & Hl).
  destruct (negb (dmem (nodes g) z)); [discriminate|]. apply rbind_ok in B1. destruct B1 as (seps & _ & B2).
  destruct (mem z seps); injection B2 as <-; [destruct Hl|]. destruct Hl as [<-|[<-|[]]]; reflexivity.
Qed.

Lemma shipped_false p g ns us o i : shipped_proc false p -> p g ns us = Ok o -> In i (items_of o) -> ~ restores i.
Proof.
  intros S; remember false as b eqn:Hb. destruct S; intros E Hi [X|X].
  all: try (assert (Y := pearson_acts N g ns us o i E Hi); rewrite X in Y; cbn in Y; intuition discriminate).
  all: try (assert (Y := correlation_acts N g ns us o i E Hi); rewrite X in Y; cbn in Y; intuition discriminate).
  all: try (assert (Y := partial_acts true N g ns us o i E Hi); rewrite X in Y; cbn in Y; intuition discriminate).
  all: try (assert (Y := matrix_acts so 0 N g ns us o i E Hi); rewrite X in Y; cbn in Y; intuition discriminate).
  all: try (assert (Y := test_result_act _ (regression_results so N g ns us o i E Hi)); rewrite X in Y; cbn in Y; intuition discriminate).
  all: try (assert (Y := non_collider_acts so g ns us o i E Hi); rewrite X in Y; cbn in Y; intuition discriminate).
  all: try (assert (Y := triple_acts g ns us o i E Hi); rewrite X in Y; cbn in Y; intuition discriminate).
  all: try (assert (Y := quadruple_acts so g ns us o i E Hi); rewrite X in Y; cbn in Y; intuition discriminate).
  all: try (assert (Y := further_quadruple_acts so g ns us o i E Hi); rewrite X in Y; cbn in Y; intuition discriminate).
  all: try (assert (Y := effect_acts N g ns us o i E Hi); rewrite X in Y; cbn in Y; intuition discriminate).
  all: try (assert (Y := fci_acts so g ns us o i E Hi); rewrite X in Y; discriminate).
  all: assert (NK : st <> KEEP_LAST) by (intros ->; discriminate);
       assert (Y := collider_acts st so NK g ns us o i E Hi); rewrite X in Y; cbn in Y; intuition discriminate.
Qed.
Lemma shipped_true b p g ns us o i : shipped_proc b p -> p g ns us = Ok o -> In i (items_of o) -> t_act i <> RESTORE_EDGE.
Proof.
  intros S E Hi X. destruct b; [|apply (shipped_false _ _ _ _ _ _ S E Hi); left; exact X].
  remember true as b eqn:Hb. destruct S; try discriminate. exact (collider_never_both st so g ns us o i E Hi X).
Qed.

Lemma c35_shipped fuel P l g g' r : reached g -> pool_runner no_hooks P -> shipped_pipeline false l ->
  execute_pipeline fuel P no_hooks l g = (g', r) ->
  forall u v, directed_edge_exists g' u v = true -> directed_edge_exists g u v = true.
Proof.
  intros R HP S. apply c35_main; [exact R|exact HP|]. intros p s Hp Hs g1 ns us o i E Hi.
  destruct (S p s Hp Hs) as [S1|[X _]]; [eapply shipped_false; eassumption|discriminate].
Qed.
Lemma c35_shipped_restores fuel P l g g' r : reached g -> pool_runner no_hooks P -> shipped_pipeline true l ->
  execute_pipeline fuel P no_hooks l g = (g', r) ->
  forall u v, directed_edge_exists g' u v = true -> directed_edge_exists g u v = true \/
    exists l i, history g' (u, v) = history g (u, v) ++ l /\ In i l /\ t_act i = RESTORE_EDGE_DIRECTED /\ t_u i = u /\ t_v i = v.
Proof.
  intros R HP S. apply c35_restores; [exact R|exact HP|]. intros p s Hp Hs g1 ns us o i E Hi.
  destruct (S p s Hp Hs) as [S1|[_ S1]]; eapply shipped_true; eassumption.
Qed.
