(* Steps that are applied together: dry runs, schedules, and lists of removals. *)
From Verif Require Import Base PyDict PyDictFacts Graph GraphSpec GraphFacts GraphInv GraphInv2 GraphQ GraphMain Actions ActionSpec ActionFacts ActionMain
  Generators Rules IndepTests Pipeline Parallel PipeSpec PipeFacts TogetherSpec.
Open Scope string_scope.
Open Scope list_scope.

(* ---- a dry run leaves the graph as it was ---- *)
Lemma chunks_dry s es : forall g, fst (run_chunks no_hooks true s es g) = g.
Proof.
  induction es as [|e es IH]; intros g; [reflexivity|]. cbn [run_chunks]. unfold bind, gget. destruct (rmap (fun ns => call s g ns None) (as_chunk e)) as [os|x]; cbn [liftr]; unfold ret, raise; [|reflexivity].
  rewrite take_action_dry. specialize (IH g). destruct (run_chunks no_hooks true s es g) as [g' [b|x]]; exact IH.
Qed.
Lemma blocks_dry s bs : forall g, fst (run_blocks no_hooks true s bs g) = g.
Proof.
  induction bs as [|f bs IH]; intros g; [reflexivity|]. cbn [run_blocks]. unfold bind, gget. destruct (f g) as [es|x]; cbn [liftr]; unfold ret, raise; [|reflexivity].
  assert (C := chunks_dry s es g). destruct (run_chunks no_hooks true s es g) as [g' [b|x]]; cbn [fst] in C; subst g'; [|reflexivity]. specialize (IH g). destruct (run_blocks no_hooks true s bs g) as [g' [c|x]]; exact IH.
Qed.
Lemma sync_dry s es : forall g, fst (run_sync no_hooks true s es g) = g.
Proof.
  induction es as [|e es IH]; intros g; [reflexivity|]. cbn [run_sync]. unfold bind, gget. destruct (rbind (as_args e) (fun ns => call s g ns (Some []))) as [o|x]; cbn [liftr]; unfold ret, raise; [|reflexivity].
  rewrite take_action_dry. specialize (IH g). destruct (run_sync no_hooks true s es g) as [g' [b|x]]; exact IH.
Qed.

(* ---- parallel steps: the proposals are the answers of all calls, in some order ---- *)
Notation ask s g := (fun e => rbind (as_args e) (fun ns => call s g ns None)).
Definition answers (s : step) (g : graph) (es : list emission) (os : list outcome) : Prop := Forall2 (fun e o => ask s g e = Ok o) es os.
Lemma single_items o : flat_map items_of (single_results o) = items_of o.
Proof. destruct o as [l|]; [|reflexivity]. cbn. induction l as [|i l IH]; [reflexivity|]. cbn. rewrite IH. reflexivity. Qed.
Lemma answers_det s g es : forall os os', answers s g es os -> answers s g es os' -> os = os'.
Proof. induction es as [|e es IH]; intros os os' A B; inversion A; inversion B; subst; [reflexivity|]. f_equal; [congruence|]. apply IH; assumption. Qed.
Lemma par_dry s bs tasks done_ past g a r : par_run no_hooks true s bs tasks done_ past g a r -> (forall x, In x past -> x = g) ->
  fst r = g /\ match snd r with
  | Ok b => exists es os, gen_run bs g = Ok es /\ answers s g (tasks ++ es) os /\ Permutation (fst b) (fst a ++ flat_map items_of done_ ++ flat_map items_of os)
  | Err _ => ~ exists es os, gen_run bs g = Ok es /\ answers s g (tasks ++ es) os end.
Proof.
  induction 1 as [past g a|f bs tasks done_ past g a g1 es r Hp Ef Ru IH|f bs tasks done_ past g a g1 e Hp Ef|bs t1 t t2 done_ past g a g1 o r Hp Ec Ru IH|bs t1 t t2 done_ past g a g1 e Hp Ec|bs tasks d1 o d2 past g a g2 b r Et Ru IH|bs tasks d1 o d2 past g a g2 e Et];
    intros Pa.
  - split; [reflexivity|]. exists [], []. split; [reflexivity|]. split; [constructor|]. cbn. rewrite app_nil_r. apply Permutation_refl.
  - rewrite (Pa _ Hp) in Ef. destruct (IH Pa) as [G X]. split; [exact G|]. unfold gen_run in *. cbn [rflat]. rewrite Ef. cbn [rbind]. destruct (snd r) as [b|e].
    + destruct X as (es2 & os & E2 & An & Pm). rewrite E2. cbn [rbind]. exists (es ++ es2), os. split; [reflexivity|]. rewrite app_assoc. auto.
    + intros (es3 & os & E3 & An). destruct (rflat (fun f => f g) bs) as [es2|x] eqn:E2; [|discriminate]. cbn [rbind] in E3. injection E3 as <-. apply X. exists es2, os. split; [reflexivity|]. rewrite <- app_assoc. exact An.
  - rewrite (Pa _ Hp) in Ef. split; [reflexivity|]. cbn [snd]. intros (es & os & E1 & _). unfold gen_run in E1. cbn [rflat] in E1. rewrite Ef in E1. discriminate.
  - rewrite (Pa _ Hp) in Ec. destruct (IH Pa) as [G X]. split; [exact G|]. destruct (snd r) as [b|e].
    + destruct X as (es & os & E1 & An & Pm). exists es. rewrite <- app_assoc in An. apply Forall2_app_inv_l in An. destruct An as (oa & ob & A1 & A2 & ->). exists (oa ++ o :: ob). split; [exact E1|]. split.
      * rewrite <- app_assoc. apply Forall2_app; [exact A1|]. constructor; [exact Ec|exact A2].
      * eapply Permutation_trans; [exact Pm|]. apply Permutation_app_head. cbn [flat_map]. rewrite !flat_map_app. cbn [flat_map].
        eapply Permutation_trans; [rewrite <- app_assoc; apply Permutation_app_swap_app|]. apply Permutation_app_head. apply Permutation_app_swap_app.
    + intros (es & os & E1 & An). apply X. exists es. rewrite <- app_assoc in An. apply Forall2_app_inv_l in An. destruct An as (oa & ob & A1 & A2 & ->). inversion A2 as [|? ? ? ob' _ A3]; subst. exists (oa ++ ob'). split; [exact E1|]. rewrite <- app_assoc. apply Forall2_app; assumption.
  - rewrite (Pa _ Hp) in Ec. split; [reflexivity|]. cbn [snd]. intros (es & os & _ & An). rewrite <- app_assoc in An. apply Forall2_app_inv_l in An. destruct An as (oa & ob & _ & A2 & _). inversion A2 as [|? ? ? ? A3]; subst. congruence.
  - rewrite take_action_dry in Et. injection Et as <- <-. destruct (IH ltac:(intros x [<-|I]; [reflexivity|apply Pa; exact I])) as [G X]. split; [exact G|]. destruct (snd r) as [c|e]; [|exact X].
    destruct X as (es & os & E1 & An & Pm). exists es, os. split; [exact E1|]. split; [exact An|]. eapply Permutation_trans; [exact Pm|]. cbn [plus2 fst]. rewrite single_items, <- app_assoc. apply Permutation_app_head.
    rewrite !flat_map_app. cbn [flat_map]. rewrite (app_assoc (items_of o)). apply Permutation_app_tail. apply Permutation_app_swap_app.
  - rewrite take_action_dry in Et. discriminate.
Qed.
Lemma step_dry_graph P s g : pool_runner no_hooks P -> fst (execute_step P no_hooks s true g) = g.
Proof.
  intros HP. unfold execute_step. destruct (s_parallel s); [exact (proj1 (par_dry _ _ _ _ _ _ _ _ (HP s true g) ltac:(intros x [<-|[]]; reflexivity)))|]. destruct (s_chunked s); [unfold bind, gget; apply blocks_dry|].
  unfold bind, gget. destruct (gen_run (s_gen s g) g) as [es|x]; cbn [liftr]; unfold ret, raise; [|reflexivity]. destruct (s_sync s); [apply sync_dry|].
  destruct (collect s g es []) as [os|x]; cbn [liftr]; unfold ret, raise; [|reflexivity]. rewrite take_action_dry. reflexivity.
Qed.
(* whatever the schedule: the same proposals, or an error both times *)
Lemma step_dry_schedule P P' s g a : pool_runner no_hooks P -> pool_runner no_hooks P' -> execute_step P no_hooks s true g = (g, Ok a) ->
  exists a', execute_step P' no_hooks s true g = (g, Ok a') /\ Permutation (fst a) (fst a').
Proof.
  intros HP HP' R. unfold execute_step in *. destruct (s_parallel s); [|exists a; split; [exact R|apply Permutation_refl]].
  assert (X := par_dry _ _ _ _ _ _ _ _ (HP s true g) ltac:(intros x [<-|[]]; reflexivity)). assert (Y := par_dry _ _ _ _ _ _ _ _ (HP' s true g) ltac:(intros x [<-|[]]; reflexivity)).
  rewrite R in X. cbn [fst snd] in X. destruct X as [_ (es & os & E1 & An & Pm)]. destruct (P' s true g) as [g' [b|e]]; cbn [fst snd] in Y; destruct Y as [-> Y].
  - exists b. split; [reflexivity|]. destruct Y as (es' & os' & E1' & An' & Pm'). rewrite E1 in E1'. injection E1' as <-. rewrite (answers_det _ _ _ _ _ An An') in Pm. eapply Permutation_trans; [exact Pm|apply Permutation_sym; exact Pm'].
  - exfalso. apply Y. exists es, os. auto.
Qed.

(* ---- lists of removals ---- *)
Definition removal (i : tresult) : Prop := t_act i = REMOVE_EDGE_UNDIRECTED \/ t_act i = DO_NOTHING.
Definition both (g : graph) (u v : id) : bool := directed_edge_exists g u v && directed_edge_exists g v u.
Definition names (u v : id) (i : tresult) : bool :=
  match t_act i with REMOVE_EDGE_UNDIRECTED => (eqb (t_u i) u && eqb (t_v i) v) || (eqb (t_u i) v && eqb (t_v i) u) | _ => false end.
Definition hit (l : list tresult) (g : graph) (u v : id) : option edge :=
  if existsb (names u v) l && both g u v then option_map (set_del true) (entry g u v) else entry g u v.
Lemma names_spec u v i : names u v i = true <-> t_act i = REMOVE_EDGE_UNDIRECTED /\ ((t_u i = u /\ t_v i = v) \/ (t_u i = v /\ t_v i = u)).
Proof.
  unfold names. destruct (t_act i); try (split; [discriminate|intros [D _]; discriminate]). rewrite orb_true_iff, !andb_true_iff.
  rewrite !(reflect_iff _ _ (eqb_spec _ _)). split; [intros H; split; [reflexivity|exact H]|intros [_ H]; exact H].
Qed.
Lemma dee_entry g h u v : WF g -> WF h -> entry g u v = entry h u v -> directed_edge_exists g u v = directed_edge_exists h u v.
Proof. intros Wg Wh E. rewrite !entry_eget in E. rewrite (dee_val g u v Wg), (dee_val h u v Wh), E. reflexivity. Qed.
Lemma removals_take l : Forall removal l -> forall g, WF g -> exists g' t, take_action no_hooks false (map (fun i => Some [i]) l) g = (g', Ok t) /\ WF g' /\ nodes g' = nodes g /\ ahist g' = ahist g /\ forall u v, entry g' u v = hit l g u v.
Proof.
  induction l as [|i l IH]; intros F g W.
  - exists g, ([], []). split; [reflexivity|]. do 3 (split; [assumption || reflexivity|]). intros u v. reflexivity.
  - inversion F as [|? ? Ri Rl]; subst. cbn [map take_action]. unfold bind at 1, gget. cbn [run_pre_hooks no_hooks pre_hooks rfold]. unfold bind. cbn [take_items]. unfold bind.
    destruct (apply_action i g) as [g1 r] eqn:R1. destruct (apply_action_spec g i g1 r W R1) as (W1 & A1 & N1 & X).
    assert (Rb : exists b, r = Ok b) by (destruct r as [b|e]; [exists b; reflexivity|]; exfalso; destruct X as (_ & Nr & _); apply Nr; unfold action_ready; destruct Ri as [->| ->]; exact Logic.I). destruct Rb as (b & ->).
    destruct (IH Rl g1 W1) as (g' & t & R2 & W2 & N2 & A2 & E2).
    assert (K : forall u v, hit l g1 u v = hit (i :: l) g u v).
    { destruct b.
      - destruct X as (Gu & _ & Ef & _). assert (Ra : t_act i = REMOVE_EDGE_UNDIRECTED) by (destruct Ri as [Ra|Ra]; [exact Ra|]; unfold action_guard in Gu; rewrite Ra in Gu; discriminate).
        unfold action_guard, action_effect in Gu, Ef. rewrite Ra in Gu, Ef. destruct Ef as [[_ Oc] [E3 E4]].
        assert (D1 : directed_edge_exists g1 (t_u i) (t_v i) = false) by (rewrite (dee_val _ _ _ W1); rewrite <- entry_eget, E3; destruct (entry g (t_u i) (t_v i)) as [e|]; reflexivity).
        assert (D2 : directed_edge_exists g1 (t_v i) (t_u i) = false) by (rewrite (dee_val _ _ _ W1); rewrite <- entry_eget, E4; destruct (entry g (t_v i) (t_u i)) as [e|]; reflexivity).
        intros u v. unfold hit. cbn [existsb]. destruct (names u v i) eqn:Nm.
        + apply names_spec in Nm. destruct Nm as [_ [[<- <-]|[<- <-]]]; unfold both; rewrite D1, D2, ?andb_false_r; cbn [andb orb]; [rewrite Gu|rewrite andb_comm in Gu; rewrite Gu]; assumption.
        + cbn [orb]. assert (Off : forall a b, (a = u /\ b = v) \/ (a = v /\ b = u) -> ~ In (a, b) [(t_u i, t_v i); (t_v i, t_u i)]).
          { intros a b Hab [Q|[Q|[]]]; injection Q as Q1 Q2; assert (Z : names u v i = true) by (apply names_spec; split; [exact Ra|]; destruct Hab as [[-> ->]|[-> ->]]; auto); congruence. }
          assert (Eu := Oc u v (Off u v (or_introl (conj eq_refl eq_refl)))). assert (Ev := Oc v u (Off v u (or_intror (conj eq_refl eq_refl)))). unfold both. rewrite (dee_entry g1 g u v W1 W Eu), (dee_entry g1 g v u W1 W Ev), Eu. reflexivity.
      - destruct X as [-> Gu]. intros u v. unfold hit. cbn [existsb]. destruct (names u v i) eqn:Nm; [|reflexivity]. apply names_spec in Nm. destruct Nm as [Ra Nm]. unfold action_guard in Gu. rewrite Ra in Gu.
        assert (B : both g u v = false) by (unfold both; destruct Nm as [[<- <-]|[<- <-]]; [exact Gu|rewrite andb_comm; exact Gu]). rewrite B, !andb_false_r. reflexivity. }
    cbn. rewrite R2. eexists. eexists. split; [reflexivity|]. split; [exact W2|]. split; [congruence|]. split; [congruence|]. intros u v. rewrite E2. apply K.
Qed.
Lemma hit_perm l l' g u v : Permutation l l' -> hit l g u v = hit l' g u v.
Proof.
  intros P. unfold hit. replace (existsb (names u v) l) with (existsb (names u v) l'); [reflexivity|]. apply eq_iff_eq_true. rewrite !existsb_exists. split; intros (i & I & N); exists i; (split; [|exact N]).
  - eapply Permutation_in; [apply Permutation_sym; exact P|exact I].
  - eapply Permutation_in; [exact P|exact I].
Qed.

(* ---- groups ---- *)
Notation shows P g := (fun s a => execute_step P no_hooks s true g = (g, Ok a)).
Lemma inner_dry P l g : pool_runner no_hooks P -> match run_inner P no_hooks true l g with
  | (g', Ok b) => g' = g /\ exists aa, Forall2 (shows P g) l aa /\ b = (map (fun p => entry_of (fst p) (snd p)) (combine l aa), flat_map fst aa)
  | (g', Err e) => g' = g /\ exists l1 s l2 aa, l = l1 ++ s :: l2 /\ Forall2 (shows P g) l1 aa /\ execute_step P no_hooks s true g = (g, Err e) end.
Proof.
  intros HP. induction l as [|s l IH]; [split; [reflexivity|exists []; split; [constructor|reflexivity]]|]. cbn [run_inner]. unfold bind. assert (G := step_dry_graph P s g HP).
  destruct (execute_step P no_hooks s true g) as [g1 [a|e]] eqn:R1; cbn [fst] in G; subst g1; [|split; [reflexivity|exists [], s, l, []; split; [reflexivity|]; split; [constructor|exact R1]]].
  destruct (run_inner P no_hooks true l g) as [g2 [b|e]]; destruct IH as [-> IH]; (split; [reflexivity|]).
  - destruct IH as (aa & F & ->). exists (a :: aa). split; [constructor; assumption|reflexivity].
  - destruct IH as (l1 & s' & l2 & aa & -> & F & E1). exists (s :: l1), s', l2, (a :: aa). split; [reflexivity|]. split; [constructor; assumption|exact E1].
Qed.
Lemma group_perm P P' g l l' : Permutation l l' -> pool_runner no_hooks P -> pool_runner no_hooks P' -> forall aa, Forall2 (shows P g) l aa -> exists aa', Forall2 (shows P' g) l' aa' /\ Permutation (flat_map fst aa) (flat_map fst aa').
Proof.
  intros Pm HP HP'. assert (Same : forall l aa, Forall2 (shows P g) l aa -> exists aa', Forall2 (shows P' g) l aa' /\ Permutation (flat_map fst aa) (flat_map fst aa')).
  { clear -HP HP'. intros l. induction l as [|s l IH]; intros aa F; inversion F as [|? a ? aa2 F1 F2]; subst; [exists []; split; constructor|]. destruct (step_dry_schedule P P' s g a HP HP' F1) as (a' & R' & Pa). destruct (IH aa2 F2) as (aa' & G & Pg).
    exists (a' :: aa'). split; [constructor; assumption|]. cbn. apply Permutation_app; assumption. }
  assert (Order : forall l l', Permutation l l' -> forall aa, Forall2 (shows P' g) l aa -> exists aa', Forall2 (shows P' g) l' aa' /\ Permutation (flat_map fst aa) (flat_map fst aa')).
  { clear. intros l l' Pm. induction Pm as [|s l l' Pm IH|s s' l|l1 l2 l3 P1 IH1 P2 IH2]; intros aa F.
    - inversion F; subst. exists []; split; constructor.
    - inversion F as [|? a ? aa2 F1 F2]; subst. destruct (IH aa2 F2) as (aa' & G & Pg). exists (a :: aa'). split; [constructor; assumption|]. cbn. apply Permutation_app_head; exact Pg.
    - inversion F as [|? a ? aa2 F1 F2]; subst. inversion F2 as [|? a2 ? aa3 F3 F4]; subst. exists (a2 :: a :: aa3). split; [do 2 (constructor; [assumption|]); assumption|]. cbn. apply Permutation_app_swap_app.
    - destruct (IH1 aa F) as (aa' & G & Pg). destruct (IH2 aa' G) as (aa'' & G' & Pg'). exists aa''. split; [exact G'|eapply Permutation_trans; eassumption]. }
  intros aa F. destruct (Same l aa F) as (ab & G & Pg). destruct (Order l l' Pm ab G) as (ac & G' & Pg'). exists ac. split; [exact G'|eapply Permutation_trans; eassumption].
Qed.
