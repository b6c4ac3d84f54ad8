(* Proofs of C94. *)
From Verif Require Import Base PyDict PyDictFacts Graph GraphSpec GraphFacts GraphInv GraphInv2 GraphInv3 GraphQ GraphMain
  Actions ActionSpec ActionFacts ActionMain Generators Rules IndepTests Pipeline Parallel PipeSpec PipeFacts PipeMain HookSpec.

Lemma rfold_app {A B} (f : B -> A -> res B) l m b : rfold f (l ++ m) b = rbind (rfold f l b) (rfold f m).
Proof. revert b; induction l as [|a l IH]; intros b; cbn; [reflexivity|]. destruct (f b a); cbn; [apply IH|reflexivity]. Qed.

Lemma guarded_pre Q H g l l' : guarded_by Q H -> run_pre_hooks H g l = Ok l' -> Forall Q l'.
Proof.
  intros (hs1 & h & hs2 & E & Hh & Hs) R. unfold run_pre_hooks in R. rewrite E, rfold_app in R.
  destruct (rfold (fun r h => h g r) hs1 l) as [l1|e]; cbn in R; [|discriminate].
  destruct (h g l1) as [l2|e] eqn:E2; cbn in R; [|discriminate]. apply Hh in E2. clear E l l1. revert l2 E2 R.
  induction hs2 as [|h' hs2 IH]; intros l2 F R; cbn in R; [injection R as <-; exact F|].
  destruct (h' g l2) as [l3|e] eqn:E3; cbn in R; [|discriminate].
  eapply IH; [intros x Hx; apply Hs; right; exact Hx| |exact R]. eapply Hs; [left; reflexivity|exact F|exact E3].
Qed.

Section Hooked.
Variable Inv : graph -> Prop.
Variable Q : tresult -> Prop.
Variable H : hooks.
Hypothesis Hpre : forall g l l', run_pre_hooks H g l = Ok l' -> Forall Q l'.
Notation kp := (keeps Inv anyE).

Section Step.
Variable dry : bool.
Hypothesis Hact : dry = false -> forall i, Q i -> kp (apply_action i) (fun _ _ => True).

Lemma hooked_take rs : kp (take_action H dry rs) (fun a _ => good2 Q a).
Proof.
  induction rs as [|[items|] rs IH].
  - apply keeps_ret; intros; split; constructor.
  - cbn [take_action]. apply keeps_gget; intros g I.
    destruct (run_pre_hooks H g items) as [items'|e] eqn:Ep; [|apply keeps_raise; exact Logic.I].
    assert (F := Hpre _ _ _ Ep).
    apply (keeps_bind' _ _ _ _ (Forall Q)).
    + apply (keeps_items Inv anyE Q dry Hact); exact F.
    + intros t Ft. apply keeps_gget; intros g1 I1. destruct (run_post_hooks H g1 t); [|apply keeps_raise; exact Logic.I].
      apply (keeps_bind' _ _ _ _ (good2 Q)); [exact IH|]. intros p [G1 G2]. apply keeps_ret; intros; split; cbn; apply Forall_app; auto.
  - exact IH.
Qed.

Lemma hooked_nil (g : graph) : good2 Q ([], []).
Proof. split; constructor. Qed.

Lemma hooked_chunks s es : kp (run_chunks H dry s es) (fun a _ => good2 Q a).
Proof.
  induction es as [|e es IH]; [apply keeps_ret; intros; apply hooked_nil; assumption|]. cbn [run_chunks].
  apply keeps_gget; intros g I. apply (keeps_bind' _ _ _ _ (fun _ => True)).
  { apply keeps_liftr. destruct (rmap _ _); [auto|exact Logic.I]. }
  intros rs _. apply (keeps_bind' _ _ _ _ (good2 Q)); [apply hooked_take|]. intros a Ga.
  apply (keeps_bind' _ _ _ _ (good2 Q)); [exact IH|]. intros b Gb. apply keeps_ret; intros; apply good2_plus; assumption.
Qed.
Lemma hooked_blocks s bs : kp (run_blocks H dry s bs) (fun a _ => good2 Q a).
Proof.
  induction bs as [|f bs IH]; [apply keeps_ret; intros; apply hooked_nil; assumption|]. cbn [run_blocks].
  apply keeps_gget; intros g I. apply (keeps_bind' _ _ _ _ (fun _ => True)).
  { apply keeps_liftr. destruct (f g); [auto|exact Logic.I]. }
  intros es _. apply (keeps_bind' _ _ _ _ (good2 Q)); [apply hooked_chunks|]. intros a Ga.
  apply (keeps_bind' _ _ _ _ (good2 Q)); [exact IH|]. intros b Gb. apply keeps_ret; intros; apply good2_plus; assumption.
Qed.
Lemma hooked_sync s es : kp (run_sync H dry s es) (fun a _ => good2 Q a).
Proof.
  induction es as [|e es IH]; [apply keeps_ret; intros; apply hooked_nil; assumption|]. cbn [run_sync].
  apply keeps_gget; intros g I. apply (keeps_bind' _ _ _ _ (fun _ => True)).
  { apply keeps_liftr. destruct (rbind _ _); [auto|exact Logic.I]. }
  intros o _. apply (keeps_bind' _ _ _ _ (good2 Q)); [apply hooked_take|]. intros a Ga.
  apply (keeps_bind' _ _ _ _ (good2 Q)); [exact IH|]. intros b Gb. apply keeps_ret; intros; apply good2_plus; assumption.
Qed.
Lemma hooked_par s bs tasks done_ past g a r : par_run H dry s bs tasks done_ past g a r ->
  Inv g -> good2 Q a -> Inv (fst r) /\ match snd r with Ok a => good2 Q a | Err e => anyE e end.
Proof.
  induction 1 as [past g a|f bs tasks done_ past g a g0 es r Hp Hf _ IH|f bs tasks done_ past g a g0 e Hp Hf
    |bs t1 t t2 done_ past g a g0 o r Hp Hc _ IH|bs t1 t t2 done_ past g a g0 e Hp Hc|bs tasks d1 o d2 past g a g' b r Ht _ IH|bs tasks d1 o d2 past g a g' e Ht];
    intros I G2; try (cbn; split; [exact I|]; first [exact G2|exact Logic.I]); try (apply IH; assumption).
  - destruct (hooked_take (single_results o) g I) as [A1 A2]. rewrite Ht in A1, A2; cbn in *.
    apply IH; [exact A1|]. apply good2_plus; assumption.
  - destruct (hooked_take (single_results o) g I) as [A1 A2]. rewrite Ht in A1, A2; cbn in *. split; [exact A1|exact Logic.I].
Qed.
Lemma hooked_step P s : pool_runner H P -> step_keeps Inv anyE P H Q dry s.
Proof.
  intros HP. unfold step_keeps, execute_step. destruct (s_parallel s).
  - intros g I. apply (hooked_par s _ _ _ _ _ _ _ (HP s dry g)); [exact I|apply hooked_nil; exact g].
  - destruct (s_chunked s); apply keeps_gget; intros g I; [apply hooked_blocks|].
    apply (keeps_bind' _ _ _ _ (fun _ => True)); [apply keeps_liftr; destruct (gen_run _ g); [auto|exact Logic.I]|].
    intros es _. destruct (s_sync s); [apply hooked_sync|].
    apply (keeps_bind' _ _ _ _ (fun _ => True)); [apply keeps_liftr; destruct (collect s g es []); [auto|exact Logic.I]|].
    intros rs _. apply hooked_take.
Qed.
End Step.

Hypothesis Hact : forall i, Q i -> kp (apply_action i) (fun _ _ => True).
Hypothesis Hlog : forall g h, Inv g -> Inv (with_ahist g h).
Hypothesis Hpurge : kp purge_soft_deleted_edges (fun _ _ => True).

Lemma hooked_good : good_hooks Inv anyE Q H.
Proof.
  split; intros g l; [intros _ _|intros _].
  - destruct (run_pre_hooks H g l) eqn:E; [eapply Hpre; exact E|exact Logic.I].
  - destruct (run_post_hooks H g l); exact Logic.I.
Qed.
Lemma hooked_pstep fuel P p : pool_runner H P -> kp (run_pstep fuel P H p) (fun _ _ => True).
Proof.
  intros HP. assert (S : forall dry s, step_keeps Inv anyE P H Q dry s) by (intros; apply hooked_step; [intros; apply Hact; assumption|exact HP]).
  destruct p.
  - eapply keeps_pstep_plain; [exact Hlog|apply S|exact Hpurge].
  - eapply keeps_pstep_loop; [exact Hlog| |exact Logic.I|intros; exact Logic.I]. apply Forall_any. intros s; apply S.
  - eapply keeps_pstep_together; [exact Hlog|exact hooked_good|exact Hact|]. apply Forall_any. intros s; apply S.
Qed.
Lemma hooked_pipeline fuel P l : pool_runner H P -> kp (execute_pipeline fuel P H l) (fun _ _ => True).
Proof. intros HP. apply keeps_pipeline. apply Forall_any. intros p; apply hooked_pstep; exact HP. Qed.
End Hooked.

(* ---- the log ---- *)
Section Log.
Variable Q : tresult -> Prop.
Variable H : hooks.
Hypothesis Hpre : forall g l l', run_pre_hooks H g l = Ok l' -> Forall Q l'.

Lemma log_step_passed n a : good2 Q a -> passed Q (HStep n (fst a) (snd a) []).
Proof. intros [A B]; constructor; [exact A|exact B|constructor]. Qed.

Lemma inner_passed P h dry l : pool_runner H P ->
  keeps (WFlog h) anyE (run_inner P H dry l) (fun a _ => Forall (passed Q) (fst a)).
Proof.
  intros HP; induction l as [|s l IH]; [apply keeps_ret; intros; constructor|]. cbn [run_inner].
  apply (keeps_bind' _ _ _ _ (good2 Q)); [apply hooked_step; [exact Hpre|intros; apply act_wflog|exact HP]|].
  intros a Ga. apply (keeps_bind' _ _ _ _ (fun b => Forall (passed Q) (fst b))); [exact IH|].
  intros b Gb. apply keeps_ret; intros; cbn. constructor; [apply log_step_passed; exact Ga|exact Gb].
Qed.
Lemma loop_passed P h exit l : pool_runner H P -> forall fuel n last,
  keeps (WFlog h) anyE (run_loop fuel P H exit l n last) (fun hs _ => Forall (passed Q) hs).
Proof.
  intros HP; induction fuel as [|f IH]; intros n last; cbn [run_loop]; [apply keeps_raise; exact Logic.I|].
  apply (keeps_bind' _ _ _ _ (fun _ => True)); [apply keeps_liftr; destruct (exit n last); [auto|exact Logic.I]|].
  intros stop _. destruct stop; [apply keeps_ret; constructor|].
  apply (keeps_bind' _ _ _ _ (fun b => Forall (passed Q) (fst b))); [apply inner_passed; exact HP|]. intros a Ga.
  apply (keeps_bind' _ _ _ _ (Forall (passed Q))); [apply IH|]. intros b Gb. apply keeps_ret; intros. apply Forall_app; auto.
Qed.
Lemma together_passed P h l : pool_runner H P ->
  keeps (WFlog h) anyE (run_together P H l) (fun hs _ => Forall (passed Q) hs).
Proof.
  intros HP. unfold run_together. apply (keeps_bind' _ _ _ _ (fun b => Forall (passed Q) (fst b))); [apply inner_passed; exact HP|].
  intros a Ga. apply (keeps_bind' _ _ _ _ (good2 Q)); [apply hooked_take; [exact Hpre|intros; apply act_wflog]|].
  intros b _. apply keeps_ret; auto.
Qed.

Definition grown (h0 : list hstep) (g : graph) : Prop := WF g /\ exists hs, ahist g = h0 ++ hs /\ Forall (passed Q) hs.

Lemma log_then h0 {A} (m : ST A) (k : A -> hstep) (z : ST unit) :
  (forall h, keeps (WFlog h) anyE m (fun a _ => passed Q (k a))) ->
  keeps (grown h0) anyE z (fun _ _ => True) ->
  keeps (grown h0) anyE (a <- m ;; log_step (k a) ;;; z) (fun _ _ => True).
Proof.
  intros Hm Hz g (W & hs & E & F). destruct (Hm (ahist g) g (conj W eq_refl)) as [[W1 E1] R1].
  unfold bind, log_step.
  destruct (m g) as [g1 [a|e]]; cbn [fst snd] in *.
  - refine (Hz (with_ahist g1 (ahist g1 ++ [k a])) _). split; [apply WF_ahist; exact W1|]. exists (hs ++ [k a]). cbn [ahist with_ahist].
    split; [rewrite E1, E, app_assoc; reflexivity|]. apply Forall_app; split; [exact F|]. constructor; [exact R1|constructor].
  - split; [|exact Logic.I]. split; [exact W1|]. exists hs; split; [congruence|exact F].
Qed.

Lemma purge_grown h0 : keeps (grown h0) anyE purge_soft_deleted_edges (fun _ _ => True).
Proof.
  intros g (W & hs & E & F). destruct (purge_ok g W) as (g' & R & W' & _ & A & _). rewrite R. cbn. split; [|exact Logic.I].
  split; [exact W'|]. exists hs; split; [congruence|exact F].
Qed.

Lemma bind_ret_unit (m : ST unit) g : (m ;;; ret tt) g = m g.
Proof. unfold bind, ret. destruct (m g) as [g1 [[]|e]]; reflexivity. Qed.

Lemma pstep_grown h0 fuel P p : pool_runner H P -> keeps (grown h0) anyE (run_pstep fuel P H p) (fun _ _ => True).
Proof.
  intros HP. destruct p as [s|name exit l|name l]; cbn [run_pstep].
  - apply (log_then h0 (execute_step P H s false) (fun a => HStep (s_name s) (fst a) (snd a) [])); [|apply purge_grown].
    intros h. eapply keeps_weaken; [apply hooked_step; [exact Hpre|intros; apply act_wflog|exact HP]|].
    intros a g _ Ga. apply log_step_passed; exact Ga.
  - assert (X := log_then h0 (run_loop fuel P H exit l 0 None) (fun hs => HStep name [] [] hs) (ret tt)).
    intros g Hg. assert (Y := X ltac:(intros h; eapply keeps_weaken; [apply loop_passed; exact HP|]; intros a g1 _ F; constructor; [constructor|constructor|exact F])
      ltac:(apply keeps_ret; auto) g Hg). clear X. unfold bind in *. destruct (run_loop fuel P H exit l 0 None g) as [g1 [a|e]]; exact Y.
  - assert (X := log_then h0 (run_together P H l) (fun hs => HStep name [] [] hs) (ret tt)).
    intros g Hg. assert (Y := X ltac:(intros h; eapply keeps_weaken; [apply together_passed; exact HP|]; intros a g1 _ F; constructor; [constructor|constructor|exact F])
      ltac:(apply keeps_ret; auto) g Hg). clear X. unfold bind in *. destruct (run_together P H l g) as [g1 [a|e]]; exact Y.
Qed.
Lemma pipeline_grown h0 fuel P l : pool_runner H P -> keeps (grown h0) anyE (execute_pipeline fuel P H l) (fun _ _ => True).
Proof. intros HP. apply keeps_pipeline. apply Forall_any. intros p; apply pstep_grown; exact HP. Qed.
End Log.

(* ---- protecting a direction ---- *)
Definition stays (x y : id) (g : graph) : Prop := WF g /\ directed_edge_exists g x y = true.

Lemma act_stays x y i : ~ removes x y i -> keeps (stays x y) anyE (apply_action i) (fun _ _ => True).
Proof.
  intros N g [W D]. destruct (apply_action i g) as [g' r] eqn:E. cbn. split; [|destruct r; exact Logic.I].
  destruct (apply_action_spec g i g' r W E) as (W' & _ & Nn & S). split; [exact W'|].
  assert (L := D). rewrite (dee_val _ _ _ W) in L. rewrite (dee_val _ _ _ W'), <- entry_eget. rewrite <- entry_eget in L.
  destruct (entry g x y) as [e|] eqn:Ex; [|discriminate].
  assert (K : forall ps, only_changes ps g g' -> ~ In (x, y) ps -> match entry g' x y with Some e => negb (e_del e) | None => false end = true).
  { intros ps [_ C] Hi. rewrite (C _ _ Hi), Ex. exact L. }
  destruct i as [u v a data]. unfold removes in N. cbn [t_u t_v t_act] in *.
  destruct r as [[]|ex].
  - destruct S as (G & _ & F & _). unfold action_effect, action_guard in *. cbn [t_u t_v t_act t_data] in *.
    destruct (pair_in_dec (x, y) [(u, v); (v, u)]) as [Hi|Hi].
    2:{ destruct a; try contradiction; try (apply (K [(u, v); (v, u)]); [apply F|exact Hi]);
        (apply (K [(u, v)]); [apply F|intros [X|[]]; apply Hi; left; exact X]). }
    assert (Hc : (u = x /\ v = y) \/ (u = y /\ v = x)) by (destruct Hi as [X|[X|[]]]; injection X as <- <-; auto). clear Hi.
    destruct a; try contradiction.
    + destruct F as (_ & F1 & F2). destruct Hc as [[-> ->]|[-> ->]]; [rewrite F1|rewrite F2]; rewrite Ex; cbn;
        unfold new_data; cbn; destruct data; exact L.
    + destruct F as (C & F1). destruct Hc as [[-> ->]|[-> ->]]; [rewrite F1, Ex; cbn; unfold new_data; cbn; destruct data; exact L|].
      destruct (pair_in_dec (x, y) [(y, x)]) as [Hi|Hi]; [|apply (K [(y, x)]); assumption].
      destruct Hi as [X|[]]. assert (Xy : y = x) by congruence. subst y. rewrite F1, Ex; cbn; unfold new_data; cbn; destruct data; exact L.
    + exfalso; apply N; right; split; [reflexivity|exact Hc].
    + destruct F as (_ & F1 & F2). destruct Hc as [[-> ->]|[-> ->]]; [exfalso; apply N; left; auto|].
      rewrite F2, D, Ex. cbn. exact L.
    + exfalso. apply negb_true_iff in G. rewrite edge_exists_or in G. apply orb_false_iff in G. destruct G as [G1 G2].
      destruct Hc as [[-> ->]|[-> ->]]; congruence.
    + destruct F as (C & F1). destruct Hc as [[-> ->]|[-> ->]]; [rewrite D in G; discriminate|].
      destruct (pair_in_dec (x, y) [(y, x)]) as [Hi|Hi]; [|apply (K [(y, x)]); assumption].
      destruct Hi as [X|[]]. assert (Xy : y = x) by congruence. subst y. rewrite D in G; discriminate.
  - destruct S as [-> _]. rewrite Ex. exact L.
  - destruct S as (G & _ & S). unfold action_guard in G; cbn [t_u t_v t_act] in *. destruct a; try (rewrite (S ltac:(discriminate)), Ex; exact L).
    apply negb_true_iff in G. unfold apply_action in E. cbn [t_u t_v t_act] in E. unfold bind at 1, gget at 1 in E. rewrite G in E.
    rewrite edge_exists_or in G. apply orb_false_iff in G. destruct G as [G1 G2].
    assert (R := restore_edge_step u v g (WF_WF0 _ W)).
    assert (SK : samekeys g) by (split; [apply (wf_rk _ W)|apply (wf_dk _ W)]). specialize (R SK). destruct R as [_ R].
    unfold bind at 1 in E. destruct (restore_edge u v g) as [g1 [[]|e1]] eqn:E1.
    + destruct (restore_edge_spec g u v g1 _ W E1) as (W1 & N1 & A1 & H1 & (Mu & Mv & Nuv & _)).
      destruct (then_log2 _ g g1 u v (mkT u v RESTORE_EDGE data) W Nuv E1 W1 N1 H1) as (g2 & R2 & _).
      unfold bind at 1 in R2. rewrite E1 in R2. rewrite R2 in E. discriminate.
    + injection E as <- <-. cbn [fst] in R. rewrite entry_eget. unfold eget. rewrite (lc_e _ _ _ _ R).
      * fold (eget g x y). rewrite <- entry_eget, Ex. exact L.
      * split; intros X; injection X as -> ->; congruence.
Qed.
Lemma purge_stays x y : keeps (stays x y) anyE purge_soft_deleted_edges (fun _ _ => True).
Proof. intros g [W D]. destruct (purge_spec g W) as (g' & R & W' & X & _). rewrite R. cbn. split; [|exact Logic.I]. split; [exact W'|rewrite X; exact D]. Qed.

Lemma protected_main fuel P H l x y g : pool_runner H P -> guarded_by (fun i => ~ removes x y i) H -> stays x y g ->
  stays x y (fst (execute_pipeline fuel P H l g)).
Proof.
  intros HP G S. apply (hooked_pipeline (stays x y) (fun i => ~ removes x y i) H (fun g l l' => guarded_pre _ H g l l' G)); [apply act_stays| |apply purge_stays|exact HP|exact S].
  intros g1 h [W D]; split; [apply WF_ahist; exact W|exact D].
Qed.

(* ---- nothing gets through ---- *)
Definition same_graph (g0 g : graph) : Prop :=
  WF g /\ nodes g = nodes g0 /\ (forall p, history g p = history g0 p) /\
  forall u v, directed_edge_exists g u v = directed_edge_exists g0 u v /\
    (directed_edge_exists g0 u v = true -> entry g u v = entry g0 u v).
Lemma purge_same g0 : keeps (same_graph g0) anyE purge_soft_deleted_edges (fun _ _ => True).
Proof.
  intros g (W & N & Hh & D). destruct (purge_ok g W) as (g' & R & W' & N' & _ & Eh & _ & G & _). assert (X := purge_dee g g' W R). rewrite R. cbn. split; [|exact Logic.I].
  split; [exact W'|]. split; [congruence|]. split; [intros p; unfold history; rewrite Eh; apply Hh|]. intros u v. destruct (D u v) as [D1 D2].
  split; [rewrite X; exact D1|]. intros L. rewrite <- (D2 L). rewrite !entry_eget, G. rewrite <- D1, (dee_val _ _ _ W) in L.
  destruct (eget g u v) as [e|]; [|reflexivity]. destruct (e_del e); [discriminate|reflexivity].
Qed.
Lemma dropped_main fuel P H l g : pool_runner H P -> guarded_by (fun _ => False) H -> WF g ->
  same_graph g (fst (execute_pipeline fuel P H l g)).
Proof.
  intros HP G W. apply (hooked_pipeline (same_graph g) (fun _ => False) H (fun g l l' => guarded_pre _ H g l l' G)); [intros i []| |apply purge_same|exact HP|].
  - intros g1 h (W1 & N & Hh & D); split; [apply WF_ahist; exact W1|]. split; [exact N|]. split; [exact Hh|exact D].
  - split; [exact W|]. split; [reflexivity|]. split; [reflexivity|]. intros; split; reflexivity.
Qed.

(* ---- what post-update hooks are told ---- *)
Lemma items_carried l : forall g g' t, WF g -> take_items false l g = (g', Ok t) ->
  WF g' /\ carried_out g' t /\ forall p i, In i (history g p) -> In i (history g' p).
Proof.
  induction l as [|i l IH]; intros g g' t W E; cbn [take_items] in E.
  - injection E as <- <-. split; [exact W|]. split; [intros i []|auto].
  - unfold bind at 1 in E. destruct (apply_action i g) as [g1 [b|e]] eqn:E1; [|discriminate].
    destruct (apply_action_spec g i g1 _ W E1) as (W1 & _ & _ & S). unfold bind in E.
    destruct (take_items false l g1) as [g2 [t2|e]] eqn:E2; [|discriminate]. injection E as <- <-.
    destruct (IH g1 g2 t2 W1 E2) as (W2 & C2 & M2). split; [exact W2|]. destruct b.
    + destruct S as (_ & _ & _ & L). split.
      * intros j [<-|Hj]; [|apply C2; exact Hj]. apply M2. rewrite L. apply in_app_iff; right.
        replace (mem (t_u i, t_v i) (action_pairs i)) with true; [left; reflexivity|]. symmetry. apply mem_In.
        unfold action_pairs. destruct (t_act i); left; reflexivity.
      * intros p j Hj. apply M2. rewrite L. apply in_app_iff; left; exact Hj.
    + destruct S as [-> _]. split; [exact C2|exact M2].
Qed.

Section Told.
Variable pre : list (graph -> list tresult -> res (list tresult)).
Variable post : list (graph -> list tresult -> res unit).
Hypothesis Hpost : forall h g t, In h post -> carried_out g t -> h g t = Ok tt.
Notation H := (mkHooks pre post).
Notation H0 := (mkHooks pre []).

Lemma post_ok g t : carried_out g t -> run_post_hooks H g t = Ok tt.
Proof.
  intros C. unfold run_post_hooks. cbn [post_hooks]. assert (A : forall h, In h post -> h g t = Ok tt) by (intros h Hh; apply Hpost; assumption).
  clear Hpost. induction post as [|h hs IH]; cbn; [reflexivity|]. rewrite (A h (or_introl eq_refl)). apply IH. intros x Hx; apply A; right; exact Hx.
Qed.

Lemma told_take rs : forall g, WF g -> take_action H false rs g = take_action H0 false rs g.
Proof.
  induction rs as [|[items|] rs IH]; intros g W; [reflexivity| |apply IH; exact W]. cbn [take_action]. unfold bind, gget.
  change (run_pre_hooks H g items) with (run_pre_hooks H0 g items). destruct (run_pre_hooks H0 g items) as [items'|e]; [|reflexivity].
  destruct (take_items false items' g) as [g1 [t|e]] eqn:E; [|reflexivity].
  destruct (items_carried items' g g1 t W E) as (W1 & C & _). rewrite (post_ok g1 t C). cbn [run_post_hooks post_hooks rfold].
  change (run_post_hooks H0 g1 t) with (@Ok unit tt). rewrite (IH g1 W1). reflexivity.
Qed.
Lemma take_wf K rs g : WF g -> WF (fst (take_action K false rs g)).
Proof.
  intros W. apply (keeps_take WF anyE anyQ K (any_hooks _ _) false (fun _ i _ => keeps_act_wf i) rs); [|exact W].
  apply Forall_any. intros o. apply Forall_any; intros; exact Logic.I.
Qed.
Lemma told_chunks s es : forall g, WF g -> run_chunks H false s es g = run_chunks H0 false s es g.
Proof.
  induction es as [|e es IH]; intros g W; [reflexivity|]. cbn [run_chunks]. unfold bind, gget. unfold liftr.
  destruct (rmap _ _) as [rs|x]; [|reflexivity]. cbn [ret]. unfold ret. rewrite (told_take rs g W). assert (W1 := take_wf H0 rs g W).
  destruct (take_action H0 false rs g) as [g1 [a|x]]; [|reflexivity]. cbn [fst] in W1. rewrite (IH g1 W1). reflexivity.
Qed.
Lemma chunks_wf K s es g : WF g -> WF (fst (run_chunks K false s es g)).
Proof.
  intros W. revert g W; induction es as [|e es IH]; intros g W; [exact W|]. cbn [run_chunks]. unfold bind, gget, liftr.
  destruct (rmap _ _) as [rs|x]; [|exact W]. unfold ret. assert (W1 := take_wf K rs g W).
  destruct (take_action K false rs g) as [g1 [a|x]]; [|exact W1]. cbn [fst] in W1. specialize (IH g1 W1).
  destruct (run_chunks K false s es g1) as [g2 [b|x]]; exact IH.
Qed.
Lemma told_blocks s bs : forall g, WF g -> run_blocks H false s bs g = run_blocks H0 false s bs g.
Proof.
  induction bs as [|f bs IH]; intros g W; [reflexivity|]. cbn [run_blocks]. unfold bind, gget, liftr.
  destruct (f g) as [es|x]; [|reflexivity]. unfold ret. rewrite (told_chunks s es g W). assert (W1 := chunks_wf H0 s es g W).
  destruct (run_chunks H0 false s es g) as [g1 [a|x]]; [|reflexivity]. cbn [fst] in W1. rewrite (IH g1 W1). reflexivity.
Qed.
Lemma told_sync s es : forall g, WF g -> run_sync H false s es g = run_sync H0 false s es g.
Proof.
  induction es as [|e es IH]; intros g W; [reflexivity|]. cbn [run_sync]. unfold bind, gget, liftr.
  destruct (rbind _ _) as [o|x]; [|reflexivity]. unfold ret. rewrite (told_take [o] g W). assert (W1 := take_wf H0 [o] g W).
  destruct (take_action H0 false [o] g) as [g1 [a|x]]; [|reflexivity]. cbn [fst] in W1. rewrite (IH g1 W1). reflexivity.
Qed.
Lemma told_par s bs tasks done_ past g a r : par_run H false s bs tasks done_ past g a r -> WF g ->
  par_run H0 false s bs tasks done_ past g a r.
Proof.
  induction 1 as [past g a|f bs tasks done_ past g a g0 es r Hp Hf _ IH|f bs tasks done_ past g a g0 e Hp Hf
    |bs t1 t t2 done_ past g a g0 o r Hp Hc _ IH|bs t1 t t2 done_ past g a g0 e Hp Hc|bs tasks d1 o d2 past g a g' b r Ht _ IH|bs tasks d1 o d2 past g a g' e Ht]; intros W.
  - apply par_end.
  - eapply par_gen; [exact Hp|exact Hf|apply IH; exact W].
  - eapply par_gen_error; [exact Hp|exact Hf].
  - eapply par_work; [exact Hp|exact Hc|apply IH; exact W].
  - eapply par_work_error; [exact Hp|exact Hc].
  - assert (W1 := take_wf H (single_results o) g W). rewrite Ht in W1. cbn in W1. rewrite (told_take _ g W) in Ht.
    eapply par_take; [exact Ht|apply IH; exact W1].
  - rewrite (told_take _ g W) in Ht. eapply par_take_error; exact Ht.
Qed.
Lemma told_step P s g : s_parallel s = false -> WF g -> execute_step P H s false g = execute_step P H0 s false g.
Proof.
  intros Hs W. unfold execute_step. rewrite Hs. destruct (s_chunked s); [apply (told_blocks s _ g W)|].
  unfold bind, gget, liftr. destruct (gen_run (s_gen s g) g) as [es|x]; [|reflexivity]. unfold ret.
  destruct (s_sync s); [apply (told_sync s es g W)|]. destruct (collect s g es []) as [rs|x]; [|reflexivity]. apply (told_take rs g W).
Qed.
(* a sequential step keeps well-formedness whatever the runner *)
Lemma seq_wf K P s g : s_parallel s = false -> WF g -> WF (fst (execute_step P K s false g)).
Proof.
  intros Hs W. apply (keeps_step WF anyE anyQ K (any_hooks _ _) false (fun _ i _ => keeps_act_wf i) anyA P s); [congruence|apply any_step|exact W].
Qed.
Lemma told_inner P l : (forall s, In s l -> s_parallel s = false) -> forall g, WF g ->
  run_inner P H false l g = run_inner P H0 false l g /\ WF (fst (run_inner P H0 false l g)).
Proof.
  induction l as [|s l IH]; intros Hs g W; [split; [reflexivity|exact W]|]. cbn [run_inner]. unfold bind.
  assert (S := Hs s (or_introl eq_refl)). rewrite (told_step P s g S W). assert (W1 := seq_wf H0 P s g S W).
  destruct (execute_step P H0 s false g) as [g1 [a|x]]; [|split; [reflexivity|exact W1]]. cbn [fst] in W1.
  destruct (IH (fun s' Hs' => Hs s' (or_intror Hs')) g1 W1) as [E W2]. rewrite E. split; [reflexivity|].
  destruct (run_inner P H0 false l g1) as [g2 [b|x]]; exact W2.
Qed.
Lemma told_loop P exit l : (forall s, In s l -> s_parallel s = false) -> forall fuel n last g, WF g ->
  run_loop fuel P H exit l n last g = run_loop fuel P H0 exit l n last g /\ WF (fst (run_loop fuel P H0 exit l n last g)).
Proof.
  intros Hs; induction fuel as [|f IH]; intros n last g W; cbn [run_loop]; [split; [reflexivity|exact W]|]. unfold bind, liftr.
  destruct (exit n last) as [stop|x]; [|split; [reflexivity|exact W]]. unfold ret. destruct stop; [split; [reflexivity|exact W]|].
  destruct (told_inner P l Hs g W) as [E W1]. rewrite E. destruct (run_inner P H0 false l g) as [g1 [a|x]]; [|split; [reflexivity|exact W1]].
  cbn [fst] in W1. destruct (IH (S n) (Some (snd a)) g1 W1) as [E2 W2]. rewrite E2. split; [reflexivity|].
  destruct (run_loop f P H0 exit l (S n) (Some (snd a)) g1) as [g2 [b|x]]; exact W2.
Qed.
Lemma told_pstep fuel P p g : not_together p -> sequential p -> WF g ->
  run_pstep fuel P H p g = run_pstep fuel P H0 p g /\ WF (fst (run_pstep fuel P H0 p g)).
Proof.
  intros N S W. destruct p as [s|name exit l|name l]; [| |destruct N]; cbn [run_pstep]; unfold bind.
  - assert (Hs := S s (or_introl eq_refl)). rewrite (told_step P s g Hs W). assert (W1 := seq_wf H0 P s g Hs W).
    destruct (execute_step P H0 s false g) as [g1 [a|x]]; [|split; [reflexivity|exact W1]]. split; [reflexivity|]. cbn [fst] in W1.
    unfold log_step. apply (keeps_purge_wf (with_ahist g1 (ahist g1 ++ [HStep (s_name s) (fst a) (snd a) []]))). apply WF_ahist; exact W1.
  - destruct (told_loop P exit l S fuel 0 None g W) as [E W1]. rewrite E. split; [reflexivity|].
    destruct (run_loop fuel P H0 exit l 0 None g) as [g1 [a|x]]; [|exact W1]. unfold log_step. cbn [fst] in *. apply WF_ahist; exact W1.
Qed.
Lemma told_pipeline fuel P l : Forall not_together l -> Forall sequential l -> forall g, WF g ->
  execute_pipeline fuel P H l g = execute_pipeline fuel P H0 l g.
Proof.
  induction l as [|p l IH]; intros N S g W; [reflexivity|]. inversion N as [|? ? Np Nl]; subst. inversion S as [|? ? Sp Sl]; subst.
  cbn [execute_pipeline]. unfold bind. destruct (told_pstep fuel P p g Np Sp W) as [E W1]. rewrite E.
  destruct (run_pstep fuel P H0 p g) as [g1 [a|x]]; [|reflexivity]. apply (IH Nl Sl g1 W1).
Qed.
End Told.
