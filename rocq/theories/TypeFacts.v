(* Lemmas on the types of edges during pipeline runs. *)
From Verif Require Import Base PyDict Graph GraphSpec GraphFacts GraphInv GraphInv2 GraphInv3 GraphQ Actions ActionSpec ActionFacts ActionMain Generators Rules IndepTests
  Pipeline Parallel PipeSpec PipeFacts PipeMain RuleFacts PipeMain2 OrientSpec TypeSpec Construct ConstructSpec ConstructFacts SkelStart.

Definition typed (g : graph) : Prop := forall u v e, eget g u v = Some e -> e_del e = false ->
  e_type e = if directed_edge_exists g v u then TUndirected else TDirected.

Lemma eot_val g u v t : WF g -> edge_of_type_exists g u v t =
  match eget g u v with Some e => negb (e_del e) && etype_eqb (e_type e) t | None => false end.
Proof.
  intros W; unfold edge_of_type_exists; rewrite (dee_val g u v W).
  change (dget2 (edges g) u v) with (eget g u v). destruct (eget g u v) as [e|]; [|reflexivity].
  destruct (e_del e); cbn [negb andb]; [reflexivity|]. destruct (etype_eqb (e_type e) t); reflexivity.
Qed.

Lemma types_typed g : WF g -> types_match g -> typed g.
Proof.
  intros W T u v e E D. destruct (T u v) as [T1 T2].
  rewrite (eot_val g u v TDirected W), E, D in T1. rewrite (eot_val g u v TUndirected W), E, D in T2.
  unfold one_way, only_directed_edge_exists in T1; unfold two_way, undirected_edge_exists in T2.
  assert (L : directed_edge_exists g u v = true) by (rewrite (dee_val g u v W), E, D; reflexivity).
  rewrite L in T1, T2. destruct (directed_edge_exists g v u); cbn in T1, T2.
  - destruct T2 as [_ T2]; specialize (T2 eq_refl). destruct (e_type e); cbn in T2; try discriminate; reflexivity.
  - destruct T1 as [_ T1]; specialize (T1 eq_refl). destruct (e_type e); cbn in T1; try discriminate; reflexivity.
Qed.
Lemma typed_types g : WF g -> typed g -> types_match g.
Proof.
  intros W T u v. rewrite !(eot_val g u v _ W). unfold one_way, only_directed_edge_exists, two_way, undirected_edge_exists.
  assert (L := dee_val g u v W). destruct (eget g u v) as [e|] eqn:E; rewrite L.
  - destruct (e_del e) eqn:D; cbn [negb andb]; [split; split; discriminate|].
    rewrite (T u v e E D). destruct (directed_edge_exists g v u); cbn; split; split; congruence.
  - cbn; split; split; discriminate.
Qed.

Lemma typed_same g g' : WF g -> WF g' ->
  (forall a b e', eget g' a b = Some e' -> exists e, eget g a b = Some e /\ e_type e' = e_type e /\ e_del e' = e_del e) ->
  (forall a b, directed_edge_exists g' a b = directed_edge_exists g a b) -> typed g -> typed g'.
Proof.
  intros W W' H D T u v e' E L. destruct (H u v e' E) as (e & E0 & Ty & De). rewrite Ty, D. apply T; congruence.
Qed.

(* what is at a pair an action does not name is not touched, and neither is its converse *)
Lemma off_pair (u v a b : id) : ~ In (a, b) [(u, v); (v, u)] -> ~ In (b, a) [(u, v); (v, u)].
Proof. intros N [X|[X|[]]]; injection X as -> ->; apply N; [right; left|left]; reflexivity. Qed.

Lemma act_typed g i g' r : WF g -> quiet i -> apply_action i g = (g', r) -> typed g -> typed g'.
Proof.
  intros W Qi E T. destruct (apply_action_spec g i g' r W E) as (W' & _ & N & S).
  destruct r as [[]|x].
  2: { destruct S as [-> _]; exact T. }
  2: { destruct S as (_ & _ & F). rewrite F; [exact T|]. intros X; apply Qi; left; exact X. }
  destruct S as (_ & _ & F & _). unfold action_effect in F. unfold quiet, restores in Qi.
  assert (ND : forall e, e_type (new_data i e) = e_type e /\ e_del (new_data i e) = e_del e)
    by (intros e; unfold new_data; destruct (t_data i); split; reflexivity).
  assert (OFF : only_changes [(t_u i, t_v i); (t_v i, t_u i)] g g' -> forall a b e, ~ In (a, b) [(t_u i, t_v i); (t_v i, t_u i)] ->
            eget g' a b = Some e -> e_del e = false -> e_type e = if directed_edge_exists g' b a then TUndirected else TDirected).
  { intros C a b e NI Ee De. rewrite (only_changes_dee _ g g' b a W W' C (off_pair _ _ _ _ NI)).
    apply T; [|exact De]. rewrite <- entry_eget, <- (proj2 C a b NI), entry_eget; exact Ee. }
  destruct (t_act i).
  - destruct F as (C & F1 & F2). apply (typed_same g g' W W'); [| |exact T].
    + intros a b e' Ee. rewrite <- entry_eget in Ee.
      destruct (pair_in_dec (a, b) [(t_u i, t_v i); (t_v i, t_u i)]) as [[X|[X|[]]]|NI].
      * injection X as <- <-. rewrite F1, entry_eget in Ee. destruct (eget g (t_u i) (t_v i)) as [e|]; [|discriminate].
        injection Ee as <-. exists e; split; [reflexivity|apply ND].
      * injection X as <- <-. rewrite F2, entry_eget in Ee. destruct (eget g (t_v i) (t_u i)) as [e|]; [|discriminate].
        injection Ee as <-. exists e; split; [reflexivity|apply ND].
      * rewrite (proj2 C a b NI), entry_eget in Ee. exists e'; auto.
    + intros a b. rewrite !dee_val by assumption. rewrite <- !entry_eget.
      destruct (pair_in_dec (a, b) [(t_u i, t_v i); (t_v i, t_u i)]) as [[X|[X|[]]]|NI].
      * injection X as <- <-. rewrite F1. destruct (entry g (t_u i) (t_v i)) as [e|]; [|reflexivity]. cbn. rewrite (proj2 (ND e)); reflexivity.
      * injection X as <- <-. rewrite F2. destruct (entry g (t_v i) (t_u i)) as [e|]; [|reflexivity]. cbn. rewrite (proj2 (ND e)); reflexivity.
      * rewrite (proj2 C a b NI); reflexivity.
  - destruct F as (C & F1). apply (typed_same g g' W W'); [| |exact T].
    + intros a b e' Ee. rewrite <- entry_eget in Ee.
      destruct (pair_in_dec (a, b) [(t_u i, t_v i)]) as [[X|[]]|NI].
      * injection X as <- <-. rewrite F1, entry_eget in Ee. destruct (eget g (t_u i) (t_v i)) as [e|]; [|discriminate].
        injection Ee as <-. exists e; split; [reflexivity|apply ND].
      * rewrite (proj2 C a b NI), entry_eget in Ee. exists e'; auto.
    + intros a b. rewrite !dee_val by assumption. rewrite <- !entry_eget.
      destruct (pair_in_dec (a, b) [(t_u i, t_v i)]) as [[X|[]]|NI].
      * injection X as <- <-. rewrite F1. destruct (entry g (t_u i) (t_v i)) as [e|]; [|reflexivity]. cbn. rewrite (proj2 (ND e)); reflexivity.
      * rewrite (proj2 C a b NI); reflexivity.
  - contradiction.
  - contradiction.
  - destruct F as (C & F1 & F2). intros a b e Ee De.
    destruct (pair_in_dec (a, b) [(t_u i, t_v i); (t_v i, t_u i)]) as [[X|[X|[]]]|NI]; [| |exact (OFF C a b e NI Ee De)].
    + injection X as <- <-. rewrite <- entry_eget, F1 in Ee. destruct (entry g (t_u i) (t_v i)); [|discriminate]. injection Ee as <-. discriminate.
    + injection X as <- <-. rewrite <- entry_eget, F2 in Ee. destruct (entry g (t_v i) (t_u i)); [|discriminate]. injection Ee as <-. discriminate.
  - destruct F as (C & F1 & F2). intros a b e Ee De.
    destruct (pair_in_dec (a, b) [(t_u i, t_v i); (t_v i, t_u i)]) as [[X|[X|[]]]|NI]; [| |exact (OFF C a b e NI Ee De)].
    + injection X as <- <-. rewrite <- entry_eget, F1 in Ee. destruct (entry g (t_u i) (t_v i)); [|discriminate]. injection Ee as <-. discriminate.
    + injection X as <- <-. rewrite <- entry_eget, F2, (dee_val g _ _ W), <- entry_eget in Ee.
      destruct (entry g (t_v i) (t_u i)) as [e0|]; [|discriminate].
      destruct (e_del e0) eqn:D0; cbn in Ee; [injection Ee as <-; congruence|]. injection Ee as <-.
      rewrite (dee_val g' _ _ W'), <- entry_eget, F1. destruct (entry g (t_u i) (t_v i)); reflexivity.
  - exfalso; apply Qi; left; reflexivity.
  - exfalso; apply Qi; right; reflexivity.
  - contradiction.
Qed.

(* ---- runs ---- *)
Definition tinv (g : graph) : Prop := WF g /\ typed g.

Lemma act_tinv i : quiet i -> keeps tinv anyE (apply_action i) (fun _ _ => True).
Proof.
  intros Qi g [W B]. destruct (apply_action i g) as [g' r] eqn:E. destruct (apply_action_spec g i g' r W E) as (W' & _).
  split; [split; [exact W'|]|cbn; destruct r; exact I]. cbn. exact (act_typed g i g' r W Qi E B).
Qed.
Lemma purge_tinv : keeps tinv anyE purge_soft_deleted_edges (fun _ _ => True).
Proof.
  intros g [W B]. destruct (purge_ok g W) as (g' & R & W' & _ & _ & _ & _ & G & _). rewrite R. cbn. split; [|exact I]. split; [exact W'|].
  intros u v e Ee De. rewrite (purge_dee g g' W R). apply B; [|exact De]. rewrite G in Ee.
  destruct (eget g u v) as [x|]; [|discriminate]. destruct (e_del x); [discriminate|exact Ee].
Qed.
Lemma log_tinv g h : tinv g -> tinv (with_ahist g h).
Proof. intros [W B]; split; [apply WF_ahist; exact W|exact B]. Qed.
Lemma tinv_step P s dry : (s_parallel s = true -> pool_runner no_hooks P) -> never_restores s -> step_keeps tinv anyE P no_hooks quiet dry s.
Proof.
  intros HP NR. apply (keeps_step tinv anyE quiet no_hooks (no_hooks_good _ _ _) dry (fun _ => act_tinv) anyA P s HP (quiet_step _ s NR)).
Qed.
Lemma types_run fuel P l g g' r : WF g ->
  (forall p s, In p l -> In s (steps_of p) -> s_parallel s = true -> pool_runner no_hooks P) ->
  (forall p s, In p l -> In s (steps_of p) -> never_restores s) ->
  execute_pipeline fuel P no_hooks l g = (g', r) -> types_match g -> types_match g'.
Proof.
  intros W HP NR E T. assert (K : keeps tinv anyE (execute_pipeline fuel P no_hooks l) (fun _ _ => True)).
  { apply keeps_pipeline. apply Forall_forall. intros p Hp. destruct p as [s|name exit l1|name l1].
    - eapply keeps_pstep_plain; [apply log_tinv|apply tinv_step; [apply (HP _ _ Hp)|apply (NR _ _ Hp)]; left; reflexivity|apply purge_tinv].
    - eapply keeps_pstep_loop; [apply log_tinv| |exact I|intros; exact I]. apply Forall_forall. intros s Hs.
      apply tinv_step; [apply (HP _ _ Hp Hs)|apply (NR _ _ Hp Hs)].
    - eapply keeps_pstep_together; [apply log_tinv|apply no_hooks_good|apply act_tinv|]. apply Forall_forall. intros s Hs.
      apply tinv_step; [apply (HP _ _ Hp Hs)|apply (NR _ _ Hp Hs)]. }
  destruct (K g (conj W (types_typed g W T))) as [[W' B] _]. rewrite E in W', B. apply typed_types; assumption.
Qed.
Lemma types_shipped fuel P l g g' r : reached g ->
  (forall p s, In p l -> In s (steps_of p) -> s_parallel s = true -> pool_runner no_hooks P) -> shipped_pipeline false l ->
  execute_pipeline fuel P no_hooks l g = (g', r) -> types_match g -> types_match g'.
Proof.
  intros R HP S. apply types_run; [apply reached_WF; exact R|exact HP|]. intros p s Hp Hs g1 ns us o i E Hi.
  destruct (S p s Hp Hs) as [S1|[X _]]; [eapply shipped_false; eassumption|discriminate].
Qed.
Lemma types_start d g : start_graph d = Ok g -> types_match g.
Proof.
  intros E. destruct (complete_start d g E) as [W G _ _]. apply typed_types; [exact W|]. intros u v e Ee De.
  assert (L : directed_edge_exists g u v = true) by (rewrite (dee_val g u v W), Ee, De; reflexivity).
  destruct (wf_fwd _ W _ _ _ Ee) as (Mu & Mv & Nuv & _).
  rewrite (G u v Mu Mv Nuv) in Ee. injection Ee as <-.
  rewrite (dee_val g v u W), (G v u Mv Mu (not_eq_sym Nuv)). reflexivity.
Qed.
