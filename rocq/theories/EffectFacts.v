(* What the effect estimation step writes into the graph. *)
From Verif Require Import Base PyDict PyDictFacts Graph GraphSpec GraphFacts GraphInv GraphQ Actions ActionSpec ActionFacts ActionMain Generators GenSpec GenFacts
  Rules RuleFacts IndepTests Pipeline PipeSpec PipeFacts PipeMain PipeMain2 Parallel Construct ConstructFacts Serve PathSpec Dag SkelSpec OrientSpec LoopFacts OrientTop EffectSpec.
Open Scope string_scope.
Open Scope list_scope.
Open Scope nat_scope.

(* a list of updates that agree on the data for each direction *)
Section Updates.
Variable g0 : graph.
Variable F : id -> id -> meta.
Definition update_item (i : tresult) : Prop :=
  t_act i = UPDATE_EDGE_DIRECTED /\ directed_edge_exists g0 (t_u i) (t_v i) = true /\ t_data i = Some (F (t_u i) (t_v i)).
Definition updated (S : list (id * id)) (g : graph) : Prop := WF g /\ nodes g = nodes g0 /\
  forall a b, entry g a b = if mem (a, b) S then option_map (set_meta (Some (F a b))) (entry g0 a b) else entry g0 a b.
Lemma updated_live S g a b : WF g0 -> updated S g -> directed_edge_exists g a b = directed_edge_exists g0 a b.
Proof.
  intros W0 (W & _ & H). rewrite (dee_val g a b W), (dee_val g0 a b W0), <- !entry_eget, H. destruct (mem (a, b) S); [|reflexivity]. destruct (entry g0 a b); reflexivity.
Qed.
Lemma update_one S g i : WF g0 -> updated S g -> update_item i -> exists g', apply_action i g = (g', Ok true) /\ updated ((t_u i, t_v i) :: S) g'.
Proof.
  intros W0 U (A & L & Dt). destruct U as (W & Nn & H). destruct (apply_action i g) as [g' r] eqn:R. destruct (apply_action_spec g i g' r W R) as (W' & _ & Nn' & Sp).
  assert (L' : directed_edge_exists g (t_u i) (t_v i) = true) by (rewrite (updated_live S g _ _ W0 (conj W (conj Nn H))); exact L).
  unfold action_guard, action_ready, action_effect in Sp. rewrite A, L' in Sp. destruct r as [[]|e]; [|destruct Sp; discriminate|destruct Sp as (_ & X & _); destruct X; exact I].
  destruct Sp as (_ & _ & ((_ & OC) & Eu) & _). exists g'. split; [reflexivity|]. split; [exact W'|]. split; [congruence|].
  intros a b. cbn [mem existsb]. change (existsb (eqb (a, b)) S) with (mem (a, b) S). destruct (eqb_spec (a, b) (t_u i, t_v i)) as [X|X].
  - injection X as -> ->. cbn [orb]. rewrite Eu, H. unfold new_data. rewrite Dt. destruct (mem _ S); [|reflexivity]. destruct (entry g0 (t_u i) (t_v i)) as [e|]; [|reflexivity]. reflexivity.
  - cbn [orb]. rewrite OC, H; [reflexivity|]. intros [Y|[]]; congruence.
Qed.
Lemma update_all l : forall S g, WF g0 -> updated S g -> Forall update_item l -> exists g' t, take_items false l g = (g', Ok t) /\
  updated (rev (map (fun i => (t_u i, t_v i)) l) ++ S) g'.
Proof.
  induction l as [|i l IH]; intros S g W0 U Fl; [exists g, []; auto|]. inversion Fl as [|? ? Fi Fr]; subst.
  destruct (update_one S g i W0 U Fi) as (g1 & R1 & U1). destruct (IH _ g1 W0 U1 Fr) as (g2 & t & R2 & U2).
  exists g2, (i :: t). split; [cbn [take_items]; unfold bind; rewrite R1, R2; reflexivity|]. cbn [map rev]. rewrite <- app_assoc. exact U2.
Qed.
End Updates.

Section Effect.
Variable N : numerics.
(* the covariates: the other nodes with a live direction into v, in the order of the query *)
Definition covariates (g : graph) (u v : id) : list id :=
  match parents_of_node g v with Ok ps => filter (fun p => negb (eqb p u)) ps | Err _ => [] end.
Definition effect_data (g : graph) (u v : id) : meta :=
  match edge_value g u v, n_effect N (values_of g u) (map (values_of g) (covariates g u v)) (values_of g v) with
  | Ok (Some m), Ok c => dset m "direct_effect" (MNum c)
  | _, _ => []
  end.
Lemma effect_call g u v us o : effect_process N g [u; v] us = Ok o -> directed_edge_exists g u v = true -> WF g ->
  (undirected_edge_exists g u v = true /\ o = None) \/
  (undirected_edge_exists g u v = false /\ o = Some [mkT u v UPDATE_EDGE_DIRECTED (Some (effect_data g u v))] /\
   exists m c, edge_value g u v = Ok (Some m) /\ n_effect N (values_of g u) (map (values_of g) (covariates g u v)) (values_of g v) = Ok c).
Proof.
  unfold effect_process, effect_data, covariates. intros E L W. destruct (live_entry _ _ _ W L) as (e & Ge & _ & Hu & Hv & _).
  unfold node_at in E. cbn [nth_error] in E. rewrite Hu, Hv in E. cbn [rbind] in E.
  apply rbind_ok in E. destruct E as (ev & E1 & E). destruct (undirected_edge_exists g u v) eqn:U; [left; injection E as <-; auto|right].
  apply rbind_ok in E. destruct E as (ps & E2 & E). apply rbind_ok in E. destruct E as (c & E3 & E). rewrite E1, E2, E3. destruct ev as [m|]; [|discriminate].
  injection E as <-. split; [reflexivity|]. split; [reflexivity|]. exists m, c. auto.
Qed.

Lemma effect_run P g g' r : WF g -> execute_step P no_hooks (effect_step N) false g = (g', r) ->
  match r with
  | Err _ => g' = g
  | Ok _ => WF g' /\ nodes g' = nodes g /\
     (forall u v, entry g' u v = if only_directed_edge_exists g u v then option_map (set_meta (Some (effect_data g u v))) (entry g u v) else entry g u v) /\
     (forall u v, only_directed_edge_exists g u v = true ->
        exists m c, edge_value g u v = Ok (Some m) /\ n_effect N (values_of g u) (map (values_of g) (covariates g u v)) (values_of g v) = Ok c)
  end.
Proof.
  intros W E. assert (Gen : gen_run (s_gen (effect_step N) g) g = Ok (map One (live_pairs g))) by (cbn; rewrite app_nil_r; reflexivity).
  rewrite (plain_unfold false (effect_step N) ltac:(repeat split) P g _ Gen) in E. rewrite collect_from in E by reflexivity. unfold bind in E.
  destruct (rmap (fun ns => call (effect_step N) g ns None) (live_pairs g)) as [os|e] eqn:M; cbn [rbind liftr] in E; unfold ret, raise in E; [|injection E as <- <-; reflexivity].
  cbn [app] in E. destruct (rmap_each _ _ _ M) as [M1 M2].
  assert (Fo : Forall (update_item g (effect_data g)) (flat_map items_of os)).
  { apply Forall_forall. intros i Hi. apply in_flat_map in Hi. destruct Hi as (o & Ho & Hi). destruct (M2 o Ho) as (ns & Hns & Co).
    destruct (live_pairs_two _ _ Hns) as (u & v & ->). apply live_pairs_In in Hns. change (directed_edge_exists g u v = true) in Hns.
    destruct (effect_call g u v None o Co Hns W) as [[_ ->]|(_ & -> & _)]; [destruct Hi|]. destruct Hi as [<-|[]]. split; [reflexivity|]. split; [exact Hns|reflexivity]. }
  destruct (take_action_flat os false g g' r E) as (r' & T & Rr).
  destruct (update_all g (effect_data g) (flat_map items_of os) [] g W) as (g2 & t & T2 & U); [split; [exact W|split; [reflexivity|reflexivity]]|exact Fo|]. rewrite T in T2. injection T2 as -> ->.
  destruct r as [a|e]; [|contradiction]. destruct U as (W2 & N2 & H2). split; [exact W2|]. split; [exact N2|].
  assert (K : forall u v, only_directed_edge_exists g u v = true -> In (mkT u v UPDATE_EDGE_DIRECTED (Some (effect_data g u v))) (flat_map items_of os) /\
     exists m c, edge_value g u v = Ok (Some m) /\ n_effect N (values_of g u) (map (values_of g) (covariates g u v)) (values_of g v) = Ok c).
  { intros u v O. unfold only_directed_edge_exists in O. apply andb_true_iff in O. destruct O as [L O]. apply negb_true_iff in O.
    destruct (M1 [u; v]) as (o & Co & Ho); [apply live_pairs_In; exact L|]. destruct (effect_call g u v None o Co L W) as [[U _]|(_ & -> & X)].
    - unfold undirected_edge_exists in U. rewrite O, andb_false_r in U. discriminate.
    - split; [|exact X]. apply in_flat_map. eexists. split; [exact Ho|]. left. reflexivity. }
  split; [|intros u v O; exact (proj2 (K u v O))]. intros u v. rewrite H2, app_nil_r.
  assert (X : mem (u, v) (rev (map (fun i => (t_u i, t_v i)) (flat_map items_of os))) = only_directed_edge_exists g u v).
  { apply eq_true_iff_eq. rewrite mem_In, <- in_rev, in_map_iff. split.
    - intros (i & Eq & Hi). apply in_flat_map in Hi. destruct Hi as (o & Ho & Hi). destruct (M2 o Ho) as (ns & Hns & Co).
      destruct (live_pairs_two _ _ Hns) as (a' & b' & ->). apply live_pairs_In in Hns. change (directed_edge_exists g a' b' = true) in Hns.
      destruct (effect_call g a' b' None o Co Hns W) as [[_ ->]|(U & -> & _)]; [destruct Hi|]. destruct Hi as [<-|[]]. cbn in Eq. injection Eq as -> ->.
      unfold only_directed_edge_exists, undirected_edge_exists in *. rewrite Hns in U |- *. cbn in U |- *. rewrite U. reflexivity.
    - intros O. destruct (K u v O) as [Hi _]. eexists. split; [|exact Hi]. reflexivity. }
  rewrite X. reflexivity.
Qed.
End Effect.
Lemma effects_main : forall N P g g' r, WF g -> execute_step P no_hooks (effect_step N) false g = (g', r) ->
  nodes g' = nodes g /\
  (forall a b, directed_edge_exists g' a b = directed_edge_exists g a b) /\
  match r with
  | Ok _ => (forall u v, one_way g u v -> effect_of N g g' u v) /\
            (forall u v, two_way g u v -> edge_value g' u v = edge_value g u v)
  | Err _ => True
  end.
Proof.
  intros N P g g' r W E. assert (X := effect_run N P g g' r W E). destruct r as [a|e]; [|subst g'; auto].
  destruct X as (W' & Nn & En & Nu). assert (L : forall a b, directed_edge_exists g' a b = directed_edge_exists g a b).
  { intros x y. rewrite (dee_val g' x y W'), (dee_val g x y W), <- !entry_eget, En. destruct (only_directed_edge_exists g x y); [|reflexivity]. destruct (entry g x y); reflexivity. }
  assert (Ee : forall a b, edge_exists g' a b = edge_exists g a b) by (intros x y; rewrite !edge_exists_or, !L; reflexivity).
  split; [exact Nn|]. split; [exact L|]. split.
  - intros u v O. destruct (Nu u v O) as (m & c & Ev & Nc). exists (covariates g u v), m, c.
    assert (Lv : directed_edge_exists g u v = true) by (unfold one_way, only_directed_edge_exists in O; apply andb_true_iff in O; tauto).
    unfold covariates at 1 2. destruct (parents_of_node g v) as [ps|e] eqn:Ps.
    + destruct (parents_spec _ _ _ W Ps) as [Nd In_]. split; [apply NoDup_filter; exact Nd|]. split.
      { intros p. rewrite filter_In, In_, negb_true_iff. destruct (eqb_spec p u); split; intros [? ?]; try congruence; auto. }
      split; [exact Ev|]. split; [exact Nc|]. specialize (En u v). unfold one_way in O. rewrite O in En.
      unfold edge_value in Ev |- *. rewrite Ee. destruct (edge_exists g u v); cbn [negb] in *; [|discriminate]. rewrite !entry_eget in En. unfold eget in En. rewrite En.
      destruct (dget2 (edges g) u v) as [e|] eqn:Ge; [|discriminate]. cbn. unfold effect_data, edge_value. rewrite Nc.
      assert (Y : edge_exists g u v = true) by (rewrite edge_exists_or, Lv; reflexivity). rewrite Y. cbn [negb]. rewrite Ge. injection Ev as Ev. rewrite Ev. reflexivity.
    + destruct (parents_err _ _ _ W Ps) as [_ Z]. specialize (Z u). rewrite edge_exists_or, Lv in Z. discriminate.
  - intros u v T. unfold edge_value. rewrite Ee. specialize (En u v).
    assert (O : only_directed_edge_exists g u v = false). { unfold two_way, undirected_edge_exists in T. apply andb_true_iff in T. destruct T as [T1 T2]. unfold only_directed_edge_exists. rewrite T1, T2. reflexivity. }
    rewrite O in En. rewrite !entry_eget in En. unfold eget in En. rewrite En. reflexivity.
Qed.

(* the last step of a run *)
Lemma effect_last fuel P l N g0 g : WF g0 -> Forall (fun p => Forall (par_ok P) (steps_of p)) l ->
  execute_pipeline fuel P no_hooks (l ++ [PStep (effect_step N)]) g0 = (g, Ok tt) ->
  exists g1 g2, execute_pipeline fuel P no_hooks l g0 = (g1, Ok tt) /\ WF g1 /\ WF g2 /\ nodes g = nodes g1 /\
    (forall a b, directed_edge_exists g a b = directed_edge_exists g1 a b) /\
    (forall u v, one_way g1 u v -> effect_of N g1 g2 u v) /\
    (forall u v, directed_edge_exists g u v = true -> edge_value g u v = edge_value g2 u v).
Proof.
  intros W F E. rewrite pipeline_app in E.
  assert (K : keeps WF anyE (execute_pipeline fuel P no_hooks l) (fun _ _ => True)).
  { apply keeps_pipeline. eapply Forall_impl; [|exact F]. intros p Hp; apply pstep_wf_par; exact Hp. }
  destruct (K g0 W) as [W1 _]. destruct (execute_pipeline fuel P no_hooks l g0) as [g1 [[]|e]]; [|discriminate]. cbn [fst] in W1.
  cbn [execute_pipeline run_pstep] in E. unfold bind, log_step in E.
  destruct (execute_step P no_hooks (effect_step N) false g1) as [g2 [a|e]] eqn:Es; [|discriminate].
  assert (X := effect_run N P g1 g2 (Ok a) W1 Es). destruct X as (W2 & _). destruct (effects_main N P g1 g2 (Ok a) W1 Es) as (Nn & L & Ef & _).
  assert (W3 := WF_ahist g2 (ahist g2 ++ [HStep (s_name (effect_step N)) (fst a) (snd a) []]) W2).
  destruct (after_purge _ W3) as [[A1 A2 A3 A4 _] Ok1].
  destruct (purge_soft_deleted_edges _) as [g3 r3]. cbn [fst snd] in *. subst r3. injection E as <-.
  assert (L3 : forall x y, directed_edge_exists g3 x y = directed_edge_exists g2 x y) by (intros x y; apply eq_true_iff_eq; rewrite A3; unfold directed_edge_exists; cbn; tauto).
  exists g1, g2. split; [reflexivity|]. split; [exact W1|]. split; [exact W2|]. split; [rewrite A2; exact Nn|]. split; [intros x y; rewrite L3; apply L|]. split; [exact Ef|].
  intros u v Lv. specialize (A4 u v Lv). assert (Lv2 := Lv). rewrite L3 in Lv2. unfold edge_value. rewrite !edge_exists_or, Lv, Lv2. cbn [orb negb].
  unfold eget in A4. cbn in A4. destruct (dget2 (edges g3) u v) as [x|], (dget2 (edges g2) u v) as [y|]; cbn in A4; congruence.
Qed.
Lemma dget_dset_same (m : meta) k x : dget (dset m k x) k = Some x.
Proof. rewrite dget_dset. destruct (eqb_spec k k); congruence. Qed.
Lemma effect_pipeline fuel P l g0 D N g : perfect_run fuel P l g0 D N -> execute_pipeline fuel P no_hooks l g0 = (g, Ok tt) ->
  forall u v, one_way g u v -> exists ps c, NoDup ps /\ (forall p, In p ps <-> p <> u /\ (edge_in D p v \/ two_way g p v)) /\
    n_effect N (values_of g0 u) (map (values_of g0) ps) (values_of g0 v) = Ok c /\ stored_effect g u v c.
Proof.
  intros PR E. destruct (exact_pattern fuel P l g0 D N g (Ok tt) PR E) as (Nn & M & _). assert (Ac := do_acyclic _ _ (pr_dag _ _ _ _ _ _ PR)).
  destruct PR as [[d S0] DG _ [so [SO A]] _].
  assert (W := reached_WF _ (start_reached _ _ S0)).
  assert (X : exists l', l = l' ++ [PStep (effect_step N)] /\ Forall (fun p => Forall (par_ok P) (steps_of p)) l').
  { destruct A as [| |sh sh' coin H1 H2 H3 H4].
    - eexists. split; [unfold pc; rewrite app_assoc; reflexivity|]. repeat constructor; intros X; discriminate X.
    - eexists. split; [unfold pc_classic; rewrite app_assoc; reflexivity|]. repeat constructor; intros X; discriminate X.
    - eexists. split; [unfold pc_parallel; rewrite app_assoc; reflexivity|]. repeat constructor; intros X; exact H3. }
  destruct X as (l' & -> & F). destruct (effect_last fuel P l' N g0 g W F E) as (g1 & g2 & _ & W1 & W2 & N1 & L & Ef & Ev).
  intros u v O. assert (O1 : one_way g1 u v) by (unfold one_way, only_directed_edge_exists in *; rewrite <- !L; exact O).
  destruct (Ef u v O1) as (ps & m & c & ND & In_ & E1 & E2 & E3). exists ps, c. split; [exact ND|].
  assert (V : forall x, values_of g1 x = values_of g0 x) by (intros x; unfold values_of; rewrite <- N1, Nn; reflexivity).
  split.
  { intros p. rewrite In_, <- L. split; intros [Ne H]; (split; [exact Ne|]).
    - destruct (directed_edge_exists g v p) eqn:B; [right; unfold two_way, undirected_edge_exists; rewrite H, B; reflexivity|].
      left. apply (mp_one_E D Ac g M). unfold one_way, only_directed_edge_exists. rewrite H, B. reflexivity.
    - destruct H as [H|H]; [|unfold two_way, undirected_edge_exists in H; apply andb_true_iff in H; tauto].
      destruct (directed_edge_exists g p v) eqn:B; [reflexivity|]. exfalso.
      assert (Ad : edge_exists g p v = true) by (apply (mp_ee D Ac g M); left; exact H). rewrite edge_exists_or, B in Ad. cbn in Ad.
      assert (Ow : one_way g v p) by (unfold one_way, only_directed_edge_exists; rewrite Ad, B; reflexivity).
      apply (mp_one_E D Ac g M) in Ow. apply (Ac p). exists v. split; [exact H|]. eapply reach_step; [exact Ow|]. apply reach_refl. }
  assert (EQ : map (values_of g0) ps = map (values_of g1) ps) by (apply map_ext; intros x; rewrite V; reflexivity).
  rewrite EQ, <- !V. split; [exact E2|]. exists (dset m "direct_effect" (MNum c)). split; [|apply dget_dset_same].
  rewrite Ev; [exact E3|]. unfold one_way, only_directed_edge_exists in O. apply andb_true_iff in O. tauto.
Qed.
