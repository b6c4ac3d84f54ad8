(* The invariant of the skeleton phase under perfect tests. *)
From Verif Require Import Base PyDict PyDictFacts Graph GraphSpec GraphFacts GraphInv GraphInv2 GraphInv3 GraphQ GraphMain
  GraphPaths PathSpec Actions ActionSpec ActionFacts ActionMain Generators GenSpec GenFacts Rules IndepTests Pipeline Parallel PipeFacts RuleFacts
  Dag DagFacts DagSep SkelSpec Rows Serve.
Open Scope string_scope.
Open Scope list_scope.

Definition removals (l : list tresult) : list tresult := filter (fun i => taction_eqb (t_act i) REMOVE_EDGE_UNDIRECTED) l.
Definition noE (e : exn) : Prop := False.

Lemma logged_removals ps i g g' p : logged ps i g g' ->
  removals (history g' p) = removals (history g p) ++ (if mem p ps then removals [i] else []).
Proof. intros L. unfold removals. rewrite (L p), filter_app. destruct (mem p ps); reflexivity. Qed.

Section Skel.
Variable g0 : graph.
Variable D : list (id * id).
Variable c : id -> id -> Z.
Hypothesis Csym : forall x y, c x y = c y x.
Definition node (x : id) : Prop := dmem (nodes g0) x = true.
Variable sepok : id -> id -> list id -> Prop.
Hypothesis Ssym : forall x y S, sepok x y S -> sepok y x S.
Hypothesis Snadj : forall x y S, sepok x y S -> ~ adjacent (edge_in D) x y.

Record skel (g : graph) : Prop := {
  sk_wf : WF g;
  sk_nodes : nodes g = nodes g0;
  sk_rows : forall u v, node u -> node v -> u <> v -> dmem (edges g) u = true;
  sk_sym : forall u v, directed_edge_exists g u v = true -> directed_edge_exists g v u = true;
  sk_corr : forall u v, directed_edge_exists g u v = true ->
    exists e m, eget g u v = Some e /\ e_meta e = Some m /\ dget m "correlation" = Some (MNum (c u v));
  sk_adj : forall u v, adjacent (edge_in D) u v -> directed_edge_exists g u v = true;
  sk_live : forall u v, directed_edge_exists g u v = true -> removals (history g (u, v)) = [];
  sk_gone : forall u v, node u -> node v -> u <> v -> directed_edge_exists g u v = false ->
    exists a b S, removals (history g (u, v)) = [separated a b S] /\ ((a = u /\ b = v) \/ (a = v /\ b = u)) /\ sepok u v S }.

Definition proposal (i : tresult) : Prop :=
  t_act i = DO_NOTHING \/ exists x y S, i = separated x y S /\ node x /\ node y /\ x <> y /\ sepok x y S.

Lemma skel_sym_eq g u v : skel g -> directed_edge_exists g u v = directed_edge_exists g v u.
Proof.
  intros K. destruct (directed_edge_exists g u v) eqn:A, (directed_edge_exists g v u) eqn:B; try reflexivity.
  - apply (sk_sym _ K) in A; congruence.
  - apply (sk_sym _ K) in B; congruence.
Qed.
Lemma skel_ee g u v : skel g -> edge_exists g u v = directed_edge_exists g u v.
Proof. intros K. rewrite edge_exists_or, (skel_sym_eq g v u K). apply orb_diag. Qed.
Lemma skel_node g x : skel g -> dmem (nodes g) x = true <-> node x.
Proof. intros K; unfold node; rewrite (sk_nodes _ K); reflexivity. Qed.
Lemma skel_dee_nodes g u v : skel g -> directed_edge_exists g u v = true -> node u /\ node v /\ u <> v.
Proof.
  intros K A. destruct (live_entry _ _ _ (sk_wf _ K) A) as (e & _ & _ & Hu & Hv & Hn). apply (skel_node g _ K) in Hu. apply (skel_node g _ K) in Hv. auto.
Qed.

(* what an action of a proposal does *)
Lemma do_nothing_act i g : t_act i = DO_NOTHING -> apply_action i g = (g, Ok false).
Proof. intros A. unfold apply_action, bind, gget. rewrite A. reflexivity. Qed.

Lemma removed_gone g g' u v : WF g' -> entry g' u v = option_map (set_del true) (entry g u v) -> directed_edge_exists g' u v = false.
Proof. intros W E. rewrite (dee_val g' u v W). rewrite <- entry_eget, E. destruct (entry g u v); reflexivity. Qed.

Lemma separated_spec g x y S g' r : skel g -> node x -> node y -> x <> y -> sepok x y S -> apply_action (separated x y S) g = (g', r) ->
  (r = Ok false /\ g' = g /\ directed_edge_exists g x y = false) \/
  (r = Ok true /\ skel g' /\ directed_edge_exists g' x y = false /\
   forall a b, directed_edge_exists g' a b = if eqb (a, b) (x, y) || eqb (a, b) (y, x) then false else directed_edge_exists g a b).
Proof.
  intros K Hx Hy Ne Sp R. destruct (apply_action_spec g _ g' r (sk_wf _ K) R) as (W' & _ & N' & X).
  assert (MR := mono_action (separated x y S) g). rewrite R in MR; cbn [fst] in MR.
  destruct r as [[|]|e].
  - right. destruct X as (G & _ & EF & L). cbn in G. apply andb_true_iff in G. destruct G as [G1 G2]. unfold action_effect in EF; cbn in EF.
    destruct EF as ((_ & OC) & E1 & E2). assert (D1 := removed_gone g g' x y W' E1). assert (D2 := removed_gone g g' y x W' E2).
    assert (DE : forall a b, directed_edge_exists g' a b = if eqb (a, b) (x, y) || eqb (a, b) (y, x) then false else directed_edge_exists g a b).
    { intros a b. destruct (eqb_spec (a, b) (x, y)) as [EQ|NE1]; [injection EQ as -> ->; exact D1|].
      destruct (eqb_spec (a, b) (y, x)) as [EQ|NE2]; [injection EQ as -> ->; exact D2|]. cbn [orb].
      apply dee_eff; [exact (sk_wf _ K)|exact W'|exact N'|]. rewrite <- !entry_eget. apply OC. cbn. intros [E|[E|[]]]; congruence. }
    split; [reflexivity|]. split; [|split; [exact D1|exact DE]]. constructor.
    + exact W'.
    + rewrite N'; exact (sk_nodes _ K).
    + intros u v Hu Hv Huv. apply MR. apply (sk_rows _ K u v Hu Hv Huv).
    + intros u v A. rewrite DE in A |- *. destruct (eqb_spec (u, v) (x, y)) as [EQ|NE1]; [discriminate|]. destruct (eqb_spec (u, v) (y, x)) as [EQ|NE2]; [discriminate|].
      cbn in A. destruct (eqb_spec (v, u) (x, y)) as [EQ|NE3]; [exfalso; apply NE2; congruence|]. destruct (eqb_spec (v, u) (y, x)) as [EQ|NE4]; [exfalso; apply NE1; congruence|].
      cbn. apply (sk_sym _ K); exact A.
    + intros u v A. assert (A' := A). rewrite DE in A. destruct (eqb_spec (u, v) (x, y)) as [EQ|NE1]; [discriminate|]. destruct (eqb_spec (u, v) (y, x)) as [EQ|NE2]; [discriminate|].
      cbn in A. destruct (sk_corr _ K u v A) as (e & m & H1 & H2 & H3). exists e, m. split; [|auto]. rewrite <- entry_eget in H1 |- *. rewrite OC; [exact H1|].
      cbn. intros [E|[E|[]]]; congruence.
    + intros u v A. rewrite DE. rewrite (sk_adj _ K u v A). destruct (eqb_spec (u, v) (x, y)) as [EQ|NE1].
      { injection EQ as -> ->. exfalso; exact (Snadj _ _ _ Sp A). }
      destruct (eqb_spec (u, v) (y, x)) as [EQ|NE2]; [|reflexivity]. injection EQ as -> ->. exfalso. apply adjacent_sym in A. exact (Snadj _ _ _ Sp A).
    + intros u v A. assert (A' := A). rewrite DE in A. destruct (eqb_spec (u, v) (x, y)) as [EQ|NE1]; [discriminate|]. destruct (eqb_spec (u, v) (y, x)) as [EQ|NE2]; [discriminate|].
      cbn in A. rewrite (logged_removals _ _ _ _ (u, v) L), (sk_live _ K u v A). unfold action_pairs, mem; cbn [t_act separated t_u t_v existsb].
      rewrite (eqb_neq _ _ NE1), (eqb_neq _ _ NE2). reflexivity.
    + intros u v Hu Hv Huv A. rewrite (logged_removals _ _ _ _ (u, v) L). unfold action_pairs, mem; cbn [t_act separated t_u t_v existsb].
      rewrite DE in A. destruct (eqb_spec (u, v) (x, y)) as [EQ|NE1].
      { injection EQ as -> ->. rewrite (sk_live _ K x y G1). cbn. exists x, y, S. auto. }
      destruct (eqb_spec (u, v) (y, x)) as [EQ|NE2].
      { injection EQ as -> ->. rewrite (sk_live _ K y x G2). cbn. exists x, y, S. auto. }
      cbn in A |- *. rewrite app_nil_r. apply (sk_gone _ K u v Hu Hv Huv A).
  - left. destruct X as [-> G]. cbn in G. split; [reflexivity|]. split; [reflexivity|].
    rewrite (skel_sym_eq g y x K) in G. rewrite andb_diag in G. exact G.
  - exfalso. destruct X as (_ & NR & _). apply NR. exact Logic.I.
Qed.

Lemma act_skel i : proposal i -> keeps skel noE (apply_action i) (fun _ _ => True).
Proof.
  intros Q g K. destruct Q as [A|(x & y & S & -> & Hx & Hy & Ne & Sp)].
  - rewrite (do_nothing_act i g A). cbn; auto.
  - destruct (apply_action (separated x y S) g) as [g' r] eqn:R.
    destruct (separated_spec g x y S g' r K Hx Hy Ne Sp R) as [(-> & -> & _)|(-> & K' & _)]; cbn; auto.
Qed.

Definition gone (u v : id) (g : graph) : Prop := directed_edge_exists g u v = false.
Lemma act_gone u v i : proposal i -> keeps (InvT skel (gone u v)) noE (apply_action i) (fun _ _ => True).
Proof.
  intros Q g [K G]. destruct Q as [A|(x & y & S & -> & Hx & Hy & Ne & Sp)].
  - rewrite (do_nothing_act i g A). cbn. split; [split; assumption|exact Logic.I].
  - destruct (apply_action (separated x y S) g) as [g' r] eqn:R.
    destruct (separated_spec g x y S g' r K Hx Hy Ne Sp R) as [(-> & -> & _)|(-> & K' & _ & DE)]; cbn; [split; [split; assumption|exact Logic.I]|].
    split; [|exact Logic.I]. split; [exact K'|]. unfold gone in *. rewrite DE, G. destruct (_ || _); reflexivity.
Qed.
(* a proposal that removes the pair *)
Definition removes (u v : id) (i : tresult) : Prop := exists S, i = separated u v S \/ i = separated v u S.
Lemma act_removes u v i g : proposal i -> removes u v i -> skel g -> gone u v (fst (apply_action i g)).
Proof.
  intros Q (S & E) K. destruct (apply_action i g) as [g' r] eqn:R. cbn. unfold gone. destruct Q as [A|(x & y & S' & -> & Hx & Hy & Ne & Sp)].
  - destruct E as [-> | ->]; discriminate.
  - destruct (separated_spec g x y S' g' r K Hx Hy Ne Sp R) as [(-> & -> & G)|(-> & K' & G & DE)].
    + destruct E as [E|E]; injection E as -> -> _; [exact G|rewrite (skel_sym_eq g u v K); exact G].
    + destruct E as [E|E]; injection E as -> -> _; [exact G|rewrite (skel_sym_eq g' u v K'); exact G].
Qed.

Lemma skel_purge : keeps skel noE purge_soft_deleted_edges (fun _ _ => True).
Proof.
  intros g K. destruct (purge_ok g (sk_wf _ K)) as (g' & R & W' & N' & _ & EH & KE & G & _). rewrite R. cbn. split; [|exact Logic.I].
  assert (DE := purge_dee g g' (sk_wf _ K) R).
  assert (HH : forall p, history g' p = history g p) by (intros p; unfold history; rewrite EH; reflexivity).
  constructor; try (intros u v; rewrite ?DE, ?HH).
  - exact W'.
  - rewrite N'; exact (sk_nodes _ K).
  - intros Hu Hv Huv. apply dmem_In. rewrite KE. apply dmem_In. apply (sk_rows _ K u v Hu Hv Huv).
  - apply (sk_sym _ K).
  - intros A. destruct (sk_corr _ K u v A) as (e & m & H1 & H2). exists e, m. split; [|exact H2]. rewrite G, H1.
    destruct (live_entry _ _ _ (sk_wf _ K) A) as (e' & E' & L' & _). rewrite H1 in E'; injection E' as <-. rewrite L'. reflexivity.
  - apply (sk_adj _ K).
  - apply (sk_live _ K).
  - apply (sk_gone _ K).
Qed.
Lemma skel_log g h : skel g -> skel (with_ahist g h).
Proof. intros K; destruct K as [K1 K2 K3 K4 K5 K6 K7 K8]; constructor; auto. apply WF_ahist; exact K1. Qed.
Lemma gone_purge u v g : skel g -> gone u v g -> gone u v (fst (purge_soft_deleted_edges g)).
Proof.
  intros K G. destruct (purge_ok g (sk_wf _ K)) as (g' & R & _). rewrite R. cbn. unfold gone. rewrite (purge_dee g g' (sk_wf _ K) R). exact G.
Qed.

Lemma get_corr_live g x y : skel g -> directed_edge_exists g x y = true -> get_corr g x y = Ok (MNum (c x y)).
Proof.
  intros K A. destruct (sk_corr _ K x y A) as (e & m & H1 & H2 & H3). unfold get_corr, edge_value. rewrite (skel_ee g x y K), A. cbn [negb].
  unfold eget in H1. rewrite H1. cbn [rbind]. rewrite H2, H3. reflexivity.
Qed.
Lemma get_corr_gone g x y : skel g -> directed_edge_exists g x y = false -> get_corr g x y = Err TypeError.
Proof. intros K A. unfold get_corr, edge_value. rewrite (skel_ee g x y K), A. reflexivity. Qed.
Lemma values_same g x : skel g -> values_of g x = values_of g0 x.
Proof. intros K; unfold values_of; rewrite (sk_nodes _ K); reflexivity. Qed.
Lemma node_at_ok g ns i x : skel g -> nth_error ns i = Some x -> node x -> node_at g ns i = Ok x.
Proof. intros K H Hx. unfold node_at. rewrite H. apply (skel_node g x K) in Hx. rewrite Hx. reflexivity. Qed.

End Skel.

Lemma skel_weaken g0 D c (s1 s2 : id -> id -> list id -> Prop) g : (forall x y S, s1 x y S -> s2 x y S) -> skel g0 D c s1 g -> skel g0 D c s2 g.
Proof.
  intros H K; destruct K as [K1 K2 K3 K4 K5 K6 K7 K8]; constructor; auto.
  intros u v Hu Hv N G. destruct (K8 u v Hu Hv N G) as (a & b & S & X & Y & Z). exists a, b, S. auto.
Qed.
