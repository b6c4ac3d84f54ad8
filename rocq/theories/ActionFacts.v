(* The effect of one action on a consistent graph. *)
From Verif Require Import Base PyDict PyDictFacts Graph GraphFacts GraphInv GraphInv2 GraphInv3 GraphQ Actions ActionSpec.

Lemma entry_eget g u v : entry g u v = eget g u v.
Proof. unfold entry, get_edge, eget; destruct (dget2 (edges g) u v); reflexivity. Qed.

(* one entry in the histories *)
Lemma hist_ok g u v i : WF g -> exists g', add_edge_history u v i g = (g', Ok tt) /\ WF g' /\
  nodes g' = nodes g /\ ahist g' = ahist g /\ (forall a b, eget g' a b = eget g a b) /\ dedges g' = dedges g /\
  (forall p, history g' p = history g p ++ (if eqb p (u, v) then [i] else [])) /\ edges g' = edges g.
Proof.
  intros W; eexists; split; [reflexivity|]. split; [apply (add_edge_history_wf g u v i W)|].
  split; [reflexivity|]. split; [reflexivity|]. split; [reflexivity|]. split; [reflexivity|]. split; [|reflexivity].
  intros p; unfold history; cbn [ehist with_ehist]. destruct (eqb_spec p (u, v)) as [->|N].
  - rewrite dget_dset_same; reflexivity.
  - rewrite dget_dset_other by congruence. rewrite app_nil_r; reflexivity.
Qed.

Lemma eff_hist g g' f d p : eff g g' f d -> history g' p = history g p.
Proof.
  intros E; unfold history; destruct (ef_eh _ _ _ _ E p) as [->|[-> ->]]; reflexivity.
Qed.

Lemma bind_okb {A B} (m : ST A) (k : A -> ST B) g g1 a : m g = (g1, Ok a) -> bind m k g = k a g1.
Proof. intros E; unfold bind; rewrite E; reflexivity. Qed.
Lemma bind_errb {A B} (m : ST A) (k : A -> ST B) g g1 e : m g = (g1, Err e) -> bind m k g = (g1, Err e).
Proof. intros E; unfold bind; rewrite E; reflexivity. Qed.

(* m, then a history entry for each pair *)
Lemma then_log2 m g g1 u v i : WF g -> u <> v -> m g = (g1, Ok tt) -> WF g1 -> nodes g1 = nodes g ->
  (forall p, history g1 p = history g p) ->
  exists g', (m ;;; add_edge_history u v i ;;; add_edge_history v u i ;;; ret true) g = (g', Ok true) /\ WF g' /\
    nodes g' = nodes g /\ ahist g' = ahist g1 /\ (forall a b, entry g' a b = eget g1 a b) /\
    (forall a b, removed g' a b = removed g1 a b) /\ logged [(u, v); (v, u)] i g g'.
Proof.
  intros W N E W1 Hn Hh. rewrite (bind_okb _ _ _ _ _ E).
  destruct (hist_ok g1 u v i W1) as (g2 & E2 & W2 & N2 & A2 & G2 & D2 & H2 & _).
  destruct (hist_ok g2 v u i W2) as (g3 & E3 & W3 & N3 & A3 & G3 & D3 & H3 & _).
  rewrite (bind_okb _ _ _ _ _ E2), (bind_okb _ _ _ _ _ E3).
  exists g3; split; [reflexivity|]. split; [exact W3|]. split; [congruence|]. split; [congruence|].
  split; [intros; rewrite entry_eget, G3, G2; reflexivity|].
  split; [intros; unfold removed; rewrite D3, D2; reflexivity|].
  intros p; rewrite H3, H2, Hh, <- app_assoc. f_equal. unfold mem; cbn [existsb]. rewrite orb_false_r.
  destruct (eqb_spec p (u, v)), (eqb_spec p (v, u)); try reflexivity. exfalso; congruence.
Qed.

Lemma then_log1 m g g1 u v i : WF g -> m g = (g1, Ok tt) -> WF g1 -> nodes g1 = nodes g ->
  (forall p, history g1 p = history g p) ->
  exists g', (m ;;; add_edge_history u v i ;;; ret true) g = (g', Ok true) /\ WF g' /\
    nodes g' = nodes g /\ ahist g' = ahist g1 /\ (forall a b, entry g' a b = eget g1 a b) /\
    (forall a b, removed g' a b = removed g1 a b) /\ logged [(u, v)] i g g'.
Proof.
  intros W E W1 Hn Hh. rewrite (bind_okb _ _ _ _ _ E).
  destruct (hist_ok g1 u v i W1) as (g2 & E2 & W2 & N2 & A2 & G2 & D2 & H2 & _).
  rewrite (bind_okb _ _ _ _ _ E2).
  exists g2; split; [reflexivity|]. split; [exact W2|]. split; [congruence|]. split; [congruence|].
  split; [intros; rewrite entry_eget, G2; reflexivity|].
  split; [intros; unfold removed; rewrite D2; reflexivity|].
  intros p; rewrite H2, Hh. f_equal. unfold mem; cbn [existsb]. rewrite orb_false_r. reflexivity.
Qed.

Lemma at2_off u v x f a b : ~ In (a, b) [(u, v)] -> at2 u v x f a b = f a b.
Proof. intros N; apply at2_other; intros E; apply N; left; congruence. Qed.

Lemma off2 (u v a b : id) : ~ In (a, b) [(u, v); (v, u)] -> (a, b) <> (u, v) /\ (a, b) <> (v, u).
Proof. intros N; split; intros E; apply N; [left|right; left]; congruence. Qed.

Lemma at2_swap u v x f : u <> v -> at2 v u x f u v = f u v.
Proof. intros N; apply at2_other; congruence. Qed.
Lemma at2_swap' u v x f : u <> v -> at2 u v x f v u = f v u.
Proof. intros N; apply at2_other; congruence. Qed.

Lemma live_entry g u v : WF g -> directed_edge_exists g u v = true -> exists e, eget g u v = Some e /\ e_del e = false /\
  dmem (nodes g) u = true /\ dmem (nodes g) v = true /\ u <> v.
Proof.
  intros W D; apply dee_iff in D; [|exact W]; destruct D as (e & E & L). destruct (wf_fwd _ W _ _ _ E) as (A & B & C & _).
  exists e; auto.
Qed.

Lemma ee_nodes g u v : WF g -> edge_exists g u v = true -> dmem (nodes g) u = true /\ dmem (nodes g) v = true /\ u <> v.
Proof.
  intros W D; rewrite edge_exists_or in D; apply orb_true_iff in D; destruct D as [D|D];
    destruct (live_entry _ _ _ W D) as (e & _ & _ & A & B & C); auto.
Qed.

Lemma dee_eff g g' u v : WF g -> WF g' -> nodes g' = nodes g -> eget g' u v = eget g u v ->
  directed_edge_exists g' u v = directed_edge_exists g u v.
Proof.
  intros W W' N E; destruct (directed_edge_exists g u v) eqn:D.
  - apply dee_iff; [exact W'|]. apply dee_iff in D; [|exact W]. unfold live in *; rewrite E; exact D.
  - destruct (directed_edge_exists g' u v) eqn:D'; [|reflexivity]. apply dee_iff in D'; [|exact W'].
    unfold live in D'; rewrite E in D'. apply (dee_iff g u v W) in D'. congruence.
Qed.

Lemma dee_val g u v : WF g -> directed_edge_exists g u v = match eget g u v with Some e => negb (e_del e) | None => false end.
Proof.
  intros W. destruct (eget g u v) as [e|] eqn:E.
  - destruct (e_del e) eqn:L; simpl.
    + destruct (directed_edge_exists g u v) eqn:D; [|reflexivity]. apply dee_iff in D; [|exact W].
      destruct D as (e' & E' & L'); congruence.
    + apply dee_iff; [exact W|]; exists e; auto.
  - destruct (directed_edge_exists g u v) eqn:D; [|reflexivity]. apply dee_iff in D; [|exact W].
    destruct D as (e' & E' & L'); congruence.
Qed.

(* the effect of restore_edge *)
Lemma restore_edge_spec g u v g' r : WF g -> restore_edge u v g = (g', r) ->
  WF g' /\ nodes g' = nodes g /\ ahist g' = ahist g /\ (forall p, history g' p = history g p) /\
  match r with
  | Ok _ => dmem (nodes g) u = true /\ dmem (nodes g) v = true /\ u <> v /\ only_changes [(u, v); (v, u)] g g' /\
      match eget g u v, eget g v u with
      | Some e, Some e' => eget g' u v = Some (set_del false e) /\ eget g' v u = Some (set_del false e')
      | None, _ => exists d, removed g u v = Some d /\
          eget g' u v = Some (mkEdge u v TUndirected (e_meta d) false) /\
          eget g' v u = Some (mkEdge v u TUndirected (e_meta d) false)
      | Some _, None => exists d, removed g v u = Some d /\
          eget g' u v = Some (mkEdge u v TUndirected (e_meta d) false) /\
          eget g' v u = Some (mkEdge v u TUndirected (e_meta d) false)
      end
  | Err _ => ~ ((eget g u v <> None \/ removed g u v <> None) /\ (eget g v u <> None \/ eget g u v = None \/ removed g v u <> None))
  end.
Proof.
  intros W R; unfold restore_edge in R.
  destruct (dmem (nodes g) u) eqn:Mu.
  2:{ rewrite (bind_errb (need_node u) _ g g GraphError) in R by (unfold need_node; rewrite Mu; reflexivity).
      injection R as <- <-. repeat (split; [assumption || reflexivity|]).
      intros [[X|X] _].
      - destruct (eget g u v) eqn:E; [|congruence]. destruct (wf_fwd _ W _ _ _ E) as (A & _); congruence.
      - unfold removed in X; destruct (dget2 (dedges g) u v) eqn:E; [|congruence]. destruct (wf_del _ W _ _ _ E) as (A & _); congruence. }
  rewrite (bind_okb (need_node u) _ g g tt) in R by (unfold need_node; rewrite Mu; reflexivity).
  destruct (dmem (nodes g) v) eqn:Mv.
  2:{ rewrite (bind_errb (need_node v) _ g g GraphError) in R by (unfold need_node; rewrite Mv; reflexivity).
      injection R as <- <-. repeat (split; [assumption || reflexivity|]).
      intros [[X|X] _].
      - destruct (eget g u v) eqn:E; [|congruence]. destruct (wf_fwd _ W _ _ _ E) as (_ & A & _); congruence.
      - unfold removed in X; destruct (dget2 (dedges g) u v) eqn:E; [|congruence]. destruct (wf_del _ W _ _ _ E) as (_ & A & _); congruence. }
  rewrite (bind_okb (need_node v) _ g g tt) in R by (unfold need_node; rewrite Mv; reflexivity).
  destruct (is_some (eget g u v) || is_some (dget2 (dedges g) u v)) eqn:Hs.
  2:{ apply orb_false_iff in Hs; destruct Hs as [H1 H2].
      destruct (eget g u v) eqn:E1; [discriminate|]. destruct (dget2 (dedges g) u v) eqn:E2; [discriminate|].
      rewrite (bind_errb _ _ _ _ _ (restore_half_err g u v E1 E2)) in R. injection R as <- <-.
      repeat (split; [assumption || reflexivity|]). unfold removed; rewrite E2. intros [[X|X] _]; congruence. }
  destruct (restore_half_ok g u v W Mu Mv Hs) as (g1 & R1 & W1 & F1). rewrite (bind_okb _ _ _ _ _ R1) in R.
  destruct (eget g u v) as [e|] eqn:E1.
  - (* entry present *)
    destruct (wf_fwd _ W _ _ _ E1) as (_ & _ & Nuv & _).
    assert (N1 := ef_nodes _ _ _ _ F1). assert (G1 := ef_get _ _ _ _ F1). assert (D1 := ef_del _ _ _ _ F1).
    assert (Gvu : eget g1 v u = eget g v u) by (rewrite G1; apply at2_other; congruence).
    destruct (is_some (eget g v u) || is_some (dget2 (dedges g) v u)) eqn:Hs'.
    + destruct (restore_half_ok g1 v u W1) as (g2 & R2 & W2 & F2); [rewrite N1; assumption|rewrite N1; assumption|rewrite Gvu, D1; exact Hs'|].
      rewrite R2 in R; injection R as <- <-. rewrite Gvu in F2. 
      destruct (eget g v u) as [e'|] eqn:E2.
      * split; [exact W2|]. assert (N2 := ef_nodes _ _ _ _ F2). assert (G2 := ef_get _ _ _ _ F2).
        split; [congruence|]. split; [rewrite (ef_ah _ _ _ _ F2); apply (ef_ah _ _ _ _ F1)|].
        split; [intros p; rewrite (eff_hist _ _ _ _ p F2); apply (eff_hist _ _ _ _ p F1)|].
        split; [reflexivity|]. split; [reflexivity|]. split; [exact Nuv|]. split.
        -- split; [congruence|]. intros a b Nab; apply off2 in Nab; destruct Nab as [Na Nb].
           rewrite !entry_eget, G2, at2_other, G1, at2_other by assumption; reflexivity.
        -- split; [rewrite G2, at2_swap, G1, at2_same by exact Nuv; reflexivity|rewrite G2, at2_same; reflexivity].
      * destruct F2 as (d & Hd & F2). assert (N2 := ef_nodes _ _ _ _ F2). assert (G2 := ef_get _ _ _ _ F2).
        split; [exact W2|]. split; [congruence|]. split; [rewrite (ef_ah _ _ _ _ F2); apply (ef_ah _ _ _ _ F1)|].
        split; [intros p; rewrite (eff_hist _ _ _ _ p F2); apply (eff_hist _ _ _ _ p F1)|].
        split; [reflexivity|]. split; [reflexivity|]. split; [exact Nuv|]. split.
        -- split; [congruence|]. intros a b Nab; apply off2 in Nab; destruct Nab as [Na Nb].
           rewrite !entry_eget, G2, !at2_other, G1, at2_other by assumption; reflexivity.
        -- exists d; split; [unfold removed; rewrite <- D1; exact Hd|].
           split; [rewrite G2, at2_same; reflexivity|rewrite G2, at2_swap', at2_same by exact Nuv; reflexivity].
    + apply orb_false_iff in Hs'; destruct Hs' as [H1 H2].
      destruct (eget g v u) eqn:E2; [discriminate|]. destruct (dget2 (dedges g) v u) eqn:E3; [discriminate|].
      rewrite (restore_half_err g1 v u) in R by (rewrite ?Gvu, ?D1; congruence). injection R as <- <-.
      split; [exact W1|]. split; [exact N1|]. split; [apply (ef_ah _ _ _ _ F1)|]. split; [intros p; apply (eff_hist _ _ _ _ p F1)|].
      unfold removed; rewrite E3; intros [_ [X|[X|X]]]; congruence.
  - destruct F1 as (d & Hd & F1). destruct (wf_del _ W _ _ _ Hd) as (_ & _ & Nuv).
    assert (N1 := ef_nodes _ _ _ _ F1). assert (G1 := ef_get _ _ _ _ F1).
    assert (Gvu : eget g1 v u = Some (mkEdge v u TUndirected (e_meta d) false)) by (rewrite G1; apply at2_same).
    destruct (restore_half_ok g1 v u W1) as (g2 & R2 & W2 & F2); [rewrite N1; assumption|rewrite N1; assumption|rewrite Gvu; reflexivity|].
    rewrite Gvu in F2. rewrite R2 in R; injection R as <- <-.
    assert (N2 := ef_nodes _ _ _ _ F2). assert (G2 := ef_get _ _ _ _ F2).
    split; [exact W2|]. split; [congruence|]. split; [rewrite (ef_ah _ _ _ _ F2); apply (ef_ah _ _ _ _ F1)|].
    split; [intros p; rewrite (eff_hist _ _ _ _ p F2); apply (eff_hist _ _ _ _ p F1)|].
    split; [reflexivity|]. split; [reflexivity|]. split; [exact Nuv|]. split.
    + split; [congruence|]. intros a b Nab; apply off2 in Nab; destruct Nab as [Na Nb].
      rewrite !entry_eget, G2, !at2_other, G1, !at2_other by assumption; reflexivity.
    + exists d; split; [exact Hd|].
      split; [rewrite G2, at2_swap, G1, at2_swap, at2_same by exact Nuv; reflexivity|rewrite G2, at2_same; reflexivity].
Qed.

(* What a due, possible action does; what the others do. *)
Lemma apply_action_spec g i g' r : WF g -> apply_action i g = (g', r) ->
  WF g' /\ ahist g' = ahist g /\ nodes g' = nodes g /\
  match r with
  | Ok false => g' = g /\ action_guard g i = false
  | Ok true => action_guard g i = true /\ action_ready g i /\ action_effect g g' i /\ logged (action_pairs i) i g g'
  | Err _ => action_guard g i = true /\ ~ action_ready g i /\ (t_act i <> RESTORE_EDGE -> g' = g)
  end.
Proof.
  intros W R. destruct i as [u v a data]. unfold apply_action in R. cbn [t_u t_v t_act t_data] in R.
  unfold bind at 1, gget at 1 in R.
  unfold action_guard, action_pairs, action_effect, action_ready; cbn [t_u t_v t_act t_data].
  destruct a.
  - (* UPDATE_EDGE *)
    destruct (edge_exists g u v) eqn:X; cbn [negb] in R; [|injection R as <- <-; auto].
    destruct (ee_nodes _ _ _ W X) as (Mu & Mv & Nuv).
    destruct (eget g u v) as [e|] eqn:E1; [destruct (eget g v u) as [e'|] eqn:E2|].
    + destruct (update_edge_ok g u v e e' data None W E1 E2) as (g1 & R1 & W1 & F1).
      destruct (then_log2 _ g g1 u v (mkT u v UPDATE_EDGE data) W Nuv R1 W1 (ef_nodes _ _ _ _ F1) (fun p => eff_hist _ _ _ _ p F1))
        as (g2 & R2 & W2 & N2 & A2 & G2 & _ & L2).
      rewrite R2 in R; injection R as <- <-. split; [exact W2|]. split; [rewrite A2; apply (ef_ah _ _ _ _ F1)|]. split; [exact N2|].
      split; [reflexivity|]. split; [rewrite !entry_eget, E1, E2; split; discriminate|]. split; [|exact L2].
      split; [split; [exact N2|]|].
      * intros a b Nab; apply off2 in Nab; destruct Nab. rewrite G2, (ef_get _ _ _ _ F1), !at2_other, entry_eget by assumption; reflexivity.
      * rewrite !G2, !(ef_get _ _ _ _ F1), !entry_eget, E1, E2, at2_same, at2_swap, at2_same by exact Nuv.
        unfold new_data, upd_entry; cbn [t_data]. destruct data; split; reflexivity.
    + rewrite (bind_errb _ _ g g GraphError) in R by (apply update_edge_reject; auto). injection R as <- <-.
      repeat (split; [assumption || reflexivity|]). split; [rewrite !entry_eget, E2; intros [_ C]; congruence|reflexivity].
    + rewrite (bind_errb _ _ g g GraphError) in R by (apply update_edge_reject; auto). injection R as <- <-.
      repeat (split; [assumption || reflexivity|]). split; [rewrite !entry_eget, E1; intros [C _]; congruence|reflexivity].
  - (* UPDATE_EDGE_DIRECTED *)
    destruct (directed_edge_exists g u v) eqn:X; cbn [negb] in R; [|injection R as <- <-; auto].
    destruct (live_entry _ _ _ W X) as (e & E1 & _ & Mu & Mv & Nuv).
    destruct (update_directed_ok g u v e data None W E1) as (g1 & R1 & W1 & F1).
    destruct (then_log1 _ g g1 u v (mkT u v UPDATE_EDGE_DIRECTED data) W R1 W1 (ef_nodes _ _ _ _ F1) (fun p => eff_hist _ _ _ _ p F1))
      as (g2 & R2 & W2 & N2 & A2 & G2 & _ & L2).
    rewrite R2 in R; injection R as <- <-. split; [exact W2|]. split; [rewrite A2; apply (ef_ah _ _ _ _ F1)|]. split; [exact N2|].
    split; [reflexivity|]. split; [exact I|]. split; [|exact L2]. split; [split; [exact N2|]|].
    + intros a b Nab. rewrite G2, (ef_get _ _ _ _ F1), at2_off, entry_eget by assumption; reflexivity.
    + rewrite G2, (ef_get _ _ _ _ F1), entry_eget, E1, at2_same.
      unfold new_data, upd_entry; cbn [t_data]; destruct data; reflexivity.
  - unfold raise, ret in R; destruct (edge_exists g u v) eqn:X; cbn [negb] in R; inversion R; subst; clear R;
      (split; [exact W|]); (split; [reflexivity|]); (split; [reflexivity|]); auto.
  - unfold raise, ret in R; destruct (directed_edge_exists g u v) eqn:X; cbn [negb] in R; inversion R; subst; clear R;
      (split; [exact W|]); (split; [reflexivity|]); (split; [reflexivity|]); auto.
  - (* REMOVE_EDGE_UNDIRECTED *)
    unfold undirected_edge_exists in R.
    destruct (directed_edge_exists g u v && directed_edge_exists g v u) eqn:X; cbn [negb] in R; [|injection R as <- <-; auto].
    apply andb_true_iff in X; destruct X as [X1 X2].
    destruct (live_entry _ _ _ W X1) as (e & E1 & _ & Mu & Mv & Nuv).
    destruct (remove_edge_soft_ok g u v W Mu Mv) as (g1 & R1 & W1 & F1).
    destruct (then_log2 _ g g1 u v (mkT u v REMOVE_EDGE_UNDIRECTED data) W Nuv R1 W1 (ef_nodes _ _ _ _ F1) (fun p => eff_hist _ _ _ _ p F1))
      as (g2 & R2 & W2 & N2 & A2 & G2 & _ & L2).
    rewrite R2 in R; injection R as <- <-. split; [exact W2|]. split; [rewrite A2; apply (ef_ah _ _ _ _ F1)|]. split; [exact N2|].
    split; [reflexivity|]. split; [exact I|]. split; [|exact L2]. split; [split; [exact N2|]|].
    + intros a b Nab; apply off2 in Nab; destruct Nab. unfold softd in F1. rewrite G2, (ef_get _ _ _ _ F1), !at2_other, entry_eget by assumption; reflexivity.
    + unfold softd, setd in F1. rewrite !G2, !(ef_get _ _ _ _ F1), !entry_eget, at2_same, at2_swap, at2_same, at2_swap' by exact Nuv. auto.
  - (* REMOVE_EDGE_DIRECTED *)
    replace (negb (directed_edge_exists g u v) && negb (edge_exists g u v)) with (negb (edge_exists g u v)) in R
      by (rewrite edge_exists_or; destruct (directed_edge_exists g u v); reflexivity).
    destruct (edge_exists g u v) eqn:X; cbn [negb] in R; [|injection R as <- <-; auto].
    destruct (ee_nodes _ _ _ W X) as (Mu & Mv & Nuv).
    destruct (remove_directed_soft_ok g u v W Mu Mv) as (g1 & R1 & W1 & F1).
    assert (N1 := ef_nodes _ _ _ _ F1). assert (G1 := ef_get _ _ _ _ F1). unfold softd, setd in G1.
    assert (Dvu : edge_exists g1 v u = directed_edge_exists g v u).
    { rewrite edge_exists_or, (dee_val g1 u v W1), G1, at2_same.
      rewrite (dee_eff g g1 v u W W1 N1) by (rewrite G1; apply at2_swap'; exact Nuv).
      destruct (eget g u v); cbn; rewrite orb_false_r; reflexivity. }
    assert (H : exists g3, (remove_directed_edge u v true ;;;
              (g0 <- gget ;; if edge_exists g0 v u then update_directed_edge v u None (Some TDirected) else ret tt)) g = (g3, Ok tt) /\ WF g3 /\
              nodes g3 = nodes g /\ ahist g3 = ahist g /\ (forall p, history g3 p = history g p) /\
              (forall a b, eget g3 a b = at2 u v (option_map (set_del true) (eget g u v))
                 (at2 v u (if directed_edge_exists g v u then option_map (set_type TDirected) (eget g v u) else eget g v u) (eget g)) a b)).
    { rewrite (bind_okb _ _ _ _ _ R1). unfold bind, gget. rewrite Dvu.
      destruct (directed_edge_exists g v u) eqn:D.
      - destruct (live_entry _ _ _ W D) as (e' & E2 & _).
        assert (E3 : eget g1 v u = Some e') by (rewrite G1, at2_swap' by exact Nuv; exact E2).
        destruct (update_directed_ok g1 v u e' None (Some TDirected) W1 E3) as (g3 & R3 & W3 & F3).
        exists g3; split; [exact R3|]. split; [exact W3|]. split; [rewrite (ef_nodes _ _ _ _ F3); exact N1|].
        split; [rewrite (ef_ah _ _ _ _ F3); apply (ef_ah _ _ _ _ F1)|].
        split; [intros p; rewrite (eff_hist _ _ _ _ p F3); apply (eff_hist _ _ _ _ p F1)|].
        intros a b; rewrite (ef_get _ _ _ _ F3), E2. rewrite (at2_ext _ _ _ _ _ a b G1). cbn [upd_entry option_map].
        apply at2_comm; congruence.
      - exists g1; split; [reflexivity|]. split; [exact W1|]. split; [exact N1|]. split; [apply (ef_ah _ _ _ _ F1)|].
        split; [intros p; apply (eff_hist _ _ _ _ p F1)|].
        intros a b; rewrite G1. apply at2_ext; intros a' b'; symmetry; apply at2_id. }
    destruct H as (g3 & R3 & W3 & N3 & A3 & H3 & G3).
    assert (RR : (remove_directed_edge u v true ;;;
           (g0 <- gget ;; if edge_exists g0 v u then update_directed_edge v u None (Some TDirected) else ret tt) ;;;
           add_edge_history u v (mkT u v REMOVE_EDGE_DIRECTED data) ;;; ret true) g
        = ((remove_directed_edge u v true ;;;
           (g0 <- gget ;; if edge_exists g0 v u then update_directed_edge v u None (Some TDirected) else ret tt)) ;;;
           add_edge_history u v (mkT u v REMOVE_EDGE_DIRECTED data) ;;; ret true) g).
    { unfold bind. destruct (remove_directed_edge u v true g) as [x [y|y]]; reflexivity. }
    rewrite RR in R.
    destruct (then_log1 _ g g3 u v (mkT u v REMOVE_EDGE_DIRECTED data) W R3 W3 N3 H3) as (g2 & R2 & W2 & N2 & A2 & G2 & _ & L2).
    rewrite R2 in R; injection R as <- <-. split; [exact W2|]. split; [congruence|]. split; [exact N2|].
    split; [reflexivity|]. split; [exact I|]. split; [|exact L2]. split; [split; [exact N2|]|].
    + intros a b Nab; apply off2 in Nab; destruct Nab. rewrite G2, G3, !at2_other, entry_eget by assumption; reflexivity.
    + rewrite !G2, !G3, !entry_eget, at2_same, at2_swap', at2_same by exact Nuv. auto.
  - (* RESTORE_EDGE *)
    destruct (edge_exists g u v) eqn:X; [injection R as <- <-; auto|].
    destruct (restore_edge u v g) as [g1 r1] eqn:R1.
    destruct (restore_edge_spec g u v g1 r1 W R1) as (W1 & N1 & A1 & H1 & S1). destruct r1 as [[]|ex].
    + destruct S1 as (Mu & Mv & Nuv & O1 & S1).
      destruct (then_log2 _ g g1 u v (mkT u v RESTORE_EDGE data) W Nuv R1 W1 N1 H1) as (g2 & R2 & W2 & N2 & A2 & G2 & _ & L2).
      rewrite R2 in R; injection R as <- <-. split; [exact W2|]. split; [congruence|]. split; [exact N2|].
      split; [reflexivity|]. rewrite !(entry_eget g). split; [|split; [|exact L2]].
      * destruct (eget g u v), (eget g v u); split; try (left; discriminate); try (right; left; reflexivity).
        -- right; right. destruct S1 as (d & -> & _); discriminate.
        -- right. destruct S1 as (d & -> & _); discriminate.
        -- right. destruct S1 as (d & -> & _); discriminate.
      * split; [split; [exact N2|]|].
        -- intros a b Nab. rewrite G2, <- entry_eget. apply O1; exact Nab.
        -- rewrite !G2. exact S1.
    + rewrite (bind_errb _ _ _ _ _ R1) in R. injection R as <- <-. split; [exact W1|]. split; [exact A1|]. split; [exact N1|].
      split; [reflexivity|]. split; [rewrite !entry_eget; exact S1|]. cbn; intros X'; congruence.
  - (* RESTORE_EDGE_DIRECTED *)
    destruct (directed_edge_exists g u v) eqn:X; [injection R as <- <-; auto|].
    destruct (is_some (eget g u v) || is_some (dget2 (dedges g) u v)) eqn:Hs.
    + assert (M : dmem (nodes g) u = true /\ dmem (nodes g) v = true /\ u <> v).
      { destruct (eget g u v) eqn:E1; [destruct (wf_fwd _ W _ _ _ E1) as (A & B & C & _); auto|].
        destruct (dget2 (dedges g) u v) eqn:E2; [|discriminate]. exact (wf_del _ W _ _ _ E2). }
      destruct M as (Mu & Mv & Nuv).
      destruct (restore_directed_ok g u v W Mu Mv Hs) as (g1 & R1 & W1 & F1).
      destruct (then_log1 _ g g1 u v (mkT u v RESTORE_EDGE_DIRECTED data) W R1 W1 (ef_nodes _ _ _ _ F1) (fun p => eff_hist _ _ _ _ p F1))
        as (g2 & R2 & W2 & N2 & A2 & G2 & _ & L2).
      rewrite R2 in R; injection R as <- <-. split; [exact W2|]. split; [rewrite A2; apply (ef_ah _ _ _ _ F1)|]. split; [exact N2|].
      split; [reflexivity|]. split; [|split; [|exact L2]].
      * rewrite entry_eget. unfold removed. destruct (eget g u v); [left; discriminate|right]. destruct (dget2 (dedges g) u v); discriminate.
      * split; [split; [exact N2|]|].
        -- intros a b Nab. rewrite G2, (ef_get _ _ _ _ F1), at2_off, entry_eget by assumption; reflexivity.
        -- rewrite G2, (ef_get _ _ _ _ F1), entry_eget, at2_same. unfold removed.
           destruct (eget g u v) as [e|] eqn:E1; [reflexivity|]. cbn [revived].
           destruct (dget2 (dedges g) u v) as [d|]; [exists d; split; reflexivity|discriminate].
    + apply orb_false_iff in Hs; destruct Hs as [H1 H2].
      assert (E1 : eget g u v = None) by (destruct (eget g u v); [discriminate|reflexivity]).
      assert (E2 : dget2 (dedges g) u v = None) by (destruct (dget2 (dedges g) u v); [discriminate|reflexivity]).
      assert (R1 : exists ex, restore_directed_edge u v g = (g, Err ex)).
      { unfold restore_directed_edge, bind, need_node, gget. destruct (dmem (nodes g) u); [|eauto].
        destruct (dmem (nodes g) v); [|eauto]. unfold dmem2. fold (eget g u v). rewrite E1, E2. unfold raise; eauto. }
      destruct R1 as [ex R1]. rewrite (bind_errb _ _ _ _ _ R1) in R. injection R as <- <-.
      repeat (split; [assumption || reflexivity|]). split; [|reflexivity]. rewrite entry_eget, E1; unfold removed; rewrite E2. intros [C|C]; congruence.
  - injection R as <- <-; auto.
Qed.

Lemma apply_action_wf g i : WF g -> WF (fst (apply_action i g)).
Proof. intros W; destruct (apply_action i g) as [g' r] eqn:E; apply (apply_action_spec g i g' r W E). Qed.
