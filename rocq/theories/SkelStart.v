(* The graph a run starts with, and the correlation step. *)
From Verif Require Import Base PyDict PyDictFacts Graph GraphSpec GraphFacts GraphInv GraphInv2 GraphInv3 GraphQ GraphMain
  GraphPaths PathSpec Actions ActionSpec ActionFacts ActionMain Generators GenSpec GenFacts Rules IndepTests Pipeline Parallel PipeFacts RuleFacts
  Construct ConstructSpec ConstructFacts Dag DagFacts DagSep SkelSpec Rows Serve SkelFacts.
Open Scope string_scope.
Open Scope list_scope.

Record complete (g : graph) : Prop := {
  cp_wf : WF g;
  cp_eget : forall u v, dmem (nodes g) u = true -> dmem (nodes g) v = true -> u <> v -> eget g u v = Some (fresh u v);
  cp_rows : forall u v, dmem (nodes g) u = true -> dmem (nodes g) v = true -> u <> v -> dmem (edges g) u = true;
  cp_hist : forall p, history g p = [] }.

Lemma add_columns_hist : forall l g, ehist (fst (add_columns l g)) = ehist g.
Proof.
  induction l as [|[k vs] l IH]; intros g; cbn [add_columns]; [reflexivity|]. unfold bind.
  assert (X : ehist (fst (add_node k (tensor vs) k g)) = ehist g).
  { unfold add_node. destruct (tensor vs); repeat match goal with |- context [if ?b then _ else _] => destruct b end; reflexivity. }
  destruct (add_node k (tensor vs) k g) as [g1 [u|e]]; cbn [fst] in *; [rewrite IH; exact X|exact X].
Qed.
Lemma new_graph_hist l g : new_graph (add_columns l) = Ok g -> ehist g = [].
Proof.
  unfold new_graph. assert (X := add_columns_hist l empty_graph). destruct (add_columns l empty_graph) as [g1 [u|e]]; [|discriminate].
  intros E; injection E as <-; exact X.
Qed.
Lemma created_hist d g : create_graph_from_data d = Ok g -> ehist g = [].
Proof.
  assert (FD : forall c, graph_from_dict c = Ok g -> ehist g = []) by (intros c; apply new_graph_hist).
  assert (FL : forall l, graph_from_list l = Ok g -> ehist g = []).
  { intros [|r l] E; [discriminate|]. unfold graph_from_list in E. destruct (columns _ _); cbn in E; [|discriminate]. eapply new_graph_hist; exact E. }
  destruct d as [c|l|l]; cbn; [apply FD|apply FL|]. unfold graph_from_loader. destruct (split_loader None l) as [[[|r l']|e]|c]; try discriminate; [apply FL|apply FD].
Qed.

Lemma complete_start d g : start_graph d = Ok g -> complete g.
Proof.
  unfold start_graph. destruct (create_graph_from_data d) as [g1|e] eqn:C; cbn [rbind]; [|discriminate]. assert (EH := created_hist d g1 C).
  apply created_reached in C. apply reached_WF in C. destruct (c42_main g1 C) as (g' & R & W & Nn & _ & H & _ & G & Ro). rewrite R.
  intros X; injection X as <-. constructor.
  - exact W.
  - intros u v Hu Hv Ne. rewrite Nn in Hu, Hv. rewrite G, Hu, Hv, (eqb_neq _ _ Ne). reflexivity.
  - intros u v Hu Hv Ne. rewrite Nn in Hu, Hv. eauto.
  - intros p. rewrite H. unfold history. rewrite EH. reflexivity.
Qed.

Section Pearson.
Variable g0 : graph.
Hypothesis CP : complete g0.
Variable N : numerics.
Variable c : id -> id -> Z.
Hypothesis Csym : forall x y, c x y = c y x.
Notation node := (SkelFacts.node g0).
Hypothesis Hpear : forall x y, node x -> node y -> x <> y -> n_pearson N (values_of g0 x) (values_of g0 y) = Ok (c x y).

Definition cmeta (x y : id) : meta := [("correlation", MNum (c x y))].

Record pstate (g : graph) : Prop := {
  ps_wf : WF g;
  ps_nodes : nodes g = nodes g0;
  ps_rows : forall u v, node u -> node v -> u <> v -> dmem (edges g) u = true;
  ps_eget : forall u v, node u -> node v -> u <> v -> exists e, eget g u v = Some e /\ e_del e = false;
  ps_hist : forall p, removals (history g p) = [] }.
Definition pset (x y : id) (g : graph) : Prop :=
  (exists e, eget g x y = Some e /\ e_meta e = Some (cmeta x y)) /\ (exists e, eget g y x = Some e /\ e_meta e = Some (cmeta x y)).
Definition pQ (i : tresult) : Prop := exists x y, i = mkT x y UPDATE_EDGE (Some (cmeta x y)) /\ node x /\ node y /\ x <> y.

Lemma ps_live g u v : pstate g -> node u -> node v -> u <> v -> directed_edge_exists g u v = true.
Proof. intros K Hu Hv Ne. rewrite (dee_val g u v (ps_wf _ K)). destruct (ps_eget _ K u v Hu Hv Ne) as (e & -> & ->). reflexivity. Qed.

Lemma pact x y g g' r : pstate g -> node x -> node y -> x <> y -> apply_action (mkT x y UPDATE_EDGE (Some (cmeta x y))) g = (g', r) ->
  r = Ok true /\ pstate g' /\ pset x y g' /\ forall a b, a <> x \/ b <> y -> a <> y \/ b <> x -> eget g' a b = eget g a b.
Proof.
  intros K Hx Hy Ne R. set (i := mkT x y UPDATE_EDGE (Some (cmeta x y))) in *. destruct (apply_action_spec g i g' r (ps_wf _ K) R) as (W' & _ & N' & X).
  assert (MR := mono_action i g). rewrite R in MR; cbn [fst] in MR.
  assert (EE : action_guard g i = true).
  { unfold action_guard; cbn. rewrite edge_exists_or, (ps_live g x y K Hx Hy Ne). reflexivity. }
  destruct (ps_eget _ K x y Hx Hy Ne) as (e1 & E1 & L1). destruct (ps_eget _ K y x Hy Hx (fun h => Ne (eq_sym h))) as (e2 & E2 & L2).
  destruct r as [[|]|e].
  - destruct X as (_ & _ & EF & L). unfold action_effect in EF; cbn [i t_act t_u t_v] in EF. destruct EF as ((_ & OC) & F1 & F2).
    rewrite !entry_eget in F1, F2. rewrite E1 in F1. rewrite E2 in F2. cbn in F1, F2.
    assert (OE : forall a b, a <> x \/ b <> y -> a <> y \/ b <> x -> eget g' a b = eget g a b).
    { intros a b A B. rewrite <- !entry_eget. apply OC. cbn. intros [Q|[Q|[]]]; injection Q as -> ->; tauto. }
    split; [reflexivity|]. split; [|split; [|exact OE]].
    + constructor.
      * exact W'.
      * rewrite N'; exact (ps_nodes _ K).
      * intros u v Hu Hv Huv. apply MR. apply (ps_rows _ K u v Hu Hv Huv).
      * intros u v Hu Hv Huv. destruct (eqb_spec (u, v) (x, y)) as [Q|NE1]; [injection Q as -> ->; eexists; split; [exact F1|exact L1]|].
        destruct (eqb_spec (u, v) (y, x)) as [Q|NE2]; [injection Q as -> ->; eexists; split; [exact F2|exact L2]|].
        rewrite <- entry_eget, OC, entry_eget; [apply (ps_eget _ K u v Hu Hv Huv)|]. cbn. intros [Q|[Q|[]]]; congruence.
      * intros p. rewrite (logged_removals _ _ _ _ p L), (ps_hist _ K p). destruct (mem p _); reflexivity.
    + split; eexists; split; [exact F1|reflexivity|exact F2|reflexivity].
  - destruct X as [_ G]. congruence.
  - exfalso. destruct X as (_ & NR & _). apply NR. cbn. rewrite !entry_eget, E1, E2. split; discriminate.
Qed.

Lemma pact_I i : pQ i -> keeps pstate noE (apply_action i) (fun _ _ => True).
Proof.
  intros (x & y & -> & Hx & Hy & Ne) g K. destruct (apply_action _ g) as [g' r] eqn:R. destruct (pact x y g g' r K Hx Hy Ne R) as (-> & K' & _). cbn; auto.
Qed.
Lemma pact_T u v i : pQ i -> keeps (InvT pstate (pset u v)) noE (apply_action i) (fun _ _ => True).
Proof.
  intros (x & y & -> & Hx & Hy & Ne) g [K T]. destruct (apply_action _ g) as [g' r] eqn:R. destruct (pact x y g g' r K Hx Hy Ne R) as (-> & K' & T' & O).
  cbn. split; [|exact Logic.I]. split; [exact K'|]. destruct T as [T1 T2].
  destruct (eqb_spec (u, v) (x, y)) as [Q|NE1]; [injection Q as -> ->; exact T'|].
  destruct (eqb_spec (u, v) (y, x)) as [Q|NE2].
  - injection Q as -> ->. destruct T' as [A B]. unfold pset, cmeta in *. rewrite (Csym y x). split; assumption.
  - split; [rewrite O|rewrite O]; try assumption.
    + destruct (string_dec u x) as [->|?]; [right; intros ->; congruence|auto].
    + destruct (string_dec u y) as [->|?]; [right; intros ->; congruence|auto].
    + destruct (string_dec u y) as [->|?]; [left; intros ->; congruence|auto].
    + destruct (string_dec u x) as [->|?]; [left; intros ->; congruence|auto].
Qed.
Definition pwin (u v : id) (i : tresult) : Prop := i = mkT u v UPDATE_EDGE (Some (cmeta u v)).
Lemma pact_W u v i g : pQ i -> pwin u v i -> pstate g -> pset u v (fst (apply_action i g)).
Proof.
  intros (x & y & -> & Hx & Hy & Ne) W K. injection W as -> -> _. destruct (apply_action _ g) as [g' r] eqn:R.
  destruct (pact u v g g' r K Hx Hy Ne R) as (-> & K' & T' & _). exact T'.
Qed.

Lemma p0 : pstate g0.
Proof.
  constructor; [exact (cp_wf _ CP)|reflexivity|exact (cp_rows _ CP)| |].
  - intros u v Hu Hv Ne. exists (fresh u v). split; [apply (cp_eget _ CP u v Hu Hv Ne)|reflexivity].
  - intros p. rewrite (cp_hist _ CP p). reflexivity.
Qed.

Definition pair_ok (ns : list id) : Prop := exists x y, ns = [x; y] /\ node x /\ node y /\ x <> y.
Lemma pcall x y us : node x -> node y -> x <> y -> call (calculate_pearson N) g0 [x; y] us = Ok (Some [mkT x y UPDATE_EDGE (Some (cmeta x y))]).
Proof.
  intros Hx Hy Ne. unfold call. cbn [calculate_pearson s_proc s_unapplied]. unfold pearson_process, node_at. cbn [nth_error].
  unfold SkelFacts.node in Hx, Hy. rewrite Hx, Hy. cbn [rbind].
  unfold edge_value. rewrite edge_exists_or, (ps_live g0 x y p0 Hx Hy Ne). cbn [orb negb].
  assert (E := cp_eget _ CP x y Hx Hy Ne). unfold eget in E. rewrite E. cbn [rbind]. rewrite (Hpear x y Hx Hy Ne). reflexivity.
Qed.

Lemma pairs_ok g : WF g -> nodes g = nodes g0 -> forall ns, In ns (all_combinations (mkCS 2 2) g) -> pair_ok ns.
Proof.
  intros W Nn ns H. apply all_combinations_In in H. destruct H as [S L]. assert (ND := subseq_NoDup _ _ S (wf_nodes _ W)).
  unfold size_in in L; cbn in L. destruct ns as [|x [|y [|z ns]]]; cbn in L; try lia. exists x, y. split; [reflexivity|].
  assert (SI := subseq_In _ _ S). inversion ND as [|? ? H1 _]; subst.
  split; [|split; [|intros ->; apply H1; left; reflexivity]]; unfold SkelFacts.node; rewrite <- Nn; apply dmem_In, SI; cbn; auto.
Qed.
Lemma pairs_In g x y : WF g -> nodes g = nodes g0 -> node x -> node y -> x <> y ->
  In [x; y] (all_combinations (mkCS 2 2) g) \/ In [y; x] (all_combinations (mkCS 2 2) g).
Proof.
  intros W Nn Hx Hy Ne. unfold SkelFacts.node in *. rewrite <- Nn in Hx, Hy. apply dmem_In in Hx, Hy.
  destruct (subseq_of_subset string_dec (dkeys (nodes g)) (wf_nodes _ W) [x; y]) as (l & S & P).
  - constructor; [intros [H|[]]; congruence|constructor; [intros []|constructor]].
  - intros z [<-|[<-|[]]]; assumption.
  - assert (L : @List.length id l = 2) by exact (Permutation_length P). assert (LL := subseq_length _ _ S).
    assert (X : In l (all_combinations (mkCS 2 2) g)).
    { apply all_combinations_In. split; [exact S|]. unfold size_in; cbn [cs_min cs_max]. unfold dkeys in LL. rewrite map_length in LL. unfold id in *. rewrite L in *. split; [lia|split; [exact LL|right; lia]]. }
    destruct l as [|a [|b [|]]]; try discriminate. assert (Ha : In a [x; y]) by (eapply Permutation_in; [exact P|left; reflexivity]).
    assert (Hb : In b [x; y]) by (eapply Permutation_in; [exact P|right; left; reflexivity]).
    assert (ND := Permutation_NoDup (Permutation_sym P) ltac:(constructor; [intros [H|[]]; congruence|constructor; [intros []|constructor]])).
    inversion ND as [|? ? H1 _]; subst. destruct Ha as [<-|[<-|[]]], Hb as [<-|[<-|[]]]; auto; exfalso; apply H1; left; reflexivity.
Qed.

Lemma pearson_step P : tri pstate noE (execute_step P no_hooks (calculate_pearson N) false) g0 (fun _ _ => True) /\
  forall x y, node x -> node y -> x <> y -> tri pstate noE (execute_step P no_hooks (calculate_pearson N) false) g0 (fun _ g => pset x y g).
Proof.
  assert (Gen : gen_run (s_gen (calculate_pearson N) g0) g0 = Ok (map One (all_combinations (mkCS 2 2) g0) ++ [])) by reflexivity.
  assert (GE : Forall (good_em noE pair_ok false) (map One (all_combinations (mkCS 2 2) g0) ++ [])).
  { rewrite app_nil_r. apply Forall_forall. intros e H. apply in_map_iff in H. destruct H as (ns & <- & H). cbn.
    apply (pairs_ok g0 (cp_wf _ CP) eq_refl ns H). }
  assert (C : good_calls (fun g' => g' = g0) noE pQ pair_ok (calculate_pearson N)).
  { intros g ns us -> (x & y & -> & Hx & Hy & Ne) _. rewrite (pcall x y us Hx Hy Ne). constructor; [|constructor]. exists x, y. auto. }
  assert (HI : false = false -> forall i, pQ i -> keeps pstate noE (apply_action i) (fun _ _ => True)) by (intros _; exact pact_I).
  assert (Pl : plain_step (calculate_pearson N)) by (repeat split).
  split.
  - eapply tri_weaken; [apply (collect_tri pstate noE pQ false pair_ok HI (calculate_pearson N) Pl P g0 _ Gen GE C p0)|auto].
  - intros x y Hx Hy Ne.
    assert (S : forall u v, node u -> node v -> u <> v -> In [u; v] (all_combinations (mkCS 2 2) g0) ->
      tri pstate noE (execute_step P no_hooks (calculate_pearson N) false) g0 (fun _ g => pset u v g)).
    { intros u v Hu Hv Huv H. eapply tri_weaken; [apply (collect_serve pstate (pset u v) noE pQ (pwin u v) false pair_ok HI (calculate_pearson N) Pl P g0 _ Gen GE C p0
        (fun _ => pact_T u v) (fun _ => pact_W u v) (One [u; v]) [u; v])|].
      - apply in_app_iff; left. apply in_map; exact H.
      - reflexivity.
      - intros us o Co. rewrite (pcall u v us Hu Hv Huv) in Co. injection Co as <-. eexists; split; [left; reflexivity|reflexivity].
      - intros a g _ [[T|(F & _)] _]; [exact T|discriminate]. }
    destruct (pairs_In g0 x y (cp_wf _ CP) eq_refl Hx Hy Ne) as [H|H]; [apply (S x y Hx Hy Ne H)|].
    eapply tri_weaken; [apply (S y x Hy Hx (fun h => Ne (eq_sym h)) H)|]. intros a g _ [A B]. unfold pset, cmeta in *. rewrite (Csym x y). split; assumption.
Qed.

(* what the graph looks like after the step *)
Lemma pearson_skel D sepok P : (forall x y, edge_in D x y -> node x /\ node y) -> (forall x, ~ edge_in D x x) ->
  exists g1 a, execute_step P no_hooks (calculate_pearson N) false g0 = (g1, Ok a) /\ skel g0 D c sepok g1 /\
    forall u v, node u -> node v -> u <> v -> directed_edge_exists g1 u v = true.
Proof.
  intros DN DL. destruct (pearson_step P) as [S1 S2]. destruct (execute_step P no_hooks (calculate_pearson N) false g0) as [g1 r] eqn:R.
  unfold tri in S1, S2. rewrite R in S1; cbn in S1. destruct S1 as [K S1]. destruct r as [a|e]; [|destruct S1].
  exists g1, a. split; [reflexivity|].
  assert (T : forall x y, node x -> node y -> x <> y -> pset x y g1) by (intros x y Hx Hy Ne; specialize (S2 x y Hx Hy Ne); rewrite R in S2; apply S2).
  assert (L := ps_live g1). split; [|intros u v Hu Hv Ne; apply (L u v K Hu Hv Ne)].
  assert (NN : forall u v, directed_edge_exists g1 u v = true -> node u /\ node v /\ u <> v).
  { intros u v A. destruct (live_entry _ _ _ (ps_wf _ K) A) as (e & _ & _ & H1 & H2 & H3). rewrite (ps_nodes _ K) in H1, H2. auto. }
  constructor.
  - exact (ps_wf _ K).
  - exact (ps_nodes _ K).
  - exact (ps_rows _ K).
  - intros u v A. destruct (NN u v A) as (Hu & Hv & Ne). apply (L v u K Hv Hu). congruence.
  - intros u v A. destruct (NN u v A) as (Hu & Hv & Ne). destruct (T u v Hu Hv Ne) as [(e & E1 & E2) _]. exists e, (cmeta u v). auto.
  - intros u v A. assert (node u /\ node v /\ u <> v) as (Hu & Hv & Ne); [|apply (L u v K Hu Hv Ne)].
    destruct A as [A|A]; destruct (DN _ _ A) as [X Y]; (split; [assumption|split; [assumption|intros ->; exact (DL _ A)]]).
  - intros u v _. apply (ps_hist _ K).
  - intros u v Hu Hv Ne A. rewrite (L u v K Hu Hv Ne) in A. discriminate.
Qed.
End Pearson.
