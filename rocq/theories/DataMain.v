(* Two runs that start from different data. *)
From Verif Require Import Base PyDict PyDictFacts Graph GraphSpec GraphFacts GraphInv GraphInv2 GraphQ Actions ActionFacts ActionMain Generators Rules IndepTests Pipeline Parallel PipeSpec PipeFacts PipeMain2 Construct ConstructFacts
  LoopFacts PipeMain OrientTop EffectSpec EffectFacts DataSpec DataFacts.
Open Scope list_scope.

(* ---- starts ---- *)
Definition only_nodes (g : graph) : Prop := edges g = [] /\ redges g = [] /\ dedges g = [] /\ ehist g = [] /\ ahist g = [].
Lemma add_columns_only : forall l g, only_nodes g -> only_nodes (fst (add_columns l g)).
Proof.
  induction l as [|[k vs] l IH]; intros g O; cbn [add_columns]; [exact O|]. unfold bind, add_node. destruct (dmem (nodes g) k); [exact O|]. destruct (tensor vs); [|exact O]. apply IH. exact O.
Qed.
Lemma new_graph_only l g : new_graph (add_columns l) = Ok g -> only_nodes g.
Proof.
  unfold new_graph. assert (X := add_columns_only l empty_graph ltac:(repeat split)). destruct (add_columns l empty_graph) as [g1 [u|e]]; [|discriminate]. intros E; injection E as <-; exact X.
Qed.
Lemma created_only d g : create_graph_from_data d = Ok g -> only_nodes g.
Proof.
  assert (FD : forall c, graph_from_dict c = Ok g -> only_nodes g) by (intros c; apply new_graph_only).
  assert (FL : forall l, graph_from_list l = Ok g -> only_nodes g).
  { intros [|r l] E; [discriminate|]. unfold graph_from_list in E. destruct (columns _ _); cbn in E; [|discriminate]. eapply new_graph_only; exact E. }
  destruct d as [c|l|l]; cbn [create_graph_from_data]; [apply FD|apply FL|]. unfold graph_from_loader.
  destruct (split_loader None l) as [[[|r rs]|e]|c]; [discriminate|apply FL|discriminate|apply FD].
Qed.
Lemma start_only d g : start_graph d = Ok g -> exists g1, only_nodes g1 /\ nodes g = nodes g1 /\ create_all_possible_edges g1 = (g, Ok tt).
Proof.
  unfold start_graph. destruct (create_graph_from_data d) as [g1|e] eqn:C; cbn [rbind]; [|discriminate]. assert (R := created_reached _ _ C). apply created_only in C.
  destruct (c42_props g1 R) as (g2 & X & Nn & _). rewrite X. intros E; injection E as <-. exists g1. auto.
Qed.
Lemma only_same g g' : only_nodes g -> only_nodes g' -> g' = on_nodes (nodes g') g.
Proof. destruct g, g'. unfold only_nodes, on_nodes. cbn. intros (-> & -> & -> & -> & ->) (-> & -> & -> & -> & ->). reflexivity. Qed.
Lemma start_same d d' g g' : start_graph d = Ok g -> start_graph d' = Ok g' -> dkeys (nodes g') = dkeys (nodes g) -> g' = on_nodes (nodes g') g.
Proof.
  intros S S' Ke. destruct (start_only d g S) as (h & O & Nn & C). destruct (start_only d' g' S') as (h' & O' & Nn' & C'). rewrite Nn, Nn' in Ke.
  assert (X := com_add_edges (nodes h) (nodes h') Ke (ordered_pairs (dkeys (nodes h))) h eq_refl). destruct X as [_ X]. rewrite <- (only_same h h' O O') in X.
  change (create_all_possible_edges h) with (add_edges (ordered_pairs (dkeys (nodes h))) h) in C. change (create_all_possible_edges h') with (add_edges (ordered_pairs (dkeys (nodes h'))) h') in C'.
  rewrite C in X. rewrite Ke in C'. rewrite X in C'. cbn [fst snd] in C'. injection C' as E. rewrite Nn'. symmetry. exact E.
Qed.
Lemma values_here (n : dict id node) g x : nodes g = n -> match dget n x with Some nd => n_values nd | None => [] end = values_of g x.
Proof. intros <-. reflexivity. Qed.

Lemma run_same fuel (R E : Prop) P P' d d' g0 g0' N N' l l' g r : start_graph d = Ok g0 -> start_graph d' = Ok g0' -> dkeys (nodes g0') = dkeys (nodes g0) ->
  same_answers (dkeys (nodes g0)) N N' (values_of g0) (values_of g0') -> (R -> same_regressions (dkeys (nodes g0)) N N' (values_of g0) (values_of g0')) -> (E -> same_effects (dkeys (nodes g0)) N N' (values_of g0) (values_of g0')) ->
  same_pipeline R E N N' l l' -> same_pools R E N N' (nodes g0) (nodes g0') P P' l ->
  execute_pipeline fuel P no_hooks l g0 = (g, r) -> nodes g = nodes g0 /\ execute_pipeline fuel P' no_hooks l' g0' = (on_nodes (nodes g0') g, r).
Proof.
  intros S S' Ke SA SR SE SP Po X.
  destruct (com_pipeline (nodes g0) (nodes g0') Ke N N' (values_of g0) (values_of g0') (fun x _ => values_here _ g0 x eq_refl) (fun x _ => values_here _ g0' x eq_refl) SA R E SR SE P P' fuel l l' SP Po g0 eq_refl) as [G1 G2].
  rewrite <- (start_same d d' g0 g0' S S' Ke), X in G2. rewrite X in G1. split; [exact G1|exact G2].
Qed.
Lemma schedule_same (R E : Prop) d d' g0 g0' N N' s s' dry g r : start_graph d = Ok g0 -> start_graph d' = Ok g0' -> dkeys (nodes g0') = dkeys (nodes g0) ->
  same_answers (dkeys (nodes g0)) N N' (values_of g0) (values_of g0') -> (R -> same_regressions (dkeys (nodes g0)) N N' (values_of g0) (values_of g0')) -> (E -> same_effects (dkeys (nodes g0)) N N' (values_of g0) (values_of g0')) ->
  same_step R E N N' s s' -> nodes g = nodes g0 -> par_exec no_hooks s dry g r -> nodes (fst r) = nodes g0 /\ par_exec no_hooks s' dry (on_nodes (nodes g0') g) (on_nodes (nodes g0') (fst r), snd r).
Proof.
  intros S S' Ke SA SR SE SS G X. split; [exact (par_nodes (nodes g0) (nodes g0') Ke dry s _ _ _ _ _ _ _ X G)|].
  exact (exec_same (nodes g0) (nodes g0') Ke N N' (values_of g0) (values_of g0') (fun x _ => values_here _ g0 x eq_refl) (fun x _ => values_here _ g0' x eq_refl) SA R E SR SE s s' dry g r SS G X).
Qed.

(* ---- a pool for the other data ---- *)
Definition nodes_dec (a b : dict id node) : {a = b} + {a <> b}.
Proof. apply list_eq_dec. intros [k x] [k' x']. destruct (string_dec k k') as [->|H]; [|right; congruence]. destruct x as [m v], x' as [m' v']. destruct (string_dec m m') as [->|H]; [|right; congruence]. destruct (list_eq_dec Z.eq_dec v v') as [->|H]; [left; reflexivity|right; congruence]. Defined.
Definition moved (n n' : dict id node) (P : runner) : runner := fun s dry g' =>
  if nodes_dec (nodes g') n' then (on_nodes n' (fst (P s dry (on_nodes n g'))), snd (P s dry (on_nodes n g'))) else batch_runner no_hooks s dry g'.
Lemma on_on n n' g : nodes g = n -> on_nodes n (on_nodes n' g) = g.
Proof. intros <-. destruct g; reflexivity. Qed.
Lemma step_is (R E : Prop) N s s' : same_step R E N N s s' -> s' = s.
Proof. intros [A B _ C D F G H]. destruct s, s'. cbn in *. subst. destruct H; reflexivity. Qed.
Lemma step_self (R E : Prop) N l p s : same_pipeline R E N N l l -> In p l -> In s (steps_of p) -> same_step R E N N s s.
Proof.
  intros F Hp Hs. assert (X : exists p', In p' l /\ same_pstep R E N N p p').
  { clear Hs. unfold same_pipeline in F. revert F. generalize l at 2 3. intros l2 F. induction F as [|a b l l2 Sab _ IH]; [destruct Hp|]. destruct Hp as [->|Hp]; [exists b; split; [left; reflexivity|exact Sab]|]. destruct (IH Hp) as (q & I1 & I2). exists q. split; [right; exact I1|exact I2]. }
  destruct X as (p' & _ & X). assert (Y : exists s', same_step R E N N s s').
  { destruct X as [a b S|nm ex a b S|nm a b S]; cbn [steps_of] in Hs; [destruct Hs as [<-|[]]; eauto| |]; (clear - S Hs; induction S as [|x y a b Sxy _ IH]; [destruct Hs|]; destruct Hs as [->|Hs]; [eauto|exact (IH Hs)]). }
  destruct Y as (s' & Y). rewrite (step_is R E N s s' Y) in Y. exact Y.
Qed.
Lemma moved_pools (R E : Prop) d d' g0 g0' N l P : start_graph d = Ok g0 -> start_graph d' = Ok g0' -> dkeys (nodes g0') = dkeys (nodes g0) ->
  same_answers (dkeys (nodes g0)) N N (values_of g0) (values_of g0') -> (R -> same_regressions (dkeys (nodes g0)) N N (values_of g0) (values_of g0')) -> (E -> same_effects (dkeys (nodes g0)) N N (values_of g0) (values_of g0')) ->
  same_pipeline R E N N l l -> pools P l -> let P' := moved (nodes g0) (nodes g0') P in pools P' l /\ same_pools R E N N (nodes g0) (nodes g0') P P' l.
Proof.
  intros S S' Ke SA SR SE SP Po P'. split.
  - intros p s dry g Hp Hs Pa. unfold P', moved. destruct (nodes_dec (nodes g) (nodes g0')) as [Q|Q]; [|apply batch_pool].
    destruct (schedule_same R E d d' g0 g0' N N s s dry (on_nodes (nodes g0) g) _ S S' Ke SA SR SE (step_self R E N l p s SP Hp Hs) eq_refl (Po p s dry _ Hp Hs Pa)) as [_ X].
    assert (Z : on_nodes (nodes g0') (on_nodes (nodes g0) g) = g) by (rewrite <- Q; destruct g; reflexivity). rewrite Z in X. exact X.
  - intros p s s' dry g Hp Hs Pa Ss G. rewrite (step_is R E N s s' Ss). split.
    + apply (schedule_same R E d d' g0 g0' N N s s dry g _ S S' Ke SA SR SE (step_self R E N l p s SP Hp Hs) G (Po p s dry g Hp Hs Pa)).
    + unfold P', moved. destruct (nodes_dec _ _) as [Q|Q]; [|exfalso; apply Q; reflexivity]. rewrite (on_on (nodes g0) (nodes g0') g G). reflexivity.
Qed.
Lemma no_pools (R E : Prop) N N' n n' P P' l : sequential l -> same_pools R E N N' n n' P P' l.
Proof. intros Q p s s' dry g Hp Hs Pa. rewrite (Q p s Hp Hs) in Pa. discriminate. Qed.

(* ---- the last step of PC ---- *)
Lemma effect_edges fuel P N g g' r : WF g -> run_pstep fuel P no_hooks (PStep (effect_step N)) g = (g', r) -> same_edges g g'.
Proof.
  intros W E. cbn [run_pstep] in E. unfold bind, log_step in E. destruct (execute_step P no_hooks (effect_step N) false g) as [g2 [a|e]] eqn:Es.
  - assert (X := effect_run N P g g2 (Ok a) W Es). destruct X as (W2 & _ & En & _). destruct (effects_main N P g g2 (Ok a) W Es) as (_ & L & _).
    assert (W3 := WF_ahist g2 (ahist g2 ++ [HStep (s_name (effect_step N)) (fst a) (snd a) []]) W2). destruct (purge_ok _ W3) as (g3 & R3 & _ & _ & _ & _ & _ & G3 & _). assert (L3 := purge_dee _ g3 W3 R3).
    rewrite R3 in E. injection E as <- <-.
    assert (L4 : forall x y, directed_edge_exists g3 x y = directed_edge_exists g2 x y) by (intros x y; rewrite L3; reflexivity).
    intros u v. split; [rewrite L4; apply L|]. intros Lv. assert (L5 : directed_edge_exists g2 u v = true) by (rewrite L; exact Lv). change (dget2 (edges g3) u v) with (eget g3 u v). rewrite G3. rewrite (dee_val g2 u v W2) in L5.
    change (eget (with_ahist g2 (ahist g2 ++ [HStep (s_name (effect_step N)) (fst a) (snd a) []])) u v) with (eget g2 u v). destruct (eget g2 u v) as [e|] eqn:Eg; [|discriminate L5]. destruct (e_del e); [discriminate L5|].
    specialize (En u v). rewrite !entry_eget in En. rewrite Eg in En. change (dget2 (edges g) u v) with (eget g u v). destruct (only_directed_edge_exists g u v); [|rewrite <- En; reflexivity]. destruct (eget g u v); cbn in En |- *; [|discriminate En]. injection En as ->. reflexivity.
  - assert (X := effect_run N P g g2 (Err e) W Es). cbn in X. subst g2. injection E as <- <-. intros u v. split; [reflexivity|intros _; reflexivity].
Qed.
Lemma edges_trans a b c : same_edges a b -> same_edges b c -> same_edges a c.
Proof. intros H1 H2 u v. destruct (H1 u v) as [A1 B1], (H2 u v) as [A2 B2]. split; [congruence|]. intros L. rewrite B2, B1; [reflexivity|exact L|rewrite A1; exact L]. Qed.
Lemma edges_sym a b : same_edges a b -> same_edges b a.
Proof. intros H u v. destruct (H u v) as [A B]. split; [congruence|]. intros L. symmetry. apply B. congruence. Qed.
Lemma on_edges n' g : dkeys n' = dkeys (nodes g) -> same_edges g (on_nodes n' g).
Proof. intros K u v. split; [apply (q_dir (nodes g) n' K g eq_refl)|reflexivity]. Qed.
Lemma WF_on n' g : dkeys n' = dkeys (nodes g) -> WF g -> WF (on_nodes n' g).
Proof.
  intros K [A B C D E F G H I J]. assert (M := dmem_same (nodes g) n' K). split; unfold on_nodes; cbn [nodes edges redges dedges]; auto.
  - rewrite K. exact A.
  - intros u v e X. rewrite !M. apply (H u v e X).
  - intros u v e X. rewrite !M. apply (I u v e X).
  - intros u X. rewrite M. apply (J u X).
Qed.
Lemma with_effects fuel P N l g0 g r : WF (fst (execute_pipeline fuel P no_hooks l g0)) -> execute_pipeline fuel P no_hooks (l ++ [PStep (effect_step N)]) g0 = (g, r) ->
  same_edges (fst (execute_pipeline fuel P no_hooks l g0)) g.
Proof.
  intros W1 E. rewrite pipeline_app in E. destruct (execute_pipeline fuel P no_hooks l g0) as [g1 [[]|e]]; cbn [fst] in *.
  - change (execute_pipeline fuel P no_hooks [PStep (effect_step N)]) with (run_pstep fuel P no_hooks (PStep (effect_step N)) ;;; ret tt) in E. unfold bind at 1 in E.
    destruct (run_pstep fuel P no_hooks (PStep (effect_step N)) g1) as [g2 r2] eqn:E2. apply (effect_edges fuel P N g1 g2 r2 W1) in E2. destruct r2 as [[]|e]; injection E as <- <-; exact E2.
  - injection E as <- <-. intros u v. split; [reflexivity|intros _; reflexivity].
Qed.
Lemma run_wf fuel P l g0 : WF g0 -> (forall p s, In p l -> In s (steps_of p) -> par_ok P s) -> WF (fst (execute_pipeline fuel P no_hooks l g0)).
Proof.
  intros W F. assert (K : keeps WF anyE (execute_pipeline fuel P no_hooks l) (fun _ _ => True)).
  { apply keeps_pipeline. apply Forall_forall. intros p Hp. apply pstep_wf_par. apply Forall_forall. intros s. apply F, Hp. }
  apply (K g0 W).
Qed.
