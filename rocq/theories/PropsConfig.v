(* Options of pipeline steps, and dumping and loading of pipelines (C70, C71). *)
From Coq Require Import QArith.
From Verif Require Import Base PyDict PyDictFacts PyStr Json Variables VariableSpec VariableFacts Config ConfigSpec ConfigFacts ConfigClasses.
Close Scope Q_scope.
Open Scope string_scope.
Open Scope list_scope.

(* a given argument is used, and otherwise the default of the class *)
Definition chosen (given default read : pv) : Prop := (used given /\ read = given) \/ (~ used given /\ read = default).
Lemma truthy_used p : truthy p = true <-> used p.
Proof.
  destruct p as [|b|z|f|s|n|s|j]; cbn [truthy used].
  - split; [discriminate|intros []].
  - tauto.
  - destruct (Z.eqb_spec z 0); cbn [negb]; split; congruence.
  - destruct f as [q| |]; [|tauto|tauto]. destruct (Qeq_bool q 0) eqn:E; cbn [negb]; split; intros H; try discriminate; try reflexivity.
    + apply Qeq_bool_iff in E. contradiction.
    + intros Q. apply Qeq_bool_iff in Q. congruence.
  - destruct (eqb_spec s ""); cbn [negb]; split; congruence.
  - tauto.
  - destruct (eqb_spec s ""); cbn [negb]; split; congruence.
  - destruct j as [| | | | |[|x l]|[|x l]]; split; intros H; try reflexivity; try discriminate; try (split; discriminate); destruct H as [A B]; contradiction.
Qed.
Lemma if_truthy_chosen g d : chosen g d (if_truthy g d).
Proof. unfold chosen, if_truthy. rewrite <- truthy_used. destruct (truthy g); [left|right]; split; auto; discriminate. Qed.
Theorem C70_options_partial : forall lookup cls a d settable s, lookup cls = Some (CStep d settable) -> init_step lookup cls a = Ok s ->
  s_class s = cls /\ chosen (a_threshold a) (s_threshold d) (s_threshold s) /\ chosen (a_chunk a) (s_chunk d) (s_chunk s) /\ chosen (a_parallel a) (s_parallel d) (s_parallel s) /\
  chosen (a_display a) (s_display d) (s_display s) /\ chosen (a_sync a) (s_sync d) (s_sync s) /\
  s_gen s = match a_gen a with Some g => Some g | None => s_gen d end /\ s_needs s = s_needs d /\
  (settable = false -> s_extra s = s_extra d) /\
  (settable = true -> NoDup (map fst (s_extra d)) -> map fst (s_extra s) = map fst (s_extra d) /\
     forall k v, In (k, v) (s_extra d) -> dget (s_extra s) k = Some (match dget (a_kwargs a) k with Some w => w | None => v end)).
Proof.
  intros lookup cls a d settable s L H. unfold init_step in H. rewrite L in H. injection H as <-. cbn [s_class s_threshold s_chunk s_parallel s_display s_sync s_gen s_needs s_extra].
  split; [reflexivity|]. do 5 (split; [apply if_truthy_chosen|]). split; [reflexivity|]. split; [reflexivity|]. split; [intros ->; reflexivity|]. intros -> ND. rewrite map_map. split; [reflexivity|].
  intros k v I. apply NoDup_dget; [unfold dkeys; rewrite map_map; exact ND|]. apply in_map_iff. exists (k, v). auto.
Qed.
Print Assumptions C70_options_partial.
Example C70_nonvacuous : exists s, init_step causy_classes m_partial (mkArgs None (PFloat (FNum (5 # 100))) (PInt 50000) (PBool true) PNone PNone []) = Ok s /\
  s_threshold s = PFloat (FNum (5 # 100)) /\ s_parallel s = PBool true /\ s_chunk s = PInt 50000 /\ s_gen s = Some (combinations_of 3 3).
Proof. eexists. split; [reflexivity|]. vm_compute. auto. Qed.

(* the full claim is false: values that count as false in Python, and options the constructor does not know, are ignored *)
Theorem C70_zero_refuted : exists s, init_step causy_classes m_partial (mkArgs None (PFloat (FNum 0)) PNone PNone PNone PNone []) = Ok s /\ s_threshold s = PFloat (FNum (1 # 100)).
Proof. eexists. split; reflexivity. Qed.
Theorem C70_parallel_refuted : exists s, init_step causy_classes m_placeholder (mkArgs None PNone PNone (PBool false) PNone PNone []) = Ok s /\ s_parallel s = PBool true.
Proof. eexists. split; reflexivity. Qed.
(* no argument makes the collider test keep the last of two conflicting orientations *)
Theorem C70_strategy_refuted : forall a s, init_step causy_classes m_collider a = Ok s -> dget (s_extra s) "conflict_resolution_strategy" = Some (PEnum "KEEP_FIRST").
Proof. intros a s H. unfold init_step in H. change (causy_classes m_collider) with (Some (CStep (defaults (Some (combinations_of 2 2)) 1 true [("conflict_resolution_strategy", PEnum "KEEP_FIRST")]) false)) in H. injection H as <-. reflexivity. Qed.
Print Assumptions C70_strategy_refuted.
Example C70_strategy_nonvacuous : exists s, init_step causy_classes m_collider (mkArgs None PNone PNone PNone PNone PNone [("conflict_resolution_strategy", PEnum "KEEP_LAST")]) = Ok s.
Proof. eexists. reflexivity. Qed.

(* the classes of causy meet the conditions of the theorems below *)
Lemma causy_good : good_classes causy_classes.
Proof.
  assert (S : forall a b, built_settings causy_classes (between a b)).
  { intros a b. split; [exists (Some (PInt 2)), (Some (PInt 0)); reflexivity|]. split; exact Logic.I. }
  assert (GA : forall a b, built_gen causy_classes (combinations_of a b)).
  { intros a b. apply (bg_init causy_classes m_all (Some (between a b)) PNone PNone PNone None NoGen); try exact Logic.I; try (intros c E; discriminate); [intros c E; injection E as <-; apply S|left; reflexivity|reflexivity]. }
  assert (GN : forall a b c d, built_gen causy_classes (neighbours_of c d a b)).
  { intros a b c d. apply (bg_init causy_classes m_neighbours (Some (between a b)) (PBool c) PNone (PBool d) None NoGen); try exact Logic.I; try (intros x E; discriminate); [intros x E; injection E as <-; apply S|left; reflexivity|reflexivity]. }
  assert (GB : built_gen causy_classes (Gen m_between None PNone PNone PNone (Some (PInt 100)) NoGen)).
  { apply (bg_init causy_classes m_between None PNone PNone PNone None NoGen); try exact Logic.I; try (intros x E; discriminate); [left; reflexivity|reflexivity]. }
  assert (GS : forall g chunk needs, (forall g', g = Some g' -> built_gen causy_classes g') -> good_class causy_classes (CStep (defaults g chunk needs []) false)).
  { intros g chunk needs Hg. cbn. repeat (split; [exact Logic.I||exact Hg|]). split; [constructor|]. intros k v []. }
  assert (GP : good_class causy_classes pairs) by (apply GS; intros g E; injection E as <-; apply GA).
  intros n c H. unfold causy_classes in H. apply dget_In in H. cbn [In causy_table] in H.
  repeat (destruct H as [H|H]; [injection H as _ <-|]); try exact GP; try exact Logic.I; try (apply GS; intros g E; injection E as <-; auto; fail); try (cbn; tauto).
  - cbn. split; [intros g E; injection E as <-; apply GA|]. repeat (split; [exact Logic.I|]). split; [repeat constructor; intros []|]. intros k v [E|[]]. injection E as <- <-. split; [vm_compute; intuition discriminate|right; split; reflexivity].
  - cbn. split; [intros g E; discriminate|]. repeat (split; [exact Logic.I|]). split.
    { repeat constructor; vm_compute; intuition discriminate. }
    intros k v H. repeat (destruct H as [H|H]; [injection H as <- <-; split; [vm_compute; intuition discriminate|left; exact Logic.I]|]). destruct H.
Qed.

(* exactly what comes back of a pipeline that is dumped and loaded *)
Theorem C71_reload : forall lookup steps, good_classes lookup -> (forall x, In x steps -> built_item lookup x) ->
  load_items lookup (map dump_item steps) = if existsb item_enum steps then Err TypeError else Ok (map (reloaded lookup) steps).
Proof. intros lookup steps G B. apply items_again; assumption. Qed.
Print Assumptions C71_reload.
(* a pipeline comes back as it was exactly if it is portable *)
Theorem C71_roundtrip_partial : forall lookup steps, good_classes lookup -> (forall x, In x steps -> built_item lookup x) ->
  (load_items lookup (map dump_item steps) = Ok steps <-> forall x, In x steps -> portable lookup x).
Proof. intros lookup steps G B. apply roundtrip_exact; assumption. Qed.
Print Assumptions C71_roundtrip_partial.
Theorem C71_algorithm : forall lookup coerce a, good_classes lookup -> (forall x, In x (sp_steps a) -> built_item lookup x) -> (forall v, In v (sp_vars a) -> valid_variable coerce v) ->
  load_spec lookup coerce (dump_spec a) = if existsb item_enum (sp_steps a) then Err TypeError
    else Ok (mkSpec (sp_name a) (map (reloaded lookup) (sp_steps a)) (map (fun e => ERaw (dump_type e)) (sp_types a)) (sp_vars a)).
Proof. intros lookup coerce a G B V. apply spec_again; assumption. Qed.
Print Assumptions C71_algorithm.

Lemma built_make c a i : (forall g, a_gen a = Some g -> built_gen causy_classes g) -> plain_value (a_threshold a) -> plain_value (a_chunk a) -> plain_value (a_parallel a) -> plain_value (a_display a) -> plain_value (a_sync a) ->
  (forall k v, In (k, v) (a_kwargs a) -> plain_value v) -> make_item c a = Ok i -> built_item causy_classes i.
Proof.
  intros H1 H2 H3 H4 H5 H6 H7 E. unfold make_item in E. destruct (init_step causy_classes c a) as [s|] eqn:Q; [|discriminate]. injection E as <-. eapply bi_step; eauto.
Qed.
Lemma built_all (f : string -> step_args) l is : (forall d, a_gen (f d) = None /\ plain_value (a_threshold (f d)) /\ plain_value (a_chunk (f d)) /\ plain_value (a_parallel (f d)) /\ plain_value (a_display (f d)) /\ plain_value (a_sync (f d)) /\ a_kwargs (f d) = []) ->
  all_res (fun p => make_item (fst p) (f (snd p))) l = Ok is -> forall x, In x is -> built_item causy_classes x.
Proof.
  intros F. revert is; induction l as [|p l IH]; intros is H x I; cbn [all_res] in H; [injection H as <-; destruct I|]. destruct (make_item (fst p) (f (snd p))) as [i|] eqn:E; [|discriminate]. cbn [rbind] in H.
  destruct (all_res _ l) as [r|] eqn:R; [|discriminate]. injection H as <-. destruct I as [<-|I]; [|apply (IH r eq_refl x I)]. destruct (F (snd p)) as (H1 & H2 & H3 & H4 & H5 & H6 & H7).
  eapply built_make; [| | | | | | |exact E]; try assumption; [intros g G; congruence|intros k v K; rewrite H7 in K; destruct K].
Qed.
Lemma named_plain d : a_gen (named d) = None /\ plain_value (a_threshold (named d)) /\ plain_value (a_chunk (named d)) /\ plain_value (a_parallel (named d)) /\ plain_value (a_display (named d)) /\ plain_value (a_sync (named d)) /\ a_kwargs (named d) = [].
Proof. cbn. tauto. Qed.
Lemma threshold_plain d : a_gen (at_threshold d) = None /\ plain_value (a_threshold (at_threshold d)) /\ plain_value (a_chunk (at_threshold d)) /\ plain_value (a_parallel (at_threshold d)) /\ plain_value (a_display (at_threshold d)) /\ plain_value (a_sync (at_threshold d)) /\ a_kwargs (at_threshold d) = [].
Proof. cbn. tauto. Qed.
Lemma built_named c d i : make_item c (named d) = Ok i -> built_item causy_classes i.
Proof. intros E. eapply built_make; [| | | | | | |exact E]; cbn; try exact Logic.I; [discriminate|intros k v []]. Qed.
Lemma pc_tests_built t : pc_tests = Ok t -> forall x, In x t -> built_item causy_classes x.
Proof.
  unfold pc_tests. intros H. apply bind_ok in H. destruct H as (p & Hp & H). apply bind_ok in H. destruct H as (l & Hl & H). injection H as <-. intros x [<-|I]; [apply (built_named _ _ _ Hp)|apply (built_all at_threshold _ _ threshold_plain Hl x I)].
Qed.
Lemma pc_rules_built t : pc_rules = Ok t -> forall x, In x t -> built_item causy_classes x.
Proof.
  unfold pc_rules. intros H. apply bind_ok in H. destruct H as (p & Hp & H). apply bind_ok in H. destruct H as (l & Hl & H). apply bind_ok in H. destruct H as (i & Hi & H). injection H as <-. intros x [<-|[<-|[]]]; [apply (built_named _ _ _ Hp)|].
  apply (bi_logic causy_classes m_loop l (Some m_exit) (PStr "Orientation Rules Loop")); [apply (built_all named _ _ named_plain Hl)| |exact Logic.I|exact Hi]. intros c E. injection E as <-. reflexivity.
Qed.
Lemma pc_built : forall a, pc_spec = Ok a -> forall x, In x (sp_steps a) -> built_item causy_classes x.
Proof.
  intros a H. unfold pc_spec in H. apply bind_ok in H. destruct H as (t & Ht & H). apply bind_ok in H. destruct H as (r & Hr & H). apply bind_ok in H. destruct H as (e & He & H). injection H as <-. cbn [sp_steps].
  intros x I. apply in_app_or in I. destruct I as [I|I]; [apply (pc_tests_built t Ht x I)|]. apply in_app_or in I. destruct I as [I|[<-|[]]]; [apply (pc_rules_built r Hr x I)|apply (built_named _ _ _ He)].
Qed.

(* the tests of PC and the loop of its rules come back as they were *)
Example C71_nonvacuous : exists t r c l, pc_tests = Ok t /\ pc_rules = Ok r /\ r = [c; l] /\ List.length t = 4 /\ (forall x, In x (t ++ [l]) -> built_item causy_classes x) /\
  load_items causy_classes (map dump_item (t ++ [l])) = Ok (t ++ [l]).
Proof.
  destruct pc_tests as [t|] eqn:T; [|discriminate]. destruct pc_rules as [r|] eqn:R; [|discriminate]. assert (BT := pc_tests_built t T). assert (BR := pc_rules_built r R).
  vm_compute in T. injection T as <-. vm_compute in R. injection R as <-. eexists. eexists. eexists. eexists. split; [reflexivity|]. split; [reflexivity|]. split; [reflexivity|]. split; [reflexivity|]. split.
  - intros x I. apply in_app_or in I. destruct I as [I|[<-|[]]]; [apply BT, I|apply BR; right; left; reflexivity].
  - vm_compute. reflexivity.
Qed.
(* a parallel step with a sampled generator (algorithms/pc.py:160-179) comes back as it was *)
Example C71_sample_nonvacuous : exists g s, init_gen causy_classes m_sample None (PBool false) (PRef "every_nth_sample") PNone None (ObjGen (neighbours_of false true 4 0)) = Ok g /\
  init_step causy_classes m_matrix (mkArgs (Some g) (PRef "threshold") (PInt 5000) (PBool true) (PStr "Sampled") PNone []) = Ok s /\
  load_items causy_classes [dump_item (IStep s)] = Ok [IStep s].
Proof. eexists. eexists. split; [reflexivity|]. split; [reflexivity|]. vm_compute. reflexivity. Qed.

(* no built-in PC pipeline can be loaded from its dump: the collider test holds a member of an Enum *)
Theorem C71_pc_refuted : forall coerce a, pc_spec = Ok a -> coerce TyFloat (SFloat (FNum (5 # 100))) = Ok (SFloat (FNum (5 # 100))) -> load_spec causy_classes coerce (dump_spec a) = Err TypeError.
Proof.
  intros coerce a H C. assert (B := pc_built a H). assert (V : forall v, In v (sp_vars a) -> valid_variable coerce v).
  { unfold pc_spec in H. apply bind_ok in H. destruct H as (t & Ht & H). apply bind_ok in H. destruct H as (r & Hr & H). apply bind_ok in H. destruct H as (e & He & H). injection H as <-. cbn [sp_vars]. intros v [<-|[]]. split; [exact C|]. apply validate_ok. reflexivity. }
  rewrite (C71_algorithm _ _ _ causy_good B V). vm_compute in H. injection H as <-. reflexivity.
Qed.
Print Assumptions C71_pc_refuted.
Example C71_pc_nonvacuous : exists a, pc_spec = Ok a /\ List.length (sp_steps a) = 7.
Proof. eexists. split; reflexivity. Qed.
(* nor can any pipeline with a collider test *)
Theorem C71_collider_refuted : forall steps x, (forall y, In y steps -> built_item causy_classes y) -> In (IStep x) steps -> s_class x = m_collider -> load_items causy_classes (map dump_item steps) = Err TypeError.
Proof.
  intros steps x B I Cx. rewrite (C71_reload _ _ causy_good B). assert (E : item_enum (IStep x) = true).
  { assert (Bx := B _ I). inversion Bx as [cls a s Bg P1 P2 P3 P4 P5 PK E Es|cls st exit display i H1 H2 H3 E Es]; subst; [|unfold init_logic in E; destruct (causy_classes cls) as [[]|]; discriminate].
    assert (cls = m_collider).
    { rewrite <- Cx. clear -E. unfold init_step in E. destruct (causy_classes cls) as [[]|]; try discriminate. injection E as <-. reflexivity. }
    subst cls. unfold init_step in E. change (causy_classes m_collider) with (Some (CStep (defaults (Some (combinations_of 2 2)) 1 true [("conflict_resolution_strategy", PEnum "KEEP_FIRST")]) false)) in E. injection E as <-. reflexivity. }
  assert (X : existsb item_enum steps = true) by (apply existsb_exists; eauto). rewrite X. reflexivity.
Qed.
(* the chunk size of a generator is lost *)
Theorem C71_chunk_size_refuted : exists g s s', init_gen causy_classes m_between None PNone PNone PNone (Some (PInt 5)) NoGen = Ok g /\
  init_step causy_classes m_effects (mkArgs (Some g) PNone PNone PNone PNone PNone []) = Ok s /\ load_items causy_classes [dump_item (IStep s)] = Ok [IStep s'] /\ s_gen s <> s_gen s'.
Proof. eexists. eexists. eexists. split; [reflexivity|]. split; [reflexivity|]. split; [vm_compute; reflexivity|]. discriminate. Qed.
(* no loaded algorithm with an edge type can be made into a model *)
Theorem C71_types_refuted : forall lookup coerce j a, load_spec lookup coerce j = Ok a -> sp_types a <> [] -> factory_types a = Err AttributeError.
Proof.
  intros lookup coerce j a H N. unfold load_spec in H. destruct j as [| | | | | |l]; try discriminate. destruct (dget l "pipeline_steps") as [[| | | | |js|]|]; try discriminate.
  destruct (load_items lookup js) as [st|]; [|discriminate]. cbn [rbind] in H. destruct (match dget l "variables" with None | Some JNull => _ | Some (JList vs) => _ | Some _ => _ end) as [vs|]; [|discriminate]. cbn [rbind] in H.
  destruct (dget l "name") as [[| | | |n| |]|]; try discriminate. destruct (dget l "edge_types") as [[| | | | |es|]|]; try discriminate. injection H as <-. cbn [sp_types] in N.
  assert (F := factory_raw es n). unfold factory_types in *. cbn [sp_types] in *. rewrite F. destruct es; [destruct N; reflexivity|reflexivity].
Qed.
Print Assumptions C71_types_refuted.
Example C71_types_nonvacuous : exists t a, pc_tests = Ok t /\
  load_spec causy_classes (fun _ v => Ok v) (dump_spec (mkSpec "tests" t [EObj "DIRECTED" true "-->"] [mkVar "threshold" TyFloat (SFloat (FNum (5 # 100))) None])) = Ok a /\ sp_types a <> [] /\ sp_steps a = t.
Proof. eexists. eexists. split; [vm_compute; reflexivity|]. split; [vm_compute; reflexivity|]. split; [discriminate|reflexivity]. Qed.

(* C71: what is written for a step shows each of its attributes *)
Theorem C71_written : forall s, exists l, dump_item (IStep s) = JDict l /\ dget l "name" = (if dmem (s_extra s) "name" then dget l "name" else Some (JStr (s_class s))) /\
  (forall k v, In (k, v) (attributes s) -> exists j, In (k, j) l /\ appears v j) /\
  (forall k j, In (k, j) l -> k = "name" \/ k = "generator" \/ In k (map fst (attributes s))).
Proof.
  intros s. cbn [dump_item]. unfold dump_step. eexists. split; [reflexivity|]. assert (TJ : forall v, appears v (to_json v)) by (intros []; cbn [to_json]; constructor; reflexivity). split; [|split].
  - destruct (dmem (s_extra s) "name") eqn:D; [reflexivity|]. cbn [app dget]. rewrite !eqb_neq by discriminate. apply dmem_not_In in D. revert D. unfold dkeys. generalize (s_extra s). induction l as [|[k v] l IH]; intros D; cbn [map app dget fst snd]; [rewrite eqb_refl; reflexivity|].
    rewrite eqb_neq by (intros E; apply D; left; cbn; congruence). apply IH. intros I. apply D. right. exact I.
  - intros k v I. exists (to_json v). split; [|apply TJ]. unfold attributes in I. apply in_app_or in I. apply in_or_app. destruct I as [I|I].
    + left. cbn [In] in I |- *. repeat (destruct I as [I|I]; [injection I as <- <-; auto 12|]). destruct I.
    + right. apply in_or_app. left. apply in_map_iff. exists (k, v). auto.
  - intros k j I. apply in_app_or in I. destruct I as [I|I].
    + unfold attributes. rewrite map_app. cbn [In map fst] in *. repeat (destruct I as [I|I]; [injection I as <- _; cbn; auto 14|]). destruct I.
    + apply in_app_or in I. destruct I as [I|[I|[]]]; [|injection I as <- _; auto]. apply in_map_iff in I. destruct I as ([k' v] & E & I). injection E as <- _. right. right. unfold attributes. rewrite map_app. apply in_or_app. right. apply (in_map fst) in I. exact I.
Qed.
Print Assumptions C71_written.
(* non-vacuity: the strategy of the collider test appears as its text *)
Example C71_written_nonvacuous : exists s, init_step causy_classes m_collider (mkArgs None PNone PNone PNone PNone PNone []) = Ok s /\ In ("conflict_resolution_strategy", PEnum "KEEP_FIRST") (attributes s).
Proof. eexists. split; [reflexivity|]. vm_compute. auto 10. Qed.

(* C71: a definition with a key that no option is called raises a TypeError, for generators and for logic steps *)
Lemma only_keys_no ks l k j : In (k, j) l -> k <> "name" -> ~ In k ks -> only_keys ks l = false.
Proof.
  intros I N1 N2. destruct (only_keys ks l) eqn:E; [|reflexivity]. unfold only_keys in E. rewrite forallb_forall in E. apply E in I. apply existsb_exists in I. destruct I as (k' & I & Q). cbn [fst] in Q. destruct (eqb_spec k k') as [->|]; [|discriminate].
  destruct I as [I|I]; [congruence|contradiction].
Qed.
Theorem C71_unexpected : forall lookup l n k j, dget l "name" = Some (JStr n) -> In (k, j) l ->
  (forall kd a b c, lookup n = Some (CGen kd a b c) -> ~ In k generator_keys -> load_gen lookup (JDict l) = Err TypeError) /\
  (lookup n = Some CLogic -> ~ In k logic_keys -> load_item lookup (JDict l) = Err TypeError).
Proof.
  intros lookup l n k j Hn I. split.
  - intros kd a b c L N. cbn [load_gen]. unfold class_name. rewrite Hn. cbn [rbind]. rewrite L.
    rewrite (only_keys_no _ l k j I); [reflexivity|intros ->; apply N; left; reflexivity|]. intros J. apply N. unfold generator_keys. apply in_app_or in J. destruct J as [J|J]; [right; cbn [In] in *; tauto|]. destruct kd; cbn [In] in *; tauto.
  - intros L N. cbn [load_item]. unfold class_name. rewrite Hn. cbn [rbind]. rewrite L. rewrite (only_keys_no _ l k j I); [reflexivity|intros ->; apply N; left; reflexivity|]. intros J. apply N. right. exact J.
Qed.
Print Assumptions C71_unexpected.
Example C71_unexpected_nonvacuous : load_gen causy_classes (JDict [("name", JStr m_sample); ("every", JInt 3)]) = Err TypeError /\ load_item causy_classes (JDict [("name", JStr m_loop); ("pipeline_steps", JList []); ("until", JNull)]) = Err TypeError /\
  exists kd a b c, causy_classes m_sample = Some (CGen kd a b c) /\ causy_classes m_loop = Some CLogic /\ ~ In "every" generator_keys /\ ~ In "until" logic_keys.
Proof. split; [reflexivity|]. split; [reflexivity|]. do 4 eexists. split; [reflexivity|]. split; [reflexivity|]. split; intros I; vm_compute in I; repeat (destruct I as [I|I]; [discriminate|]); destruct I. Qed.
