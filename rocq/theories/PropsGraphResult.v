(* Property C84 (saved results of runs). *)
From Coq Require Import Ascii.
From Verif Require Import Base PyDict PyDictFacts Graph GraphSpec GraphFacts GraphInv GraphInv2 GraphInv3 GraphQ Actions ActionSpec ActionFacts ActionMain Generators Rules IndepTests
  Pipeline Parallel PipeSpec PipeFacts PipeMain RuleFacts PipeMain2 Construct ConstructSpec ConstructFacts SkelStart Toy PropsPipe
  GraphCheck SkelSpec Dag Ideal OrientSpec OrientTop PropsCpdag TypeSpec TypeFacts PropsTypes PropsListing
  GraphMain PropsGraph JsonText JsonTextSpec JsonTextFacts JsonTextMain PropsJsonText ResultText ResultTextSpec ResultTextFacts PropsResult GraphResult GraphResultSpec GraphResultFacts.
Open Scope string_scope.
Open Scope list_scope.

Section Files.
Context {F : Type}.
Variable num : Z -> Z + F.
Variable other_type : string -> bool * ustr.
Variable duration : list nat -> option F.
Variables (float_text : F -> ustr) (read_float : ustr -> F) (is_date : ustr -> bool).
(* the result of a graph, written to a file and read back *)
Definition saved_and_loaded (x : extras F) (g : graph) : res (rresult F (jval F)) := rbind (result_of num other_type duration x g) (save_and_load float_text read_float is_date).
(* the file shows the graph g *)
Record file_shows (r : rresult F (jval F)) (g : graph) : Prop := {
  fs_nodes : shown_nodes r = map (fun p => (lit (fst p), lit (n_name (snd p)))) (nodes g);
  fs_directed : forall u v, shown r u v "DIRECTED" <-> one_way g u v;
  fs_undirected : forall u v, shown r u v "UNDIRECTED" <-> two_way g u v;
  fs_no_other : forall e, In e (rr_edges r) -> exists u v, ends e = (lit u, lit v) /\ (shown r u v "DIRECTED" \/ shown r u v "UNDIRECTED");
  fs_once : NoDup (map ends (rr_edges r));
  fs_numbers : forall u v k n, shown_number r u v k n <-> directed_edge_exists g u v = true /\ exists m z, edge_value g u v = Ok (Some m) /\ dget m k = Some (MNum z) /\ n = num z;
  fs_history : Forall2 step_shown (ahist g) (rr_history r) }.

Hypothesis floats_back : forall f, float_ok float_text read_float f.

Definition wresult (x : extras F) (vs : option (list (ustr * jval F))) (g : graph) (es : list edge) : rresult F (jval F) :=
  mkRResult (x_ref x) (x_reftype x) (x_created x) (map (fun p => (lit (fst p), node_ref g (fst p))) (nodes g)) (map (wedge num other_type g) es)
    (numbered (fun k h => wstep num duration g [k] h) 0 (ahist g)) vs (x_data_hash x) (x_alg_hash x) (x_vars_hash x).
Lemma types_two g u v e : WF g -> types_match g -> directed_edge_exists g u v = true -> get_edge g u v = Ok e ->
  (e_type e = TDirected /\ one_way g u v) \/ (e_type e = TUndirected /\ two_way g u v).
Proof.
  intros W T D E. destruct (T u v) as [T1 T2]. unfold edge_of_type_exists in T1, T2. rewrite D in T1, T2. cbn [negb] in T1, T2. unfold get_edge in E. destruct (dget2 (edges g) u v) as [e'|]; [|discriminate E]. injection E as ->.
  destruct (directed_edge_exists g v u) eqn:B.
  - right. assert (X : two_way g u v) by (unfold two_way, undirected_edge_exists; rewrite D, B; reflexivity). split; [|exact X]. apply T2 in X. destruct (e_type e); cbn in X; try discriminate X; reflexivity.
  - left. assert (X : one_way g u v) by (unfold one_way, only_directed_edge_exists; rewrite D, B; reflexivity). split; [|exact X]. apply T1 in X. destruct (e_type e); cbn in X; try discriminate X; reflexivity.
Qed.
Lemma meta_like_basic g m : basic_value m -> meta_like (wmval num g m).
Proof.
  destruct m; cbn [basic_value wmval]; intros H; try destruct H; apply ml_basic; try constructor. unfold wnum. destruct (num bits); constructor.
Qed.
Lemma lit_pair u v u' v' : lit u = lit u' -> lit v = lit v' -> (u, v) = (u', v').
Proof. intros A B. apply lit_inj in A. apply lit_inj in B. congruence. Qed.
Lemma dget_in (m : meta) k x : NoDup (dkeys m) -> (dget m k = Some x <-> In (k, x) m).
Proof. intros N. split; [apply dget_In|apply NoDup_dget, N]. Qed.
Lemma graph_loaded x g : minv g -> types_match g -> extras_sound float_text read_float is_date x -> exists r, saved_and_loaded x g = Ok r /\ file_shows r g.
Proof.
  intros (W & M & L) T (X1 & X2 & X3 & X4 & X5 & X6 & vs & V1 & V2). destruct (retrieve_wf g W) as (es & R & ND & Ins & Alls).
  assert (Two : forall e, In e es -> directed_edge_exists g (e_u e) (e_v e) = true /\ get_edge g (e_u e) (e_v e) = Ok e /\ ((e_type e = TDirected /\ one_way g (e_u e) (e_v e)) \/ (e_type e = TUndirected /\ two_way g (e_u e) (e_v e)))).
  { intros e He. apply Ins in He. destruct He as [D E]. split; [exact D|]. split; [exact E|]. exact (types_two g _ _ e W T D E). }
  assert (Met : forall e, In e es -> exists d, e_meta e = Some d /\ basic_meta d).
  { intros e He. apply Ins in He. destruct He as [_ E]. unfold get_edge in E. destruct (dget2 (edges g) (e_u e) (e_v e)) as [e'|] eqn:Q; [|discriminate E]. injection E as ->. exact (M _ _ e Q). }
  exists (wresult x vs g es). split.
  - unfold saved_and_loaded, result_of. rewrite R. cbn [rbind]. apply C75_loaded.
    + repeat (split; [reflexivity|]). split; [apply edges_w|]. split; [|split; [exact V1|repeat split]]. cbn [rr_history]. apply numbered_2. intros k h _. apply step_w.
    + split; [exact X1|]. split; [exact X2|]. split; [cbn [rr_nodes wresult]; apply (nodup_lit (nodes g) (fun p => node_ref g (fst p))); exact (wf_nodes _ W)|]. split; [cbn [rr_nodes wresult]; apply Forall_forall; intros q Q; apply in_map_iff in Q; destruct Q as (p & <- & _); split; [apply lit_sound|apply node_ref_s]|].
      split; [|split; [|repeat (split; [assumption|]); assumption]].
      * cbn [rr_edges wresult]. apply Forall_forall. intros q Q. apply in_map_iff in Q. destruct Q as (e & <- & He). split; [apply node_ref_s|]. split; [apply node_ref_s|]. destruct (Two e He) as (_ & _ & TY). destruct (Met e He) as (d & Ed & [Nd _]). unfold wedge. cbn [re_type re_meta].
        split; [destruct TY as [[-> _]|[-> _]]; apply lit_sound|]. split; [destruct TY as [[-> _]|[-> _]]; apply lit_sound|]. rewrite Ed. apply data_s; assumption.
      * cbn [rr_history wresult]. apply numbered_all. intros k h H. apply step_s; [exact other_type|exact floats_back|]. rewrite Forall_forall in L. apply L, H.
    + exact X3.
    + cbn [rr_edges wresult]. apply Forall_forall. intros q Q. apply in_map_iff in Q. destruct Q as (e & <- & He). destruct (Two e He) as (_ & _ & TY). unfold shipped_type, wedge. cbn [re_type]. destruct TY as [[-> _]|[-> _]]; cbn; tauto.
    + cbn [rr_edges wresult]. apply Forall_forall. intros q Q. apply in_map_iff in Q. destruct Q as (e & <- & He). destruct (Met e He) as (d & Ed & Nd & Bd). unfold wedge, has_metadata. cbn [re_meta]. rewrite Ed. eexists. split; [reflexivity|].
      unfold wmeta. apply Forall_forall. intros q Q. apply in_map_iff in Q. destruct Q as ([k v] & <- & Hq). cbn [fst snd]. apply meta_like_basic. apply (Bd k). apply dget_in; assumption.
  - assert (Sh : forall u v t, shown (wresult x vs g es) u v t <-> exists e, In e es /\ e_u e = u /\ e_v e = v /\ ry_name (type_of other_type (e_type e)) = lit t).
    { intros u v t. split.
      - intros (q & Q & U & Vv & Ty). cbn [rr_edges wresult] in Q. apply in_map_iff in Q. destruct Q as (e & <- & He). unfold wedge, node_ref in U, Vv, Ty. cbn [re_u re_v re_type rn_id] in U, Vv, Ty. apply lit_inj in U. apply lit_inj in Vv. exists e. auto.
      - intros (e & He & U & Vv & Ty). exists (wedge num other_type g e). split; [apply in_map, He|]. unfold wedge, node_ref. cbn [re_u re_v re_type rn_id]. rewrite U, Vv. auto. }
    assert (SD : forall u v, shown (wresult x vs g es) u v "DIRECTED" <-> one_way g u v).
    { intros u v. rewrite Sh. split.
      - intros (e & He & U & Vv & Ty). destruct (Two e He) as (_ & _ & [[_ O]|[E _]]); [rewrite U, Vv in O; exact O|]. rewrite E in Ty. vm_compute in Ty. discriminate Ty.
      - intros O. assert (D : directed_edge_exists g u v = true) by (unfold one_way, only_directed_edge_exists in O; apply andb_prop in O; apply O). destruct (Alls u v D) as (e & He & U & Vv). exists e. split; [exact He|]. split; [exact U|]. split; [exact Vv|].
        destruct (Two e He) as (_ & _ & [[E _]|[_ B]]); [rewrite E; reflexivity|]. rewrite U, Vv in B. unfold one_way, only_directed_edge_exists in O. unfold two_way, undirected_edge_exists in B. destruct (directed_edge_exists g v u); [rewrite andb_false_r in O; discriminate O|rewrite andb_false_r in B; discriminate B]. }
    assert (SU : forall u v, shown (wresult x vs g es) u v "UNDIRECTED" <-> two_way g u v).
    { intros u v. rewrite Sh. split.
      - intros (e & He & U & Vv & Ty). destruct (Two e He) as (_ & _ & [[E _]|[_ O]]); [|rewrite U, Vv in O; exact O]. rewrite E in Ty. vm_compute in Ty. discriminate Ty.
      - intros O. assert (D : directed_edge_exists g u v = true) by (unfold two_way, undirected_edge_exists in O; apply andb_prop in O; apply O). destruct (Alls u v D) as (e & He & U & Vv). exists e. split; [exact He|]. split; [exact U|]. split; [exact Vv|].
        destruct (Two e He) as (_ & _ & [[_ B]|[E _]]); [|rewrite E; reflexivity]. rewrite U, Vv in B. unfold one_way, only_directed_edge_exists in B. unfold two_way, undirected_edge_exists in O. destruct (directed_edge_exists g v u); [rewrite andb_false_r in B; discriminate B|rewrite andb_false_r in O; discriminate O]. }
    split.
    + unfold shown_nodes. cbn [rr_nodes wresult]. rewrite map_map. apply map_ext_in. intros [k n] H. cbn [fst snd]. unfold node_ref, name_of. cbn [rn_id rn_name]. rewrite (NoDup_dget (nodes g) k n (wf_nodes _ W) H). reflexivity.
    + exact SD.
    + exact SU.
    + intros q Q. cbn [rr_edges wresult] in Q. apply in_map_iff in Q. destruct Q as (e & <- & He). exists (e_u e), (e_v e). split; [reflexivity|]. destruct (Two e He) as (_ & _ & [[_ O]|[_ O]]); [left; apply SD, O|right; apply SU, O].
    + cbn [rr_edges wresult]. rewrite map_map. clear - ND. induction es as [|e es IH]; cbn [map] in *; [constructor|]. inversion ND as [|? ? NI N']; subst. constructor; [|apply IH, N'].
      intros H. apply NI. apply in_map_iff in H. destruct H as (e' & E & He). unfold ends, wedge, node_ref in E. cbn [re_u re_v rn_id] in E. injection E as E1 E2. apply in_map_iff. exists e'. split; [apply lit_pair; assumption|exact He].
    + intros u v k n. split.
      * intros (q & l & Q & U & Vv & Me & Hn). cbn [rr_edges wresult] in Q. apply in_map_iff in Q. destruct Q as (e & <- & He). unfold wedge, node_ref in U, Vv, Me. cbn [re_u re_v re_meta rn_id] in U, Vv, Me. apply lit_inj in U. apply lit_inj in Vv. destruct (Two e He) as (D & E & _). destruct (Met e He) as (d & Ed & Nd & Bd). rewrite Ed in Me. cbn [option_map] in Me. injection Me as <-. rewrite U, Vv in D, E.
        split; [exact D|]. unfold wmeta in Hn. apply in_map_iff in Hn. destruct Hn as ([k' m] & Eq & Hm). cbn [fst snd] in Eq. assert (K : k' = k) by (apply lit_inj; congruence). subst k'. assert (Eq2 : wmval num g m = match n with inl z => JInt z | inr f => JFloat f end) by congruence.
        apply (dget_in d k m Nd) in Hm. assert (B := Bd k m Hm). exists d. unfold edge_value. assert (X : edge_exists g u v = true) by (rewrite edge_exists_or, D; reflexivity). rewrite X. cbn [negb]. unfold get_edge in E. destruct (dget2 (edges g) u v); [|discriminate E]. injection E as ->.
        destruct m; cbn [basic_value] in B; try destruct B; cbn [wmval] in Eq2; [destruct n; discriminate Eq2| |destruct n; discriminate Eq2]. exists bits. split; [rewrite Ed; reflexivity|]. split; [exact Hm|]. unfold wnum in Eq2. destruct (num bits), n; congruence.
      * intros (D & m & z & Ev & G & ->). destruct (Alls u v D) as (e & He & U & Vv). destruct (Two e He) as (_ & E & _). rewrite U, Vv in E. unfold edge_value in Ev. destruct (negb (edge_exists g u v)); [discriminate Ev|]. unfold get_edge in E. destruct (dget2 (edges g) u v); [|discriminate E]. injection E as ->. injection Ev as Ev.
        exists (wedge num other_type g e), (wmeta num g m). split; [apply in_map, He|]. unfold wedge, node_ref. cbn [re_u re_v re_meta rn_id]. rewrite U, Vv, Ev. repeat (split; [reflexivity|]). unfold wmeta. apply in_map_iff. exists (k, MNum z). split; [cbn [fst snd wmval]; unfold wnum; destruct (num z); reflexivity|]. apply dget_In, G.    + cbn [rr_history wresult]. generalize 0%nat. clear. induction (ahist g) as [|h l IH]; intros k; cbn [numbered]; constructor; [apply wstep_shown|apply IH].
Qed.

(* C84: the result of a run is written to a file that is read back, and the loaded result shows the graph of the run *)
Theorem C84_run : forall fuel P d g0 l g r x, start_graph d = Ok g0 -> pool_runner no_hooks P -> discovery_pipeline l -> execute_pipeline fuel P no_hooks l g0 = (g, r) ->
  extras_sound float_text read_float is_date x -> exists r', saved_and_loaded x g = Ok r' /\ file_shows r' g.
Proof.
  intros fuel P d g0 l g r x S HP D R X. apply graph_loaded; [| |exact X].
  - destruct (run_minv P fuel l HP D g0 (start_minv d g0 S)) as [Mi _]. rewrite R in Mi. exact Mi.
  - exact (C67_types fuel P d g0 l g r S HP (discovery_shipped l D) R).
Qed.
(* The result made of any graph has, between two nodes, an edge of each of the three shipped types exactly if the graph has one of that type; names, direction and symbol are those of the type. *)
Theorem C84_types : forall x g r, WF g -> (forall u v e m, dget2 (edges g) u v = Some e -> e_type e <> TOther m) -> result_of num other_type duration x g = Ok r -> forall u v n b s ty,
  In (n, b, s, ty) [("DIRECTED", true, "-->", TDirected); ("UNDIRECTED", false, "---", TUndirected); ("BIDIRECTED", false, "<->", TBiDirected)] ->
  (edge_of_type_exists g u v ty = true <-> exists e, In e (rr_edges r) /\ rn_id (re_u e) = lit u /\ rn_id (re_v e) = lit v /\ re_type e = mkRType (lit n) b (lit s)).
Proof.
  intros x g r W NT R u v n b s ty I. unfold result_of in R. destruct (retrieve_edges g) as [es|] eqn:Q; [|discriminate]. cbn [rbind] in R. injection R as <-. cbn [rr_edges].
  destruct (retrieve_wf g W) as (es' & R & _ & Ins & Alls). rewrite Q in R. injection R as <-. split.
  - intros E. unfold edge_of_type_exists in E. destruct (directed_edge_exists g u v) eqn:D; [|discriminate]. cbn [negb] in E. destruct (Alls u v D) as (e & He & U & V). exists (edge_of num other_type g e). split; [apply in_map, He|]. apply Ins in He. destruct He as [_ He]. rewrite U, V in He. unfold get_edge in He.
    destruct (dget2 (edges g) u v) as [e0|]; [|discriminate]. injection He as <-. unfold edge_of, node_ref. cbn [re_u re_v re_type rn_id]. rewrite U, V. repeat (split; [reflexivity|]). cbn in I. repeat (destruct I as [I|I]; [injection I as <- <- <- <-; destruct (e_type e0); try discriminate E; reflexivity|]). destruct I.
  - intros (q & Hq & U & V & T). apply in_map_iff in Hq. destruct Hq as (e & <- & He). unfold edge_of, node_ref in U, V, T. cbn [re_u re_v re_type rn_id] in U, V, T. apply lit_inj in U. apply lit_inj in V. apply Ins in He. destruct He as [D He]. rewrite U, V in D, He. unfold edge_of_type_exists. rewrite D. cbn [negb]. unfold get_edge in He.
    specialize (NT u v). destruct (dget2 (edges g) u v) as [e0|]; [|discriminate]. injection He as ->. cbn in I. repeat (destruct I as [I|I]; [injection I as <- <- <- <-; destruct (e_type e) as [| | |m] eqn:Te; try reflexivity; try (vm_compute in T; discriminate T); destruct (NT e m eq_refl Te)|]). destruct I.
Qed.
(* with faithful tests the file shows the edges of the DAGs that are equivalent to the true one *)
Theorem C84_pc : forall fuel P l g0 D N g r x, perfect_run fuel P l g0 D N -> pool_runner no_hooks P -> execute_pipeline fuel P no_hooks l g0 = (g, r) -> extras_sound float_text read_float is_date x ->
  exists r', saved_and_loaded x g = Ok r' /\ shown_nodes r' = map (fun p => (lit (fst p), lit (n_name (snd p)))) (nodes g0) /\
  (forall u v, shown r' u v "DIRECTED" <-> forall D', dag_over (dkeys (nodes g0)) D' -> equivalent D D' -> edge_in D' u v) /\
  (forall u v, shown r' u v "UNDIRECTED" <-> exists D1 D2, dag_over (dkeys (nodes g0)) D1 /\ dag_over (dkeys (nodes g0)) D2 /\ equivalent D D1 /\ equivalent D D2 /\ edge_in D1 u v /\ edge_in D2 v u) /\
  (forall e, In e (rr_edges r') -> exists u v, ends e = (lit u, lit v) /\ (shown r' u v "DIRECTED" \/ shown r' u v "UNDIRECTED")).
Proof.
  intros fuel P l g0 D N g r x H HP R X. destruct (pr_start _ _ _ _ _ _ H) as [d S]. destruct (pr_alg _ _ _ _ _ _ H) as (so & _ & A).
  assert (DP : discovery_pipeline l).
  { destruct A as [| |sh sh' coin _ _ _ _]; intros p s Hp Hs; unfold pc, pc_classic, pc_parallel in Hp; cbn in Hp;
      repeat (destruct Hp as [<-|Hp]; [cbn in Hs; repeat (destruct Hs as [<-|Hs]; [first [constructor; discriminate|constructor]|]); destruct Hs|]); destruct Hp. }
  destruct (C84_run fuel P d g0 l g r x S HP DP R X) as (r' & E & [F1 F2 F3 F4 _ _ _]). destruct (exact_pattern fuel P l g0 D N g r H R) as (Nn & _ & _). rewrite Nn in F1. exists r'. split; [exact E|]. split; [exact F1|]. split; [|split; [|exact F4]].
  - intros u v. rewrite F2. exact (C31_one_way fuel P l g0 D N g r H R u v).
  - intros u v. rewrite F3. exact (C31_two_way fuel P l g0 D N g r H R u v).
Qed.
End Files.

Print Assumptions C84_run.
Print Assumptions C84_types.
Print Assumptions C84_pc.

(* ---- with FCI's collider rule ---- *)
(* three floats, and the numbers of Toy.v as ints and floats *)
Definition toy_num (z : Z) : Z + toy_float := if Z.eqb z 0 then inr Half else inl z.
Definition no_type (_ : string) : bool * ustr := (false, []).
Definition toy_duration (l : list nat) : option toy_float := if Nat.eqb (List.length l) 1 then Some Tiny else None.
Definition toy_extras : extras toy_float := mkExtras (lit "PC") RtName (lit "2024-01-01T00:00:00") (Some [(lit "alpha", PFloat Half)]) (Some (lit "h1")) (Some (lit "h2")) None.
Definition toy_file (g : graph) : res (rresult toy_float (jval toy_float)) := saved_and_loaded toy_num no_type toy_duration toy_text toy_read toy_date toy_extras g.
Lemma toy_extras_sound : extras_sound toy_text toy_read toy_date toy_extras.
Proof.
  split; [apply lit_sound|]. split; [apply lit_sound|]. split; [reflexivity|]. split; [intros s E; injection E as <-; apply lit_sound|]. split; [intros s E; injection E as <-; apply lit_sound|]. split; [intros s E; discriminate E|].
  exists (Some [(lit "alpha", JFloat Half)]). split; [repeat constructor|]. split; [constructor; [intros []|constructor]|]. apply Forall_cons; [|apply Forall_nil]. split; [apply lit_sound|constructor; apply toy_float_ok].
Qed.
(* fci.py:17-20 *)
Definition fci_step (so : list id -> list id) : step := mkStep "ColliderRuleFCI" pairs_gen false false false false (collider_rule_fci so).
Definition pc_fci (N : numerics) : list pstep := pc_skeleton dedup N ++ [PStep (fci_step dedup)].
(* the rule of FCI that is shipped stores a None as the metadata of edges: the run ends well, its result is written, and the file cannot be loaded *)
Theorem C84_fci_refuted : exists d g0 g, start_graph d = Ok g0 /\ shipped_pipeline false (pc_fci (toy fork4)) /\
  execute_pipeline 5 (batch_runner no_hooks) no_hooks (pc_fci (toy fork4)) g0 = (g, Ok tt) /\ (forall f, float_ok toy_text toy_read f) /\ extras_sound toy_text toy_read toy_date toy_extras /\
  is_ok (rbind (result_of toy_num no_type toy_duration toy_extras g) (fun r => dumps toy_text (dump_result r))) = true /\ toy_file g = Err ValueError.
Proof.
  exists (DDict (toy_table PropsPipe.names4)), (toy_start PropsPipe.names4). eexists. split; [vm_compute; reflexivity|]. split.
  { intros p s Hp Hs. left. cbn in Hp. repeat (destruct Hp as [<-|Hp]; [cbn in Hs; destruct Hs as [<-|[]]; constructor|]). destruct Hp. }
  split; [vm_compute; reflexivity|]. split; [exact toy_float_ok|]. split; [exact toy_extras_sound|]. split; vm_compute; reflexivity.
Qed.
Print Assumptions C84_fci_refuted.

Example C84_nonvacuous : exists g0 N g r, perfect_run 27 (batch_runner no_hooks) (pc dedup N) g0 dag5c N /\ pool_runner no_hooks (batch_runner no_hooks) /\
  execute_pipeline 27 (batch_runner no_hooks) no_hooks (pc dedup N) g0 = (g, Ok tt) /\ toy_file g = Ok r /\ shown r "a" "c" "DIRECTED" /\ shown r "e" "d" "UNDIRECTED" /\
  exists k n, shown_number r "a" "c" k n.
Proof.
  destruct (ideal_exists names5c dag5c nodup5c dag5c_dag) as (g0 & S0 & _ & DG & PT). assert (G0 := S0). vm_compute in G0. injection G0 as G0.
  assert (H : perfect_run 27 (batch_runner no_hooks) (pc dedup (ideal names5c dag5c)) g0 dag5c (ideal names5c dag5c)).
  { split; [eexists; exact S0|exact DG|eexists; exact PT|exists dedup; split; [exact dedup_order|constructor]|]. rewrite <- G0. vm_compute. lia. }
  destruct (execute_pipeline 27 (batch_runner no_hooks) no_hooks (pc dedup (ideal names5c dag5c)) g0) as [g r0] eqn:R.
  assert (DP : discovery_pipeline (pc dedup (ideal names5c dag5c))).
  { intros p s Hp Hs. unfold pc in Hp. cbn in Hp. repeat (destruct Hp as [<-|Hp]; [cbn in Hs; repeat (destruct Hs as [<-|Hs]; [first [constructor; discriminate|constructor]|]); destruct Hs|]). destruct Hp. }
  destruct (C84_run toy_num no_type toy_duration toy_text toy_read toy_date toy_float_ok 27 _ _ g0 _ g r0 toy_extras S0 (batch_pool no_hooks) DP R toy_extras_sound) as (r & L & FS).
  exists g0, (ideal names5c dag5c), g, r. split; [exact H|]. split; [apply batch_pool|]. assert (E := R). rewrite <- G0 in E. vm_compute in E. injection E as Eg Er. split; [rewrite R, Er; reflexivity|]. split; [exact L|].
  split; [apply (fs_directed _ _ _ FS); rewrite <- Eg; vm_compute; reflexivity|]. split; [apply (fs_undirected _ _ _ FS); rewrite <- Eg; vm_compute; reflexivity|].
  exists "correlation". eexists. apply (fs_numbers _ _ _ FS). rewrite <- Eg. split; [vm_compute; reflexivity|]. do 2 eexists. split; [vm_compute; reflexivity|]. split; reflexivity.
Qed.

(* a graph with an edge of each type *)
Definition three_types : graph := run_ops (PropsGraph.ops1 ++ [OAddEdge "b" "c" (Some []) TBiDirected; OAddDirected "a" "c" (Some []) TDirected]) empty_graph.
Example C84_types_nonvacuous : WF three_types /\ is_ok (result_of toy_num no_type toy_duration toy_extras three_types) = true /\ edge_of_type_exists three_types "b" "c" TBiDirected = true /\ edge_of_type_exists three_types "a" "b" TUndirected = true /\ edge_of_type_exists three_types "a" "c" TDirected = true /\
  (forall u v e m, dget2 (edges three_types) u v = Some e -> e_type e <> TOther m).
Proof.
  assert (W : WF three_types) by (apply GraphMain.reachable_WF; eexists; split; [|reflexivity]; cbv; repeat split).
  split; [exact W|]. repeat (split; [vm_compute; reflexivity|]). intros u v e m H. apply (all_entries_In _ u v e (wf_e _ W)) in H. vm_compute in H.
  repeat (destruct H as [H|H]; [injection H as <- <- <-; discriminate|]). destruct H.
Qed.
