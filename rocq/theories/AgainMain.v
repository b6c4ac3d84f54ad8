(* Executing a model again whose graph still has all edges. *)
From Verif Require Import Base PyDict PyDictFacts Graph GraphSpec GraphFacts GraphInv GraphInv2 GraphInv3 GraphQ GraphMain
  GraphPaths PathSpec Actions ActionSpec ActionFacts ActionMain Generators GenSpec GenFacts Rules IndepTests Pipeline Parallel PipeSpec PipeFacts PipeMain RuleFacts
  Construct ConstructSpec ConstructFacts Dag DagFacts DagSep SkelSpec Rows Serve SkelFacts SkelStart SkelSteps SkelMatrix SkelMain
  LoopFacts TotalSpec TotalFacts TotalMain NanFacts TestedSpec TestedFacts TestedMain AgainFacts.
Open Scope string_scope.
Open Scope list_scope.

(* ---- graphs with all edges, undirected ---- *)
Definition whole (h : graph) : Prop := WF h /\ forall x y, dmem (nodes h) x = true -> dmem (nodes h) y = true -> x <> y -> directed_edge_exists h x y = true.
Lemma whole_eqv h k : eqv4 h k -> whole h -> whole k.
Proof. intros Q [W F]. split; [exact (eqv4_WF h k Q W)|]. intros x y Hx Hy Ne. rewrite (eqv4_dee h k x y Q). destruct Q as (Qn & _). rewrite Qn in Hx, Hy. apply F; assumption. Qed.
Lemma whole_purge h : whole h -> purge_soft_deleted_edges h = (h, Ok tt).
Proof.
  intros [W F]. unfold purge_soft_deleted_edges, bind, gget. assert (Z : soft_deleted_entries h = []).
  { unfold soft_deleted_entries. destruct (filter (fun p => e_del (snd p)) (all_entries (edges h))) as [|[[u v] e] r] eqn:Fi; [reflexivity|]. exfalso.
    assert (I : In (u, v, e) (filter (fun p => e_del (snd p)) (all_entries (edges h)))) by (rewrite Fi; left; reflexivity). apply filter_In in I. destruct I as [I D]. cbn in D.
    apply (all_entries_In _ _ _ _ (wf_e _ W)) in I. destruct (wf_fwd _ W u v e I) as (Hu & Hv & Ne & _). assert (L := F u v Hu Hv Ne). rewrite (dee_val h u v W) in L. unfold eget in L. rewrite I, D in L. discriminate. }
  rewrite Z. reflexivity.
Qed.
Lemma whole_only h x y : whole h -> only_directed_edge_exists h x y = false.
Proof.
  intros [W F]. unfold only_directed_edge_exists. destruct (directed_edge_exists h x y) eqn:A; [|reflexivity]. destruct (live_entry _ _ _ W A) as (e & _ & _ & Hx & Hy & Ne).
  rewrite (F y x Hy Hx (fun q => Ne (eq_sym q))). reflexivity.
Qed.
Lemma whole_log h l : eqv4 h (with_ahist h l). Proof. repeat split. Qed.

(* ---- the steps look at the graph without the logs ---- *)
Definition blind (s : step) : Prop := forall h k, eqv4 h k -> s_gen s k = s_gen s h /\ (forall f, In f (s_gen s h) -> f k = f h) /\ forall ns us, call s k ns us = call s h ns us.
Definition steady (s : step) (h : graph) : Prop := forall k, eqv4 h k -> calm s k.
Lemma blind_steady s h : blind s -> calm s h -> steady s h.
Proof.
  intros B C k Q f I. destruct (B h k Q) as (B1 & B2 & B3). rewrite B1 in I. destruct (C f I) as (es & Ef & Ce). exists es. rewrite (B2 f I). split; [exact Ef|].
  assert (CC : forall ns, calm_call s h ns -> calm_call s k ns) by (intros ns (o & Co & So); exists o; split; [intros us; rewrite B3; apply Co|exact So]).
  intros e Ie. specialize (Ce e Ie). unfold calm_em in *. destruct (negb (s_parallel s) && s_chunked s); [intros ns In_; apply CC, Ce; exact In_|]. destruct Ce as (ns & Ea & Cn). exists ns. split; [exact Ea|apply CC; exact Cn].
Qed.
Ltac same_graph h k Q := destruct h as [n0 e0 r0 d0 h0 a0]; destruct k as [n1 e1 r1 d1 h1 a1]; destruct Q as (Q1 & Q2 & Q3 & Q4); cbn [nodes edges redges dedges] in Q1, Q2, Q3, Q4; subst n1 e1 r1 d1.
Lemma blind_corr N : blind (correlation_step N).
Proof. intros h k Q. same_graph h k Q. split; [reflexivity|]. split; [intros f [<-|[]]; reflexivity|]. intros; reflexivity. Qed.
Lemma partial_same N ns h k : eqv4 h k -> forall l deleted acc, partial_loop N k ns l deleted acc = partial_loop N h ns l deleted acc.
Proof.
  intros Q. assert (EE : forall x y, edge_exists k x y = edge_exists h x y) by (same_graph h k Q; reflexivity). assert (GC : forall x y, get_corr k x y = get_corr h x y) by (same_graph h k Q; reflexivity).
  assert (VV : forall x, values_of k x = values_of h x) by (same_graph h k Q; reflexivity).
  induction l as [|z l IH]; intros deleted acc; [reflexivity|]. cbn [partial_loop]. destruct (filter (fun n => negb (eqb n z)) ns) as [|x [|y r]]; [reflexivity|reflexivity|]. rewrite EE, !GC, VV.
  destruct (negb (edge_exists h x y) || mem (y, x) deleted); [apply IH|].
  destruct (rbind (get_corr h x y) (fun a => rbind (get_corr h x z) (fun b => rbind (get_corr h y z) (fun c => Ok (a, b, c))))) as [[[a b] c]|e]; [|reflexivity].
  destruct (as_num a) as [a'|]; [|reflexivity]. cbn [rbind]. destruct (as_num b) as [b'|]; [|reflexivity]. cbn [rbind]. destruct (as_num c) as [c'|]; [|reflexivity]. cbn [rbind].
  destruct (n_partial N _ _ a' b' c') as [[[|]|]|]; cbn [rbind]; try reflexivity; apply IH.
Qed.
Lemma blind_partial par N : blind (partial_step par N).
Proof.
  intros h k Q. split; [same_graph h k Q; reflexivity|]. split; [intros f [<-|[]]; same_graph h k Q; reflexivity|]. intros ns us. unfold call. cbn [partial_step s_proc s_unapplied]. unfold partial_test.
  rewrite (partial_same N ns h k Q). destruct Q as (Qn & _). rewrite Qn. reflexivity.
Qed.
Lemma blind_slots so sh ch cs h k : eqv4 h k -> gen_neighbours so sh ch cs k = gen_neighbours so sh ch cs h /\ forall f, In f (gen_neighbours so sh ch cs h) -> f k = f h.
Proof.
  intros Q. split; [same_graph h k Q; reflexivity|]. intros f I. unfold gen_neighbours in I. destruct (Nat.ltb _ _); [destruct I|]. destruct (Nat.ltb _ _); [destruct I|].
  destruct (Nat.ltb _ _); [destruct I as [<-|[]]; reflexivity|]. apply in_map_iff in I. destruct I as (t & <- & _). same_graph h k Q. reflexivity.
Qed.
Lemma blind_matrix so mn N : blind (matrix_step so mn N).
Proof. intros h k Q. destruct (blind_slots so None true (mkCS mn 0) h k Q) as [A B]. split; [exact A|]. split; [exact B|]. intros; same_graph h k Q; reflexivity. Qed.
Lemma blind_matrix_parallel so sh N : blind (matrix_step_parallel so sh N).
Proof. intros h k Q. destruct (blind_slots so (Some sh) false (mkCS 4 0) h k Q) as [A B]. split; [exact A|]. split; [exact B|]. intros; same_graph h k Q; reflexivity. Qed.
Lemma blind_matrix_sampled so sh coin N : blind (matrix_step_sampled so sh coin N).
Proof.
  intros h k Q. destruct (blind_slots so (Some sh) false (mkCS 4 0) h k Q) as [A B]. cbn [matrix_step_sampled s_gen]. split; [rewrite A; reflexivity|]. split; [|intros; same_graph h k Q; reflexivity].
  unfold gen_sample. set (l := gen_neighbours so (Some sh) false (mkCS 4 0) h) in *. clearbody l. clear A. generalize 0 as i. revert B. induction l as [|f l IH]; intros B i f' I; [destruct I|]. cbn [gen_sample_from] in I.
  destruct I as [<-|I]; [rewrite (B f (or_introl eq_refl)); reflexivity|]. apply (IH (fun f2 I2 => B f2 (or_intror I2)) (S i)); exact I.
Qed.

(* ---- the orientation phase has nothing to do ---- *)
Section Orient.
Variable so : list id -> list id.
Variable h : graph.
Hypothesis Wh : whole h.
Lemma pairs_whole s : s_gen s = pairs_gen -> s_chunked s = false -> (forall x y, dmem (nodes h) x = true -> dmem (nodes h) y = true -> x <> y -> calm_call s h [x; y]) -> calm s h.
Proof.
  intros G Ch C f I. rewrite G in I. destruct I as [<-|[]]. eexists. split; [reflexivity|]. rewrite Ch, andb_false_r. intros e Ie. apply in_map_iff in Ie. destruct Ie as (ns & <- & Hn).
  destruct (pairs_ok h h (proj1 Wh) eq_refl ns Hn) as (x & y & -> & Hx & Hy & Ne). exists [x; y]. split; [reflexivity|]. apply C; assumption.
Qed.
Lemma und x y : dmem (nodes h) x = true -> dmem (nodes h) y = true -> x <> y -> undirected_edge_exists h x y = true /\ edge_exists h x y = true.
Proof.
  intros Hx Hy Ne. assert (A := proj2 Wh x y Hx Hy Ne). assert (B := proj2 Wh y x Hy Hx (fun q => Ne (eq_sym q))). unfold undirected_edge_exists. rewrite edge_exists_or, A, B. auto.
Qed.
Lemma nodes2 {B} x y (f : id -> id -> res B) : dmem (nodes h) x = true -> dmem (nodes h) y = true -> rbind (node_at h [x; y] 0) (fun a => rbind (node_at h [x; y] 1) (fun b => f a b)) = f x y.
Proof. intros Hx Hy. unfold node_at. cbn [nth_error]. rewrite Hx, Hy. reflexivity. Qed.
Lemma calm_collider st : calm (collider_step st so) h.
Proof.
  apply pairs_whole; [reflexivity|reflexivity|]. intros x y Hx Hy Ne. exists None. split; [|constructor]. intros us. unfold call. cbn [collider_step s_proc s_unapplied]. unfold collider_test. rewrite nodes2 by assumption.
  rewrite (proj1 (und x y Hx Hy Ne)). reflexivity.
Qed.
Lemma calm_non_collider : calm (non_collider_step so) h.
Proof.
  apply pairs_whole; [reflexivity|reflexivity|]. intros x y Hx Hy Ne. exists None. split; [|constructor]. intros us. unfold call. cbn [non_collider_step s_proc s_unapplied]. unfold non_collider_test. rewrite nodes2 by assumption.
  rewrite (proj2 (und x y Hx Hy Ne)). reflexivity.
Qed.
Lemma flat_nil {A B} (f : A -> list B) l : (forall a, f a = []) -> flat_map f l = [].
Proof. intros H. induction l as [|a l IH]; [reflexivity|]. cbn. rewrite H, IH. reflexivity. Qed.
Lemma calm_triple : calm triple_step h.
Proof.
  apply pairs_whole; [reflexivity|reflexivity|]. intros x y Hx Hy Ne. exists (Some []). split; [|constructor]. intros us. unfold call. cbn [triple_step s_proc s_unapplied]. unfold triple_test. rewrite nodes2 by assumption.
  rewrite flat_nil; [reflexivity|]. intros z. unfold triple_body. rewrite !(whole_only h _ _ Wh), !andb_false_r. cbn. destruct (negb _); reflexivity.
Qed.
Lemma calm_quadruple : calm (quadruple_step so) h.
Proof.
  apply pairs_whole; [reflexivity|reflexivity|]. intros x y Hx Hy Ne. exists (Some []). split; [|constructor]. intros us. unfold call. cbn [quadruple_step s_proc s_unapplied]. unfold quadruple_test. rewrite nodes2 by assumption.
  rewrite flat_nil; [reflexivity|]. intros p. unfold quadruple_body. destruct p as [|a [|b [|c p]]]; try reflexivity. rewrite !(whole_only h _ _ Wh), !andb_false_r. reflexivity.
Qed.
Lemma calm_further : calm (further_quadruple_step so) h.
Proof.
  apply pairs_whole; [reflexivity|reflexivity|]. intros x y Hx Hy Ne. exists (Some []). split; [|constructor]. intros us. unfold call. cbn [further_quadruple_step s_proc s_unapplied]. unfold further_quadruple_test. rewrite nodes2 by assumption.
  rewrite flat_nil; [reflexivity|]. intros p. unfold further_quadruple_body. destruct p as [|a [|b [|c p]]]; try reflexivity. rewrite !(whole_only h _ _ Wh), !andb_false_r. reflexivity.
Qed.
Lemma calm_effect N : calm (effect_step N) h.
Proof.
  intros f I. destruct I as [<-|[]]. eexists. split; [reflexivity|]. cbn [effect_step s_parallel s_chunked negb andb]. intros e Ie. apply in_map_iff in Ie. destruct Ie as (ns & <- & Hn).
  unfold live_pairs in Hn. apply in_flat_map in Hn. destruct Hn as (p & _ & Hn). apply in_flat_map in Hn. destruct Hn as (w & _ & Hn). destruct (directed_edge_exists h (fst p) w) eqn:D; [|destruct Hn]. destruct Hn as [<-|[]].
  exists [fst p; w]. split; [reflexivity|]. exists None. split; [|constructor]. intros us. destruct (live_entry _ _ _ (proj1 Wh) D) as (e & Ee & _ & Hx & Hy & Ne). destruct (und _ _ Hx Hy Ne) as [U X].
  unfold call. cbn [effect_step s_proc s_unapplied]. unfold effect_process, node_at. cbn [nth_error]. rewrite Hx, Hy. cbn [rbind]. unfold edge_value. rewrite X. cbn [negb]. unfold eget in Ee. rewrite Ee. cbn [rbind]. rewrite U. reflexivity.
Qed.
End Orient.

(* ---- executing calm steps ---- *)
Section Run.
Variables (P : runner).
Hypothesis HP : pool_runner no_hooks P.
Definition easy (h : graph) (s : step) : Prop := s_sync s = false /\ steady s h.
Lemma easy_eqv h k s : eqv4 h k -> easy h s -> easy k s.
Proof. intros Q [A B]. split; [exact A|]. intros k' Q'. apply B. eapply eqv4_trans; eassumption. Qed.
Lemma inner_calm dry l h : Forall (easy h) l -> exists a, run_inner P no_hooks dry l h = (h, Ok a) /\ Forall nothing (snd a) /\ (dry = false -> snd a = []).
Proof.
  induction l as [|s l IH]; intros F; [exists ([], []); repeat split; constructor|]. inversion F as [|? ? [Sy St] Fl]; subst. cbn [run_inner]. unfold bind.
  destruct (step_calm s h dry Sy (St h (eqv4_refl h)) P HP) as (a & Ea & Ga & Da). rewrite Ea. destruct (IH Fl) as (b & Eb & Gb & Db). rewrite Eb. eexists. split; [reflexivity|]. cbn [snd]. split; [apply Forall_app; auto|].
  intros D. rewrite (Da D), (Db D). reflexivity.
Qed.
Definition easy_p (fuel : nat) (h : graph) (p : pstep) : Prop :=
  match p with PStep s => easy h s | PLoop _ ex l => ex = exit_on_no_actions /\ 2 <= fuel /\ Forall (easy h) l | PTogether _ l => Forall (easy h) l end.
Lemma pstep_calm fuel p h : whole h -> easy_p fuel h p -> exists h', run_pstep fuel P no_hooks p h = (h', Ok tt) /\ eqv4 h h'.
Proof.
  intros W Ep. destruct p as [s|name ex l|name l]; cbn [easy_p] in Ep; cbn [run_pstep]; unfold bind.
  - destruct Ep as [Sy St]. destruct (step_calm s h false Sy (St h (eqv4_refl h)) P HP) as (a & Ea & _). rewrite Ea. cbn [log_step]. unfold log_step.
    eexists. split; [apply whole_purge; exact (whole_eqv _ _ (whole_log h _) W)|apply whole_log].
  - destruct Ep as (-> & Fu & Fl). destruct fuel as [|[|fuel]]; [lia|lia|]. cbn [run_loop]. unfold bind. cbn [exit_on_no_actions Nat.ltb Nat.leb liftr]. unfold ret. destruct (inner_calm false l h Fl) as (a & Ea & _ & Da). rewrite Ea. rewrite (Da eq_refl).
    cbn. eexists. split; [reflexivity|apply whole_log].
  - unfold run_together, bind. destruct (inner_calm true l h Ep) as (a & Ea & Na & _). rewrite Ea. destruct (take_still false (map (fun i => Some [i]) (snd a)) h) as (b & Eb & _).
    { intros o I. apply in_map_iff in I. destruct I as (i & <- & Ii). constructor; [|constructor]. rewrite Forall_forall in Na. apply Na; exact Ii. }
    rewrite Eb. cbn. eexists. split; [reflexivity|apply whole_log].
Qed.
Lemma easy_p_eqv fuel h k p : eqv4 h k -> easy_p fuel h p -> easy_p fuel k p.
Proof.
  intros Q. destruct p as [s|name ex l|name l]; cbn; [apply easy_eqv; exact Q| |].
  - intros (A & B & C). split; [exact A|]. split; [exact B|]. eapply Forall_impl; [|exact C]. intros s. apply easy_eqv; exact Q.
  - intros C. eapply Forall_impl; [|exact C]. intros s. apply easy_eqv; exact Q.
Qed.
Lemma pipeline_calm fuel l : forall h, whole h -> Forall (easy_p fuel h) l -> exists h', execute_pipeline fuel P no_hooks l h = (h', Ok tt) /\ eqv4 h h'.
Proof.
  induction l as [|p l IH]; intros h W F; [exists h; split; [reflexivity|apply eqv4_refl]|]. inversion F as [|? ? Fp Fl]; subst. cbn [execute_pipeline]. unfold bind. destruct (pstep_calm fuel p h W Fp) as (k & Ek & Qk). rewrite Ek.
  destruct (IH k (whole_eqv _ _ Qk W)) as (h' & Eh & Qh); [eapply Forall_impl; [|exact Fl]; intros q; apply easy_p_eqv; exact Qk|]. exists h'. split; [exact Eh|eapply eqv4_trans; eassumption].
Qed.
Lemma orient_easy so N fuel h : 2 <= fuel -> whole h -> Forall (easy_p fuel h) (orientation_rules so ++ [PStep (effect_step N)]).
Proof.
  intros Fu W. assert (C : forall k, eqv4 h k -> whole k) by (intros k Q; exact (whole_eqv h k Q W)). repeat constructor; try exact Fu; intros k Q.
  - apply calm_collider; auto.
  - apply calm_non_collider; auto.
  - apply calm_triple; auto.
  - apply calm_quadruple; auto.
  - apply calm_further; auto.
  - apply calm_effect; auto.
Qed.
Lemma orient_fuel so N fuel h r : whole h -> execute_pipeline fuel P no_hooks (orientation_rules so ++ [PStep (effect_step N)]) h = (r, Ok tt) -> 2 <= fuel.
Proof.
  intros W R. destruct (Nat.le_gt_cases 2 fuel) as [L|L]; [exact L|]. exfalso. cbn [orientation_rules app execute_pipeline] in R. unfold bind at 1 in R.
  destruct (pstep_calm fuel (PStep (collider_step KEEP_FIRST so)) h W) as (k & Ek & Qk).
  { split; [reflexivity|]. intros k Q. apply calm_collider. exact (whole_eqv h k Q W). }
  rewrite Ek in R. unfold bind at 1 in R. cbn [run_pstep] in R. unfold bind at 1 in R. destruct fuel as [|[|fuel]]; [discriminate| |lia]. cbn [run_loop] in R. unfold bind in R. cbn [exit_on_no_actions Nat.ltb Nat.leb liftr] in R. unfold ret in R.
  destruct (run_inner P no_hooks false (orientation_steps so) k) as [g2 [b|e]]; discriminate.
Qed.
End Run.

(* ---- the correlations once more ---- *)
Lemma dset_id {V} (d : dict id V) k v : dget d k = Some v -> dset d k v = d.
Proof. induction d as [|[k' v'] d IH]; cbn; [discriminate|]. destruct (eqb k k'); [intros E; injection E as ->; reflexivity|]. intros E. rewrite IH by exact E. reflexivity. Qed.
Lemma dupd2_id d u v f e : dget2 d u v = Some e -> f e = e -> dupd2 d u v f = Some d.
Proof.
  intros G Fe. unfold dupd2. rewrite G, Fe. unfold dset2. unfold dget2 in G. destruct (dget d u) as [r|] eqn:R; [|discriminate]. rewrite (dset_id r v e G), (dset_id d u r R). reflexivity.
Qed.
Lemma update_id g x y m ex ey : WF g -> eget g x y = Some ex -> eget g y x = Some ey -> e_meta ex = Some m -> e_meta ey = Some m -> edge_exists g x y = true ->
  exists g', apply_action (mkT x y UPDATE_EDGE (Some m)) g = (g', Ok true) /\ eqv4 g g'.
Proof.
  intros W Ex Ey Mx My EE. destruct (wf_fwd _ W x y ex Ex) as (Hx & Hy & _). assert (Rx := wf_rev _ W y x). assert (Ry := wf_rev _ W x y). unfold eget in Ex, Ey. rewrite Ex in Rx. rewrite Ey in Ry.
  assert (Sx : set_meta (Some m) ex = ex) by (destruct ex; cbn in *; subst; reflexivity). assert (Sy : set_meta (Some m) ey = ey) by (destruct ey; cbn in *; subst; reflexivity).
  assert (Dx : dmem (edges g) x = true) by (unfold dget2 in Ex; unfold dmem; destruct (dget (edges g) x); [reflexivity|discriminate]).
  assert (Dy : dmem (edges g) y = true) by (unfold dget2 in Ey; unfold dmem; destruct (dget (edges g) y); [reflexivity|discriminate]).
  assert (U4 : upd4 x y (set_meta (Some m)) g = (g, Ok tt)).
  { unfold upd4, on_edges, on_redges. unfold bind. cbv beta iota. rewrite (dupd2_id (edges g) x y _ ex Ex Sx). cbn [with_edges edges redges]. rewrite (dupd2_id (edges g) y x _ ey Ey Sy). cbn [with_edges edges redges].
    rewrite (dupd2_id (redges g) x y _ ey Ry Sy). cbn [with_redges edges redges]. rewrite (dupd2_id (redges g) y x _ ex Rx Sx). destruct g; reflexivity. }
  assert (U : update_edge x y (Some m) None g = (g, Ok tt)).
  { unfold update_edge, bind, gget, need_node. cbv beta iota. rewrite Hx. cbv beta iota. rewrite Hy. cbv beta iota. rewrite Dx, Dy. unfold dmem2. rewrite Ex, Ey. cbn [negb]. rewrite U4. reflexivity. }
  unfold apply_action, bind, gget. cbn [Graph.t_act t_u t_v t_data]. rewrite EE. cbn [negb]. rewrite U. cbn. eexists. split; [reflexivity|]. repeat split.
Qed.
Section Pearson.
Variables (g0 : graph) (N : numerics).
Hypothesis CP : complete g0.
Notation node := (SkelFacts.node g0).
Notation cor := (corr g0 N).
Hypothesis PF : forall a b, ord g0 a b -> n_pearson N (values_of g0 a) (values_of g0 b) = Ok (cor a b).
Definition filled (g : graph) : Prop := whole g /\ nodes g = nodes g0 /\ forall x y, node x -> node y -> x <> y -> exists e, eget g x y = Some e /\ e_meta e = Some (cmeta cor x y).
Lemma filled_eqv g h : eqv4 g h -> filled g -> filled h.
Proof.
  intros Q (W & Nn & M). split; [exact (whole_eqv _ _ Q W)|]. split; [destruct Q as (Qn & _); congruence|]. intros x y Hx Hy Ne. destruct (M x y Hx Hy Ne) as (e & Ee & Me). exists e. split; [|exact Me].
  destruct Q as (_ & Qe & _). unfold eget in *. rewrite Qe. exact Ee.
Qed.
Lemma cmeta_sym x y : cmeta cor x y = cmeta cor y x. Proof. unfold cmeta. rewrite (corr_sym g0 N CP x y). reflexivity. Qed.
Lemma updates_id l : (forall ns, In ns l -> exists x y, ns = [x; y] /\ node x /\ node y /\ x <> y) -> forall g, filled g ->
  exists g' a, take_action no_hooks false (map (fun ns => Some [mkT (nth 0 ns "") (nth 1 ns "") UPDATE_EDGE (Some (cmeta cor (nth 0 ns "") (nth 1 ns "")))]) l) g = (g', Ok a) /\ eqv4 g g'.
Proof.
  induction l as [|ns l IH]; intros Hl g Fg; [exists g, ([], []); split; [reflexivity|apply eqv4_refl]|]. destruct (Hl ns (or_introl eq_refl)) as (x & y & -> & Hx & Hy & Ne). cbn [map nth take_action]. unfold bind at 1, gget. cbn [run_pre_hooks no_hooks pre_hooks rfold].
  assert (Fg' := Fg). destruct Fg' as (W & Nn & M). destruct (M x y Hx Hy Ne) as (ex & Ex & Mx). destruct (M y x Hy Hx (fun q => Ne (eq_sym q))) as (ey & Ey & My). rewrite <- (cmeta_sym x y) in My.
  unfold SkelFacts.node in Hx, Hy. assert (EE : edge_exists g x y = true) by (rewrite edge_exists_or, (proj2 W x y) by (rewrite ?Nn; assumption); reflexivity).
  destruct (update_id g x y (cmeta cor x y) ex ey (proj1 W) Ex Ey Mx My EE) as (g1 & A1 & Q1). unfold bind. cbn [take_items]. unfold bind. rewrite A1.
  cbn [run_post_hooks no_hooks post_hooks rfold]. destruct (IH (fun n I => Hl n (or_intror I)) g1 (filled_eqv g g1 Q1 Fg)) as (g2 & a & E2 & Q2). cbn. rewrite E2. eexists. eexists. split; [reflexivity|eapply eqv4_trans; eassumption].
Qed.
Lemma pearson_again P g : filled g -> exists g' a, execute_step P no_hooks (calculate_pearson N) false g = (g', Ok a) /\ eqv4 g g'.
Proof.
  intros Fg. assert (Fg' := Fg). destruct Fg' as (W & Nn & M). rewrite pearson_unfold.
  assert (PO : forall ns, In ns (all_combinations (mkCS 2 2) g) -> exists x y, ns = [x; y] /\ node x /\ node y /\ x <> y) by (intros ns I; exact (pairs_ok g0 g (proj1 W) Nn ns I)).
  assert (R : rmap (fun ns => call (calculate_pearson N) g ns None) (all_combinations (mkCS 2 2) g) = Ok (map (fun ns => Some [mkT (nth 0 ns "") (nth 1 ns "") UPDATE_EDGE (Some (cmeta cor (nth 0 ns "") (nth 1 ns "")))]) (all_combinations (mkCS 2 2) g))).
  { assert (PF' : forall x y, In [x; y] (all_combinations (mkCS 2 2) g) -> n_pearson N (values_of g x) (values_of g y) = Ok (cor x y)).
    { intros x y I. unfold values_of. rewrite Nn. apply PF. unfold ord. rewrite <- (same_combs g0 (mkCS 2 2) g Nn). exact I. }
    revert PO PF'. generalize (all_combinations (mkCS 2 2) g) as l. induction l as [|ns l IH]; intros PO PF'; [reflexivity|]. cbn [rmap map]. destruct (PO ns (or_introl eq_refl)) as (x & y & -> & Hx & Hy & Ne). cbn [nth].
    assert (Ca : call (calculate_pearson N) g [x; y] None = Ok (Some [mkT x y UPDATE_EDGE (Some (cmeta cor x y))])).
    { unfold call. cbn [calculate_pearson s_proc s_unapplied]. unfold pearson_process, node_at. cbn [nth_error]. destruct (M x y Hx Hy Ne) as (e & Ee & Me). unfold SkelFacts.node in Hx, Hy. rewrite <- Nn in Hx, Hy. rewrite Hx, Hy. cbn [rbind].
      unfold edge_value. rewrite edge_exists_or, (proj2 W x y Hx Hy Ne). cbn [orb negb]. unfold eget in Ee. rewrite Ee. cbn [rbind]. rewrite (PF' x y (or_introl eq_refl)). cbn [rbind]. rewrite Me. reflexivity. }
    rewrite Ca. cbn [rbind]. rewrite (IH (fun n I => PO n (or_intror I)) (fun a b I => PF' a b (or_intror I))). reflexivity. }
  rewrite R. apply updates_id; [exact PO|exact Fg].
Qed.
Lemma pearson_pstep_again fuel P g : filled g -> exists g', run_pstep fuel P no_hooks (PStep (calculate_pearson N)) g = (g', Ok tt) /\ eqv4 g g'.
Proof.
  intros Fg. destruct (pearson_again P g Fg) as (g1 & a & E1 & Q1). cbn [run_pstep]. unfold bind. rewrite E1. unfold log_step. eexists. split.
  - apply whole_purge. apply (whole_eqv g1); [apply whole_log|]. exact (whole_eqv g g1 Q1 (proj1 Fg)).
  - exact (eqv4_trans _ _ _ Q1 (whole_log g1 _)).
Qed.
End Pearson.

(* ---- the first run ---- *)
Section First.
Variables (g0 : graph) (N : numerics) (Sp : id -> id -> list id -> Prop).
Hypothesis Ssym : forall x y S, Sp x y S -> Sp y x S.
Variables (P : runner) (fuel : nat).
Notation E := (fun _ : exn => True).
Notation cor := (corr g0 N).
Notation sk := (skel g0 [] cor Sp).
Notation Q := (proposal g0 Sp).
Notation Lost := (Lost g0 N Sp).
Record gstep (s : step) : Prop := {
  gs_good : exists A, good_step sk E Q A s;
  gs_un : s_unapplied s = false;
  gs_sync : s_sync s = false;
  gs_blind : blind s;
  gs_pool : s_parallel s = true -> pool_runner no_hooks P }.
Definition gp (p : pstep) : Prop := match p with PStep s => gstep s | PTogether _ l => Forall (fun s => gstep s /\ s_parallel s = false) l | PLoop _ _ _ => False end.
Lemma lost_log g l : Lost g -> Lost (with_ahist g l).
Proof. intros (K & x & y & H). split; [apply skel_log; exact K|exists x, y; exact H]. Qed.
Lemma lost_purge : keeps Lost E purge_soft_deleted_edges (fun _ _ => True).
Proof.
  intros g (K & x & y & Hx & Hy & Ne & G). destruct (skel_purge g0 [] cor Sp g K) as [K' X]. assert (G' := gone_purge g0 [] cor Sp x y g K G).
  split; [split; [exact K'|exists x, y; auto]|]. destruct (snd (purge_soft_deleted_edges g)); [exact Logic.I|destruct X].
Qed.
Lemma lost_step dry s : gstep s -> step_keeps Lost E P no_hooks Q dry s.
Proof.
  intros [(A & GS) _ _ _ HP]. apply (keeps_step Lost E Q no_hooks (no_hooks_good _ _ _) dry (fun _ => q_lost g0 N Sp Ssym) A P s HP). destruct GS as [C G]. split; [intros g1 ns us [K1 _]; exact (C g1 ns us K1)|].
  intros g1 [K1 _]. eapply Forall_impl; [|exact (G g1 K1)]. intros f Hf g2 [K2 _]. exact (Hf g2 K2).
Qed.
Lemma lost_pstep p : gp p -> keeps Lost E (run_pstep fuel P no_hooks p) (fun _ _ => True).
Proof.
  destruct p as [s|name ex l|name l]; cbn [gp]; intros Gp; [|destruct Gp|].
  - apply (keeps_pstep_plain Lost E P no_hooks lost_log fuel Q s (lost_step false s Gp) lost_purge).
  - apply (keeps_pstep_together Lost E P no_hooks lost_log fuel Q name l (no_hooks_good _ _ _) (q_lost g0 N Sp Ssym)). eapply Forall_impl; [|exact Gp]. intros s [Gs _]. apply lost_step; exact Gs.
Qed.
Lemma full_whole h : sk h -> full g0 h -> whole h.
Proof. intros K F. split; [exact (sk_wf _ _ _ _ _ K)|]. intros x y Hx Hy Ne. rewrite (sk_nodes _ _ _ _ _ K) in Hx, Hy. apply F; assumption. Qed.
Lemma inner_back l : Forall (fun s => gstep s /\ s_parallel s = false) l -> forall h g' a, sk h -> run_inner P no_hooks true l h = (g', Ok a) -> g' = h /\ Forall Q (snd a) /\ (Forall nothing (snd a) -> Forall (fun s => calm s h) l).
Proof.
  induction l as [|s l IH]; intros F h g' a K R; [injection R as <- <-; repeat split; constructor|]. inversion F as [|? ? [Gs Par] Fl]; subst. cbn [run_inner] in R. unfold bind in R. destruct (execute_step P no_hooks s true h) as [h1 [b|x]] eqn:R1; [|discriminate].
  assert (Gs' := Gs). destruct Gs' as [(A & GS) Un Sy _ HP]. destruct (step_dry s Un Sy P h h1 b Par R1) as [-> C1].
  assert (G2 := keeps_step sk E Q no_hooks (no_hooks_good _ _ _) true ltac:(discriminate) A P s HP GS h K). rewrite R1 in G2. destruct G2 as [_ [Gb _]].
  destruct (run_inner P no_hooks true l h) as [h2 [c|x]] eqn:R2; [|discriminate]. injection R as <- <-. destruct (IH Fl h h2 c K R2) as (-> & Gc & C2). split; [reflexivity|]. cbn [snd]. split; [apply Forall_app; auto|].
  intros Nn. apply Forall_app in Nn. destruct Nn as [N1 N2]. constructor; auto.
Qed.
Lemma pstep_back p h g' : gp p -> sk h -> full g0 h -> run_pstep fuel P no_hooks p h = (g', Ok tt) -> Lost g' \/ (eqv4 h g' /\ sk g' /\ easy_p fuel h p).
Proof.
  intros Gp K F R. assert (W := full_whole h K F). destruct p as [s|name ex l|name l]; cbn [gp] in Gp; [|destruct Gp|].
  - assert (Gs := Gp). destruct Gs as [(A & GS) Un Sy Bl HP]. cbn [run_pstep] in R. unfold bind in R. destruct (execute_step P no_hooks s false h) as [h1 [a|x]] eqn:R1; [|discriminate].
    destruct (step_back g0 N Sp Ssym s A GS Un Sy P h h1 a HP K F R1) as [L|[-> C]].
    + left. unfold log_step in R. assert (X := proj1 (lost_purge _ (lost_log h1 (ahist h1 ++ [HStep (s_name s) (fst a) (snd a) []]) L))). rewrite R in X. exact X.
    + right. unfold log_step in R. rewrite (whole_purge _ (whole_eqv _ _ (whole_log h _) W)) in R. injection R as <-. split; [apply whole_log|]. split; [apply skel_log; exact K|]. split; [exact Sy|]. exact (blind_steady s h Bl C).
  - cbn [run_pstep] in R. unfold bind at 1 in R. unfold run_together, bind in R. destruct (run_inner P no_hooks true l h) as [h1 [a|x]] eqn:R1; [|discriminate]. destruct (inner_back l Gp h h1 a K R1) as (-> & Ga & Ca).
    assert (GO : Forall (goodo Q) (map (fun i => Some [i]) (snd a))) by (apply Forall_forall; intros o I; apply in_map_iff in I; destruct I as (i & <- & Ii); constructor; [|constructor]; rewrite Forall_forall in Ga; apply Ga; exact Ii).
    destruct (take_action no_hooks false (map (fun i => Some [i]) (snd a)) h) as [h2 r2] eqn:R2. destruct (take_back g0 N Sp Ssym _ GO h h2 r2 K F R2) as [L|[So ->]].
    + left. destruct r2; [|discriminate]. cbn in R. injection R as <-. apply lost_log; exact L.
    + right. destruct r2; [|discriminate]. cbn in R. injection R as <-. split; [apply whole_log|]. split; [apply skel_log; exact K|].
      assert (Nn : Forall nothing (snd a)) by (apply Forall_forall; intros i I; assert (X := So (Some [i]) (in_map _ _ i I)); inversion X; assumption). specialize (Ca Nn). cbn [easy_p]. rewrite Forall_forall in Ca, Gp |- *.
      intros s I. destruct (Gp s I) as [[_ _ Sy Bl _] _]. split; [exact Sy|]. apply blind_steady; [exact Bl|apply Ca; exact I].
Qed.
Lemma pipeline_back l : Forall gp l -> forall h g', sk h -> full g0 h -> execute_pipeline fuel P no_hooks l h = (g', Ok tt) -> Lost g' \/ (eqv4 h g' /\ sk g' /\ Forall (easy_p fuel h) l).
Proof.
  induction l as [|p l IH]; intros Fl h g' K F R; [injection R as <-; right; split; [apply eqv4_refl|split; [exact K|constructor]]|]. inversion Fl as [|? ? Gp Gl]; subst. cbn [execute_pipeline] in R. unfold bind in R.
  destruct (run_pstep fuel P no_hooks p h) as [h1 [[]|x]] eqn:R1; [|discriminate]. destruct (pstep_back p h h1 Gp K F R1) as [L|(Q1 & K1 & E1)].
  - left. assert (X := keeps_pipeline Lost E P no_hooks fuel l). assert (Y : Forall (fun p => keeps Lost E (run_pstep fuel P no_hooks p) (fun _ _ => True)) l) by (eapply Forall_impl; [|exact Gl]; intros q; apply lost_pstep).
    assert (Z := proj1 (X Y h1 L)). rewrite R in Z. exact Z.
  - assert (F1 : full g0 h1) by (intros u v Hu Hv Ne; rewrite (eqv4_dee h h1 u v Q1); apply F; assumption). destruct (IH Gl h1 g' K1 F1 R) as [L|(Q2 & K2 & E2)]; [left; exact L|]. right. split; [eapply eqv4_trans; eassumption|]. split; [exact K2|].
    constructor; [exact E1|]. eapply Forall_impl; [|exact E2]. intros q. apply easy_p_eqv. apply eqv4_sym; exact Q1.
Qed.
End First.
