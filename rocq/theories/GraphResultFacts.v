(* Lemmas on results that are made of graphs. *)
From Coq Require Import Ascii.
From Verif Require Import Base PyDict PyDictFacts Graph GraphSpec GraphFacts GraphInv GraphInv2 GraphInv3 GraphQ Actions ActionSpec ActionFacts ActionMain Generators Rules IndepTests
  Pipeline Parallel PipeSpec PipeFacts PipeMain RuleFacts PipeMain2 Construct ConstructSpec ConstructFacts SkelStart
  JsonText JsonTextSpec JsonTextFacts JsonTextMain ResultText ResultTextSpec ResultTextFacts GraphResult GraphResultSpec.
Open Scope string_scope.
Open Scope list_scope.

(* ---- what runs leave on edges and in the log ---- *)
Definition basic_value (m : mval) : Prop := match m with MNum _ | MBool _ | MStr _ => True | _ => False end.
Definition basic_meta (d : meta) : Prop := NoDup (dkeys d) /\ forall k v, dget d k = Some v -> basic_value v.
Definition updates (i : tresult) : Prop := t_act i = UPDATE_EDGE \/ t_act i = UPDATE_EDGE_DIRECTED.
Definition tame (i : tresult) : Prop := quiet i /\ (forall d, t_data i = Some d -> NoDup (dkeys d)) /\ (updates i -> forall d, t_data i = Some d -> basic_meta d).
Inductive tame_log : hstep -> Prop := TL n a p ss : Forall tame a -> Forall tame p -> Forall tame_log ss -> tame_log (HStep n a p ss).
Definition minv (g : graph) : Prop := WF g /\ (forall u v e, eget g u v = Some e -> exists d, e_meta e = Some d /\ basic_meta d) /\ Forall tame_log (ahist g).

Lemma basic_dset d k z : basic_meta d -> basic_meta (dset d k (MNum z)).
Proof.
  intros [N B]. split; [apply NoDup_dset, N|]. intros k' v. rewrite dget_dset. destruct (eqb k' k); [intros E; injection E as <-; exact I|apply B].
Qed.
Lemma tame_removal u v a d : (a = REMOVE_EDGE_UNDIRECTED \/ a = REMOVE_EDGE_DIRECTED \/ a = DO_NOTHING) -> NoDup (dkeys d) -> tame (mkT u v a (Some d)).
Proof.
  intros A N. split; [intros [X|X]; cbn in X; intuition congruence|]. split; [intros d' E; injection E as <-; exact N|]. intros [X|X]; cbn in X; intuition congruence.
Qed.
Lemma nodup_between x y z : NoDup (dkeys (between x y z)).
Proof. repeat constructor; cbn; tauto. Qed.
Lemma nodup_conflict x y z : NoDup (dkeys (conflict x y z)).
Proof. repeat constructor; cbn; intuition discriminate. Qed.
Lemma nodup_nil : NoDup (dkeys ([] : meta)).
Proof. constructor. Qed.
Ltac tame_one := apply tame_removal; [tauto|first [apply nodup_between|apply nodup_conflict|apply nodup_nil]].
Lemma tame_test i : test_result i -> tame i.
Proof. intros (x & y & zs & [->| ->]); apply tame_removal; try tauto; repeat constructor; cbn; intuition discriminate. Qed.
Lemma tame_update g u v a k z m : minv g -> (a = UPDATE_EDGE \/ a = UPDATE_EDGE_DIRECTED) -> edge_value g u v = Ok (Some m) -> tame (mkT u v a (Some (dset m k (MNum z)))).
Proof.
  intros (W & M & _) A E. assert (B : basic_meta m).
  { unfold edge_value in E. destruct (negb _); [discriminate|]. destruct (dget2 (edges g) u v) as [e|] eqn:X; [|discriminate]. injection E as E. destruct (M u v e X) as (d & D & BM). congruence. }
  assert (B' := basic_dset m k z B). split; [intros [X|X]; cbn in X; intuition congruence|]. split; [intros d E'; injection E' as <-; apply B'|]. intros _ d E'. injection E' as <-. exact B'.
Qed.
Lemma proc_tame p g ns us o : discovery_proc p -> minv g -> p g ns us = Ok o -> Forall tame (items_of o).
Proof.
  intros D M E. apply Forall_forall. intros i Hi. destruct D as [N|N|N|so N|so N|st so NK|so| |so|so|N].
  - unfold pearson_process in E. inv_ok E. destruct a1 as [m|]; [|discriminate]. injection E as <-. destruct Hi as [<-|[]]. eapply tame_update; eauto.
  - exact (tame_test i (corr_results N g ns us o i E Hi)).
  - exact (tame_test i (partial_results N g ns us o i E Hi)).
  - exact (tame_test i (matrix_results so N g ns us o i E Hi)).
  - exact (tame_test i (regression_results so N g ns us o i E Hi)).
  - apply collider_inv in E. destruct E as (x & y & _ & _ & [[_ ->]|(_ & zs & acts & rs & -> & _ & _ & R)]); [destruct Hi|]. destruct (rflat_In _ _ _ _ R Hi) as (z & l & _ & B & Hl). apply collider_body_inv in B.
    destruct B as (seps & _ & _ & [[_ ->]|(_ & ux & uy & _ & _ & [(_ & _ & ->)|(_ & ->)])]); [destruct Hl| |].
    + destruct Hl as [<-|[<-|[]]]; tame_one.
    + destruct st; [|congruence|destruct Hl]. apply in_app_iff in Hl. destruct Hl as [Hl|Hl]; [destruct uy|destruct ux]; try (destruct Hl; fail); destruct Hl as [<-|[]]; tame_one.
  - apply non_collider_inv in E. destruct E as (x & y & _ & _ & [[_ ->]|(_ & zs & _ & L)]); [destruct Hi|].
    apply non_collider_loop_inv in L. destruct L as [->|(z & _ & [(_ & _ & ->)|(_ & _ & ->)])]; [destruct Hi|..]; cbn in Hi; destruct Hi as [<-|[]]; destruct (would_collide _ _ _); tame_one.
  - destruct (triple_inv g ns us o i E Hi) as (x & y & z & _ & _ & _ & _ & [(_ & _ & ->)|(_ & _ & ->)]); tame_one.
  - destruct (quadruple_inv so g ns us o i E Hi) as (y & w & x & z & H). decompose [and] H; subst i; tame_one.
  - destruct (further_quadruple_inv so g ns us o i E Hi) as (x & w & a & c & b & d & H). decompose [and] H; subst i; tame_one.
  - unfold effect_process in E. inv_ok E; [injection E as <-; destruct Hi|]. destruct a1 as [m|]; [|discriminate]. injection E as <-. destruct Hi as [<-|[]]. eapply tame_update; eauto.
Qed.

Lemma act_minv i : tame i -> keeps minv anyE (apply_action i) (fun _ _ => True).
Proof.
  intros (Qi & _ & UP) g (W & M & L). destruct (apply_action i g) as [g' r] eqn:E. cbn [fst snd]. destruct (apply_action_spec g i g' r W E) as (W' & AH & _ & S).
  split; [|destruct r; exact I]. split; [exact W'|]. split; [|rewrite AH; exact L].
  destruct r as [[]|x].
  2: { destruct S as [-> _]; exact M. }
  2: { destruct S as (_ & _ & K). rewrite K; [exact M|]. intros X; apply Qi; left; exact X. }
  destruct S as (_ & _ & K & _). unfold action_effect in K. unfold quiet, restores in Qi. unfold updates in UP.
  assert (ND : (t_act i = UPDATE_EDGE \/ t_act i = UPDATE_EDGE_DIRECTED) -> forall u v e, eget g u v = Some e -> exists d, e_meta (new_data i e) = Some d /\ basic_meta d).
  { intros X u v e Ee. unfold new_data. destruct (t_data i) as [d|]; [exists d; split; [reflexivity|exact (UP X d eq_refl)]|eapply M; exact Ee]. }
  destruct (t_act i).
  - destruct K as (C & F1 & F2). intros a b e' Ee. rewrite <- entry_eget in Ee. destruct (pair_in_dec (a, b) [(t_u i, t_v i); (t_v i, t_u i)]) as [[X|[X|[]]]|NI].
    + injection X as <- <-. rewrite F1, entry_eget in Ee. destruct (eget g (t_u i) (t_v i)) as [e|] eqn:G; [|discriminate]. injection Ee as <-. eapply ND; [tauto|exact G].
    + injection X as <- <-. rewrite F2, entry_eget in Ee. destruct (eget g (t_v i) (t_u i)) as [e|] eqn:G; [|discriminate]. injection Ee as <-. eapply ND; [tauto|exact G].
    + rewrite (proj2 C a b NI), entry_eget in Ee. eapply M; exact Ee.
  - destruct K as (C & F1). intros a b e' Ee. rewrite <- entry_eget in Ee. destruct (pair_in_dec (a, b) [(t_u i, t_v i)]) as [[X|[]]|NI].
    + injection X as <- <-. rewrite F1, entry_eget in Ee. destruct (eget g (t_u i) (t_v i)) as [e|] eqn:G; [|discriminate]. injection Ee as <-. eapply ND; [tauto|exact G].
    + rewrite (proj2 C a b NI), entry_eget in Ee. eapply M; exact Ee.
  - contradiction.
  - contradiction.
  - destruct K as (C & F1 & F2). intros a b e' Ee. rewrite <- entry_eget in Ee. destruct (pair_in_dec (a, b) [(t_u i, t_v i); (t_v i, t_u i)]) as [[X|[X|[]]]|NI].
    + injection X as <- <-. rewrite F1, entry_eget in Ee. destruct (eget g (t_u i) (t_v i)) as [e|] eqn:G; [|discriminate]. injection Ee as <-. exact (M _ _ _ G).
    + injection X as <- <-. rewrite F2, entry_eget in Ee. destruct (eget g (t_v i) (t_u i)) as [e|] eqn:G; [|discriminate]. injection Ee as <-. exact (M _ _ _ G).
    + rewrite (proj2 C a b NI), entry_eget in Ee. eapply M; exact Ee.
  - destruct K as (C & F1 & F2). intros a b e' Ee. rewrite <- entry_eget in Ee. destruct (pair_in_dec (a, b) [(t_u i, t_v i); (t_v i, t_u i)]) as [[X|[X|[]]]|NI].
    + injection X as <- <-. rewrite F1, entry_eget in Ee. destruct (eget g (t_u i) (t_v i)) as [e|] eqn:G; [|discriminate]. injection Ee as <-. exact (M _ _ _ G).
    + injection X as <- <-. rewrite F2, entry_eget in Ee. destruct (eget g (t_v i) (t_u i)) as [e|] eqn:G; [|destruct (directed_edge_exists g (t_v i) (t_u i)); discriminate].
      destruct (directed_edge_exists g (t_v i) (t_u i)); injection Ee as <-; exact (M _ _ _ G).
    + rewrite (proj2 C a b NI), entry_eget in Ee. eapply M; exact Ee.
  - exfalso; apply Qi; left; reflexivity.
  - exfalso; apply Qi; right; reflexivity.
  - contradiction.
Qed.
Lemma purge_minv : keeps minv anyE purge_soft_deleted_edges (fun _ _ => True).
Proof.
  intros g (W & M & L). destruct (purge_ok g W) as (g' & R & W' & _ & AH & _ & _ & G & _). rewrite R. cbn. split; [|exact I]. split; [exact W'|]. split; [|rewrite AH; exact L].
  intros u v e Ee. rewrite G in Ee. destruct (eget g u v) as [x|] eqn:X; [|discriminate]. destruct (e_del x); [discriminate|]. injection Ee as <-. exact (M _ _ _ X).
Qed.
Lemma log_minv h : tame_log h -> keeps minv anyE (log_step h) (fun _ _ => True).
Proof.
  intros T g (W & M & L). cbn. split; [|exact I]. split; [apply WF_ahist; exact W|]. split; [exact M|]. cbn. apply Forall_app. split; [exact L|constructor; [exact T|constructor]].
Qed.
Lemma call_tame s : discovery_proc (s_proc s) -> good_step minv anyE tame anyA s.
Proof.
  intros D. split; [|apply (any_step minv s)]. intros g ns us IV _ _. unfold call. destruct (s_proc s g ns _) eqn:E; [|exact I]. exact (proc_tame _ _ _ _ _ D IV E).
Qed.
Lemma minv_step P s dry : (s_parallel s = true -> pool_runner no_hooks P) -> discovery_proc (s_proc s) -> step_keeps minv anyE P no_hooks tame dry s.
Proof. intros HP D. apply (keeps_step minv anyE tame no_hooks (no_hooks_good _ _ _) dry (fun _ => act_minv) anyA P s HP (call_tame s D)). Qed.

Section Runs.
Variable P : runner.
Notation kp := (keeps minv anyE).
Lemma inner_log dry l : Forall (step_keeps minv anyE P no_hooks tame dry) l -> kp (run_inner P no_hooks dry l) (fun a _ => Forall tame_log (fst a) /\ Forall tame (snd a)).
Proof.
  induction l as [|s l IH]; intros HF; [apply keeps_ret; intros; split; constructor|]. inversion HF as [|? ? Hs Hl]; subst. cbn [run_inner].
  apply (keeps_bind' _ _ _ _ (good2 tame)); [exact Hs|]. intros a [Ga Gp]. apply (keeps_bind' _ _ _ _ (fun b => Forall tame_log (fst b) /\ Forall tame (snd b))); [apply IH; exact Hl|].
  intros b [Gb1 Gb2]. apply keeps_ret; intros; cbn. split; [|apply Forall_app; auto]. constructor; [|exact Gb1]. constructor; [exact Ga|exact Gp|constructor].
Qed.
Lemma loop_log exit l : Forall (step_keeps minv anyE P no_hooks tame false) l -> forall fuel n last, kp (run_loop fuel P no_hooks exit l n last) (fun hs _ => Forall tame_log hs).
Proof.
  intros HF. induction fuel as [|f IH]; intros n last; cbn [run_loop]; [apply keeps_raise; exact I|].
  apply (keeps_bind' _ _ _ _ (fun _ => True)); [apply keeps_liftr; destruct (exit n last); [auto|exact I]|].
  intros stop _. destruct stop; [apply keeps_ret; constructor|]. apply (keeps_bind' _ _ _ _ (fun b => Forall tame_log (fst b) /\ Forall tame (snd b))); [apply inner_log; exact HF|].
  intros a [Ga _]. apply (keeps_bind' _ _ _ _ (Forall tame_log)); [apply IH|]. intros b Gb. apply keeps_ret; intros. apply Forall_app; auto.
Qed.
Lemma together_log l : Forall (step_keeps minv anyE P no_hooks tame true) l -> kp (run_together P no_hooks l) (fun hs _ => Forall tame_log hs).
Proof.
  intros HF. unfold run_together. apply (keeps_bind' _ _ _ _ (fun b => Forall tame_log (fst b) /\ Forall tame (snd b))); [apply inner_log; exact HF|].
  intros a [Ga Gs]. apply (keeps_bind' _ _ _ _ (good2 tame)).
  - apply (keeps_take _ _ _ _ (no_hooks_good _ _ _) false (fun _ => act_minv)). rewrite Forall_forall in Gs |- *. intros o Ho. apply in_map_iff in Ho. destruct Ho as (i & <- & Hi). constructor; [auto|constructor].
  - intros b _. apply keeps_ret; auto.
Qed.
Lemma run_minv fuel l : pool_runner no_hooks P -> discovery_pipeline l -> kp (execute_pipeline fuel P no_hooks l) (fun _ _ => True).
Proof.
  intros HP D. apply keeps_pipeline. apply Forall_forall. intros p Hp. destruct p as [s|name exit l1|name l1]; cbn [run_pstep].
  - apply (keeps_bind' _ _ _ _ (good2 tame)); [apply minv_step; [auto|apply (D _ _ Hp); left; reflexivity]|]. intros a [Ga Gp].
    apply (keeps_bind' _ _ _ _ (fun _ => True)); [apply log_minv; constructor; [exact Ga|exact Gp|constructor]|]. intros _ _. exact purge_minv.
  - apply (keeps_bind' _ _ _ _ (Forall tame_log)); [apply loop_log; apply Forall_forall; intros s Hs; apply minv_step; [auto|apply (D _ _ Hp Hs)]|]. intros hs Hh. apply log_minv. constructor; [constructor|constructor|exact Hh].
  - apply (keeps_bind' _ _ _ _ (Forall tame_log)); [apply together_log; apply Forall_forall; intros s Hs; apply minv_step; [auto|apply (D _ _ Hp Hs)]|]. intros hs Hh. apply log_minv. constructor; [constructor|constructor|exact Hh].
Qed.
End Runs.
Lemma discovery_shipped l : discovery_pipeline l -> shipped_pipeline false l.
Proof.
  intros D p s Hp Hs. left. destruct (D p s Hp Hs) as [N|N|N|so N|so N|st so NK|so| |so|so|N]; try constructor. assert (X := sh_collider st so). destruct st; [exact X|congruence|exact X].
Qed.
Lemma add_columns_log : forall l g, ahist (fst (add_columns l g)) = ahist g.
Proof.
  induction l as [|[k vs] l IH]; intros g; cbn [add_columns]; [reflexivity|]. unfold bind, add_node. destruct (dmem (nodes g) k); [reflexivity|]. destruct (tensor vs); [|reflexivity]. rewrite IH. reflexivity.
Qed.
Lemma new_graph_log l g : new_graph (add_columns l) = Ok g -> ahist g = [].
Proof.
  unfold new_graph. assert (X := add_columns_log l empty_graph). destruct (add_columns l empty_graph) as [g1 [u|e]]; [|discriminate]. intros E; injection E as <-; exact X.
Qed.
Lemma created_log d g : create_graph_from_data d = Ok g -> ahist g = [].
Proof.
  assert (FD : forall c, graph_from_dict c = Ok g -> ahist g = []) by (intros c; apply new_graph_log).
  assert (FL : forall l, graph_from_list l = Ok g -> ahist g = []).
  { intros [|r l] E; [discriminate|]. unfold graph_from_list in E. destruct (columns _ _); cbn in E; [|discriminate]. eapply new_graph_log; exact E. }
  destruct d as [c|l|l]; cbn [create_graph_from_data]; [apply FD|apply FL|]. unfold graph_from_loader.
  destruct (split_loader None l) as [[[|r rs]|e]|c]; [discriminate|apply FL|discriminate|apply FD].
Qed.
Lemma start_log d g : start_graph d = Ok g -> ahist g = [].
Proof.
  unfold start_graph. destruct (create_graph_from_data d) as [g1|e] eqn:C; cbn [rbind]; [|discriminate]. assert (R := created_reached _ _ C). apply created_log in C.
  destruct (c42_props g1 R) as (g2 & X & _ & L & _). rewrite X. intros E; injection E as <-. rewrite L. exact C.
Qed.
Lemma start_minv d g : start_graph d = Ok g -> minv g.
Proof.
  intros S. destruct (complete_start d g S) as [W G _ _]. split; [exact W|]. split.
  - intros u v e Ee. destruct (wf_fwd _ W _ _ _ Ee) as (Mu & Mv & Nuv & _). rewrite (G u v Mu Mv Nuv) in Ee. injection Ee as <-. exists []. split; [reflexivity|]. split; [constructor|intros k x X; discriminate X].
  - rewrite (start_log d g S). constructor.
Qed.

(* ---- the result as it is written ---- *)
Lemma lit_sound s : sound_string (lit s).
Proof.
  assert (B : forall c, In c (lit s) -> (0 <= c < 256)%Z).
  { intros c C. unfold lit in C. apply in_map_iff in C. destruct C as (a & <- & _). assert (X := nat_ascii_bounded a). lia. }
  split; [intros c C; specialize (B c C); unfold code_point; lia|]. intros p q a b E [HS _]. assert (X := B a ltac:(rewrite E; apply in_or_app; right; left; reflexivity)). unfold high_surrogate in HS. lia.
Qed.
Lemma lit_inj a b : lit a = lit b -> a = b.
Proof. intros E. rewrite <- (unlit_lit a), E. apply unlit_lit. Qed.
Lemma nodup_lit {A} (l : list (string * A)) {B} (f : string * A -> B) : NoDup (dkeys l) -> NoDup (map fst (map (fun p => (lit (fst p), f p)) l)).
Proof.
  intros N. rewrite map_map. cbn [fst]. unfold dkeys in N. induction l as [|[k x] l IH]; cbn in *; [constructor|]. inversion N as [|? ? NI N']; subst. constructor; [|apply IH; exact N'].
  intros H. apply NI. apply in_map_iff in H. destruct H as (q & E & H). apply lit_inj in E. rewrite <- E. apply in_map, H.
Qed.

Section Written.
Context {F : Type}.
Variable num : Z -> Z + F.
Variable other_type : string -> bool * ustr.
Variable duration : list nat -> option F.
Variables (float_text : F -> ustr) (read_float : ustr -> F).
Notation jval := (jval F).
Definition wnum (z : Z) : jval := match num z with inl n => JInt n | inr f => JFloat f end.
Definition wnode (g : graph) (x : id) : jval := JDict [(lit "name", JStr (lit (name_of g x))); (lit "id", JStr (lit x)); (lit "values", JNull); (lit "metadata", JDict [])].
Definition wmval (g : graph) (m : mval) : jval :=
  match m with
  | MNone => JNull | MBool b => JBool b | MNum z => wnum z | MStr s => JStr (lit s)
  | MNodes l => JList (map (wnode g) l)
  | MTriple x y zs => JList [wnode g x; wnode g y; JList (map (wnode g) zs)]
  | MBetween x y z => JDict [(lit "x", wnode g x); (lit "y", wnode g y); (lit "z", wnode g z)]
  end.
Definition wmeta (g : graph) (d : meta) : list (ustr * jval) := map (fun p => (lit (fst p), wmval g (snd p))) d.
Definition wedge (g : graph) (e : edge) : redge jval := mkREdge (node_ref g (e_u e)) (node_ref g (e_v e)) (type_of other_type (e_type e)) (option_map (wmeta g) (e_meta e)).
Definition wtrial (g : graph) (i : tresult) : rtrial jval := mkRTrial (node_ref g (t_u i)) (node_ref g (t_v i)) (t_act i) (option_map (wmeta g) (t_data i)).
Fixpoint wstep (g : graph) (path : list nat) (h : hstep) : rstep F jval :=
  match h with HStep n a p ss => RStep (lit n) (duration path) (map (wtrial g) a) (map (wtrial g) p) (numbered (fun k s => wstep g (path ++ [k]) s) 0 ss) end.

Lemma node_full_w g x : written (node_full g x) (wnode g x).
Proof. constructor. repeat apply Forall2_cons; try apply Forall2_nil; (split; [reflexivity|]); try constructor. constructor. Qed.
Lemma nodes_full_w g l : Forall2 written (map (node_full g) l) (map (wnode g) l).
Proof. induction l; constructor; [apply node_full_w|assumption]. Qed.
Lemma mval_w g m : written (dump_mval num g m) (wmval g m).
Proof.
  destruct m; cbn; try constructor.
  - unfold dump_num, wnum. destruct (num bits); constructor.
  - apply nodes_full_w.
  - repeat apply Forall2_cons; try apply Forall2_nil; try apply node_full_w. constructor. apply nodes_full_w.
  - repeat apply Forall2_cons; try apply Forall2_nil; (split; [reflexivity|apply node_full_w]).
Qed.
Lemma meta_w g d : entries_written (dump_meta num g d) (wmeta g d).
Proof. unfold entries_written. induction d as [|[k x] d IH]; constructor; [split; [reflexivity|apply mval_w]|exact IH]. Qed.
Lemma data_w g o : data_written (option_map (dump_meta num g) o) (option_map (wmeta g) o).
Proof. destruct o; cbn; [apply meta_w|exact I]. Qed.
Lemma edges_w g l : Forall2 edge_written (map (edge_of num other_type g) l) (map (wedge g) l).
Proof. induction l as [|e l IH]; constructor; [|exact IH]. repeat (split; [reflexivity|]). apply data_w. Qed.
Lemma trials_w g l : Forall2 trial_written (map (trial_of num g) l) (map (wtrial g) l).
Proof. induction l as [|e l IH]; constructor; [|exact IH]. repeat (split; [reflexivity|]). apply data_w. Qed.
Lemma numbered_2 {A B C} (R : B -> C -> Prop) (f : nat -> A -> B) (h : nat -> A -> C) l : (forall k x, In x l -> R (f k x) (h k x)) -> forall k, Forall2 R (numbered f k l) (numbered h k l).
Proof. induction l as [|x l IH]; intros H k; cbn [numbered]; constructor; [apply H; left; reflexivity|apply IH; intros j y Y; apply H; right; exact Y]. Qed.
Lemma numbered_all {A B} (R : B -> Prop) (f : nat -> A -> B) l : (forall k x, In x l -> R (f k x)) -> forall k, Forall R (numbered f k l).
Proof. induction l as [|x l IH]; intros H k; cbn [numbered]; constructor; [apply H; left; reflexivity|apply IH; intros j y Y; apply H; right; exact Y]. Qed.
Fixpoint step_w g h path {struct h} : step_written (step_of num duration g path h) (wstep g path h).
Proof.
  destruct h as [n a p ss]. cbn [step_of wstep]. constructor; [apply trials_w|apply trials_w|].
  generalize 0%nat. induction ss as [|s ss IH]; intros k; cbn [numbered]; constructor; [apply step_w|apply IH].
Qed.

Lemma trials_shown g l : Forall2 action_shown l (map (wtrial g) l).
Proof. induction l as [|e l IH]; constructor; [|exact IH]. repeat split; reflexivity. Qed.
Fixpoint wstep_shown g h path {struct h} : step_shown h (wstep g path h).
Proof.
  destruct h as [n a p ss]. cbn [wstep]. constructor; [apply trials_shown|apply trials_shown|].
  generalize 0%nat. induction ss as [|s ss IH]; intros k; cbn [numbered]; constructor; [apply wstep_shown|apply IH].
Qed.
Ltac keys := repeat (apply NoDup_cons; [cbn; intuition discriminate|]); apply NoDup_nil.
Ltac litkeys := repeat (apply Forall_cons; [apply lit_sound|]); apply Forall_nil.
Hypothesis floats_back : forall f, float_ok float_text read_float f.
Notation sound := (sound float_text read_float).
Lemma node_full_s g x : sound (wnode g x).
Proof.
  constructor; [keys|litkeys|]. repeat apply Forall_cons; try apply Forall_nil; cbn [snd]; constructor; try apply lit_sound; constructor.
Qed.
Lemma nodes_full_s g l : Forall sound (map (wnode g) l).
Proof. induction l; constructor; [apply node_full_s|assumption]. Qed.
Lemma mval_s g m : sound (wmval g m).
Proof.
  destruct m; cbn [wmval]; try constructor.
  - unfold wnum. destruct (num bits); constructor. apply floats_back.
  - apply lit_sound.
  - apply nodes_full_s.
  - repeat apply Forall_cons; try apply Forall_nil; try apply node_full_s. constructor. apply nodes_full_s.
  - keys.
  - litkeys.
  - repeat apply Forall_cons; try apply Forall_nil; apply node_full_s.
Qed.
Lemma data_s g d : NoDup (dkeys d) -> sound_data float_text read_float (Some (wmeta g d)).
Proof.
  intros N. split; [apply nodup_lit, N|]. unfold wmeta. apply Forall_forall. intros q Q. apply in_map_iff in Q. destruct Q as (p & <- & _). split; [apply lit_sound|apply mval_s].
Qed.
Lemma node_ref_s g x : sound_node (node_ref g x).
Proof. split; apply lit_sound. Qed.
Lemma trials_s g l : Forall tame l -> Forall (sound_trial float_text read_float) (map (wtrial g) l).
Proof.
  induction 1 as [|i l (_ & N & _) _ IH]; constructor; [|exact IH]. split; [apply node_ref_s|]. split; [apply node_ref_s|]. unfold wtrial. cbn [rt_data]. destruct (t_data i) as [d|]; [apply data_s, N; reflexivity|exact I].
Qed.
Fixpoint step_s g h path (T : tame_log h) {struct T} : sound_step float_text read_float (wstep g path h).
Proof.
  destruct T as [n a p ss Ta Tp Ts]. cbn [wstep]. constructor; [apply lit_sound|intros f _; apply floats_back|apply trials_s, Ta|apply trials_s, Tp|].
  generalize 0%nat. induction Ts as [|s ss Ts1 Ts2 IH]; intros k; cbn [numbered]; constructor; [apply step_s; exact Ts1|apply IH].
Qed.
End Written.
