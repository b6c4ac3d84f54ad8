(* The whole linear model from data and known directions: C129. *)
From Coq Require Import Reals List Lia Lra.
From Verif Require Import Base PyDict PyDictFacts Graph GraphSpec GraphFacts GraphInv GraphCheck PathSpec Actions Generators IndepTests Rules Pipeline Parallel PipeSpec PipeMain PipeMain2 Construct ConstructFacts
  SampleGen SampleSpec Dag DagFacts SkelSpec SkelStart Schedules OrientSpec OrientTop PropsPC PropsCpdag DsepDec Ideal EffectSpec EffectFacts PropsEffect
  Numeric NumericSpec NumericFacts NumericFacts2 PropsNumeric LinearSpec UnitsFacts LinearFacts LinearFacts2 LinearFacts3 LinearFacts4 LinearThree PropsLinear LinearEffectSpec LinearEffectFacts PropsLinearEffect
  ExtendSpec PropsExtend ActionMain PipeFacts RuleFacts DagSep OrientGraph KnowSpec KnowGraph KnowTop PropsKnow.
Import ListNotations.
Open Scope string_scope.
Open Scope list_scope.
Open Scope R_scope.

Section Effects.
Variables (fuel : nat) (P : runner) (so : list id -> list id) (N : numerics) (d : rawdata) (g0 : graph) (D : list (id * id)) (K : id -> id -> Prop) (front : list pstep) (ks : list step) (g1 g : graph).
Hypothesis S0 : start_graph d = Ok g0.
Hypothesis DG : dag_over (dkeys (nodes g0)) D.
Hypothesis KS : forall x y, K x y -> edge_in D x y.
Hypothesis HF : Forall (fun p => Forall (par_ok P) (steps_of p)) front.
Hypothesis HK : forall s, In s ks -> knowledge_step D K P g0 s.
Hypothesis R : known_run fuel P front (map PStep ks) (rules_last so N) N g0 D K g1 g (Ok tt).
Lemma known_effects u v : one_way g u v -> (forall p, ~ two_way g p v) -> exists ps c, NoDup ps /\ (forall p, In p ps <-> p <> u /\ edge_in D p v) /\
  n_effect N (values_of g0 u) (map (values_of g0) ps) (values_of g0 v) = Ok c /\ stored_effect g u v c.
Proof.
  intros O T. assert (Ac := do_acyclic _ _ DG). assert (M := kr_pattern _ _ _ _ _ _ _ _ _ _ _ _ R). assert (Nn := kr_nodes _ _ _ _ _ _ _ _ _ _ _ _ R).
  assert (KE : forall x y, one_way g1 x y -> edge_in D x y) by (intros x y H; apply (known_sound D K Ac KS), (kr_shown _ _ _ _ _ _ _ _ _ _ _ _ R), H).
  assert (E := kr_run _ _ _ _ _ _ _ _ _ _ _ _ R). assert (W := reached_WF _ (start_reached _ _ S0)).
  assert (El : front ++ map PStep ks ++ rules_last so N = (front ++ map PStep ks ++ [PLoop "Loop" exit_on_no_actions (orientation_steps so)]) ++ [PStep (effect_step N)]) by (unfold rules_last; rewrite <- !app_assoc; reflexivity).
  rewrite El in E.
  assert (F : Forall (fun p => Forall (par_ok P) (steps_of p)) (front ++ map PStep ks ++ [PLoop "Loop" exit_on_no_actions (orientation_steps so)])).
  { apply Forall_app. split; [exact HF|]. apply Forall_app. split; [|repeat constructor; intros X; discriminate X]. apply Forall_forall. intros p Hp. apply in_map_iff in Hp. destruct Hp as (s & <- & Hs). cbn. constructor; [|constructor].
    destruct (HK s Hs) as (A & _ & _ & H). exact H. }
  destruct (effect_last fuel P _ N g0 g W F E) as (ga & gb & _ & W1 & W2 & N1 & L & Ef & Ev).
  assert (O1 : one_way ga u v) by (unfold one_way, only_directed_edge_exists in *; rewrite <- !L; exact O).
  destruct (Ef u v O1) as (ps & m & c & ND & In_ & E1 & E2 & E3). exists ps, c. split; [exact ND|].
  assert (V : forall x, values_of ga x = values_of g0 x) by (intros x; unfold values_of; rewrite <- N1, Nn; reflexivity).
  split.
  { intros p. rewrite In_, <- L. split; intros [Ne H]; (split; [exact Ne|]).
    - destruct (directed_edge_exists g v p) eqn:B; [exfalso; apply (T p); unfold two_way, undirected_edge_exists; rewrite H, B; reflexivity|].
      apply (kr_true _ _ _ _ _ _ _ _ _ _ _ _ R). unfold one_way, only_directed_edge_exists. rewrite H, B. reflexivity.
    - exact (kp_live D (one_way g1) g Ac KE M p v H). }
  assert (EQ : map (values_of g0) ps = map (values_of ga) ps) by (apply map_ext; intros x; rewrite V; reflexivity).
  rewrite EQ, <- !V. split; [exact E2|]. exists (dset m "direct_effect" (MNum c)). split; [|apply dget_dset_same].
  rewrite Ev; [exact E3|]. unfold one_way, only_directed_edge_exists in O. apply andb_true_iff in O. tauto.
Qed.
End Effects.

(* PC with the steps ks between the collider detection and the rules *)
Definition pc_with (so : list id -> list id) (st : cstrategy) (N : numerics) (ks : list step) : list pstep :=
  [PStep (calculate_pearson N); PStep (correlation_step N); PStep (partial_step false N); PStep (matrix_step so 4 N); PStep (collider_step st so)] ++ map PStep ks ++
  [PLoop "Loop" exit_on_no_actions (orientation_steps so); PStep (effect_step N)].

(* C129: in linear data every edge that PC, told some true directions, directs into a variable without undirected edges
   carries its weight in the structural equations, if the causes of that variable have mean 0; *)
Theorem C129_effects : forall fuel P d g0 dec code ecode Phi th n so st es N (K : id -> id -> Prop) ks g, start_graph d = Ok g0 -> (2 <= n)%nat ->
  linear_data n (dkeys (nodes g0)) es (fun v => map dec (values_of g0 v)) -> (forall v, In v (dkeys (nodes g0)) -> varies n (noise es (fun v => map dec (values_of g0 v)) v)) ->
  Phi 0 = 1 / 2 -> th < 1 -> detected Phi th n (dkeys (nodes g0)) (arrows es) (fun v => map dec (values_of g0 v)) ->
  exact_tests dec code Phi th n (values_of g0) (dkeys (nodes g0)) N -> exact_effects dec ecode n (values_of g0) (dkeys (nodes g0)) N ->
  set_order so -> (List.length (nodes g0) * List.length (nodes g0) + 2 <= fuel)%nat -> (forall x y, K x y -> edge_in (arrows es) x y) -> (forall s, In s ks -> knowledge_step (arrows es) K P g0 s) ->
  execute_pipeline fuel P no_hooks (pc_with so st N ks) g0 = (g, Ok tt) ->
  forall u v, one_way g u v -> (forall p, ~ two_way g p v) -> (forall p, edge_in (arrows es) p v -> centered (map dec (values_of g0 p))) -> edge_in (arrows es) u v /\ stored_effect g u v (ecode (weight es u v)).
Proof.
  intros fuel P d g0 dec code ecode Phi th n so st es N K ks g S0 H2 LD Va P0 Ht De EX EE SO F KS HK Ru u v O T Ce0. assert (ND := wf_nodes _ (cp_wf _ (complete_start d g0 S0))).
  destruct (C92_tests dec code Phi th n (values_of g0) (dkeys (nodes g0)) es N H2 ND LD Va P0 Ht De EX) as [c PT]. assert (DO := ld_dag _ _ _ _ LD).
  destruct (C128_pc fuel P so N d g0 (arrows es) c K ks st S0 DO PT SO F KS HK) as (g1 & g' & r & KR & _).
  assert (Q := kr_run _ _ _ _ _ _ _ _ _ _ _ _ KR). unfold pc_with in Ru. rewrite Ru in Q. injection Q as <- <-.
  assert (Eu := kr_true _ _ _ _ _ _ _ _ _ _ _ _ KR u v O). split; [exact Eu|].
  assert (FP : Forall (fun p => Forall (par_ok P) (steps_of p)) [PStep (calculate_pearson N); PStep (correlation_step N); PStep (partial_step false N); PStep (matrix_step so 4 N); PStep (collider_step st so)]) by (repeat constructor; intros X; discriminate X).
  destruct (known_effects fuel P so N d g0 (arrows es) K _ ks g1 g S0 DO KS FP HK KR u v O T) as (ps & k & NDp & Hp & Ef & St).
  assert (Iv : In v (dkeys (nodes g0))) by (apply (do_nodes _ _ DO _ _ Eu)).
  assert (NDu : NoDup (u :: ps)) by (constructor; [intros I; apply Hp in I; destruct I as [I _]; exact (I eq_refl)|exact NDp]).
  assert (Hps : forall p, In p (u :: ps) <-> edge_in (arrows es) p v). { intros p. cbn [In]. rewrite Hp. split; [intros [<-|[_ E]]; assumption|]. intros E. destruct (string_dec u p) as [|Ne]; [left; assumption|right; split; [congruence|exact E]]. }
  set (col := fun w => map dec (values_of g0 w)) in *.
  assert (Ip : forall p, In p (u :: ps) -> In p (dkeys (nodes g0))) by (intros p I; apply Hps in I; apply (do_nodes _ _ DO _ _ I)).
  assert (Ce : forall p, In p (u :: ps) -> centered (col p)) by (intros p I; apply Ce0, Hps, I).
  assert (W := weights_fit n _ es col ltac:(lia) ND LD v (u :: ps) Iv NDu Hps Ce). destruct (columns_ok n _ es col ltac:(lia) ND LD Va (u :: ps) NDu Ip Ce) as [_ Ind].
  assert (Q := EE u ps v (map (fun p => weight es p v) (u :: ps))). rewrite Q in Ef; [injection Ef as <-; exact St| | |exact Ind|exact W].
  - constructor; [|exact NDu]. intros I. apply Hps in I. apply (do_acyclic _ _ DO v). exists v. split; [exact I|apply reach_refl].
  - intros z [<-|I]; [exact Iv|apply Ip; exact I].
Qed.
Print Assumptions C129_effects.

(* so whoever tells all directions gets the whole model: the edges of the structural equations, each with its weight *)
Theorem C129_model : forall fuel P d g0 dec code ecode Phi th n so st es N ks g, start_graph d = Ok g0 -> (2 <= n)%nat ->
  linear_data n (dkeys (nodes g0)) es (fun v => map dec (values_of g0 v)) -> (forall v, In v (dkeys (nodes g0)) -> varies n (noise es (fun v => map dec (values_of g0 v)) v)) ->
  Phi 0 = 1 / 2 -> th < 1 -> detected Phi th n (dkeys (nodes g0)) (arrows es) (fun v => map dec (values_of g0 v)) ->
  exact_tests dec code Phi th n (values_of g0) (dkeys (nodes g0)) N -> exact_effects dec ecode n (values_of g0) (dkeys (nodes g0)) N ->
  set_order so -> (List.length (nodes g0) * List.length (nodes g0) + 2 <= fuel)%nat -> (forall v, In v (dkeys (nodes g0)) -> centered (map dec (values_of g0 v))) ->
  (forall s, In s ks -> knowledge_step (arrows es) (edge_in (arrows es)) P g0 s) -> (forall x y, edge_in (arrows es) x y -> exists s, In s ks /\ tells (arrows es) g0 s x y) ->
  execute_pipeline fuel P no_hooks (pc_with so st N ks) g0 = (g, Ok tt) ->
  forall u v, (directed_edge_exists g u v = true <-> edge_in (arrows es) u v) /\ (edge_in (arrows es) u v -> stored_effect g u v (ecode (weight es u v))).
Proof.
  intros fuel P d g0 dec code ecode Phi th n so st es N ks g S0 H2 LD Va P0 Ht De EX EE SO F Ce HK HT Ru. assert (ND := wf_nodes _ (cp_wf _ (complete_start d g0 S0))).
  destruct (C92_tests dec code Phi th n (values_of g0) (dkeys (nodes g0)) es N H2 ND LD Va P0 Ht De EX) as [c PT]. assert (DO := ld_dag _ _ _ _ LD).
  destruct (C128_all fuel P so N d g0 (arrows es) c ks st S0 DO PT SO F HK HT) as (g' & r & Q & X & _). unfold pc_with in Ru. rewrite Ru in Q. injection Q as <- <-.
  assert (TW : forall p v, ~ two_way g p v).
  { intros p v T. unfold two_way, undirected_edge_exists in T. apply andb_true_iff in T. destruct T as [T1 T2]. apply X in T1, T2. exact (no_two _ (do_acyclic _ _ DO) _ _ T1 T2). }
  intros u v. split; [apply X|]. intros E.
  apply (C129_effects fuel P d g0 dec code ecode Phi th n so st es N (edge_in (arrows es)) ks g S0 H2 LD Va P0 Ht De EX EE SO F (fun x y h => h) HK Ru u v).
  - assert (L := proj2 (X u v) E). unfold one_way, only_directed_edge_exists. rewrite L. destruct (directed_edge_exists g v u) eqn:B; [|reflexivity]. apply X in B. exfalso. exact (no_two _ (do_acyclic _ _ DO) _ _ E B).
  - intros p. apply TW.
  - intros p H. apply Ce. apply (do_nodes _ _ DO _ _ H).
Qed.
Print Assumptions C129_model.

(* b = a + noise, c = 2 a + b + noise: PC leaves all edges undirected; told the directions it finds the weights *)
Definition full_es : list (sedge R) := [mkSE "a" 0%Z "b" 1; mkSE "b" 0%Z "c" 1; mkSE "a" 0%Z "c" 2].
Definition full : rawdata := DDict [("a", map Some [1; 1; 1; 1; -1; -1; -1; -1]); ("b", map Some [2; 2; 0; 0; 0; 0; -2; -2]); ("c", map Some [5; 3; 3; 1; -1; -3; -3; -5])]%Z.
Lemma full_facts : start_graph full = Ok (start full) /\ dkeys (nodes (start full)) = names3 /\
  values_of (start full) "a" = [1; 1; 1; 1; -1; -1; -1; -1]%Z /\ values_of (start full) "b" = [2; 2; 0; 0; 0; 0; -2; -2]%Z /\ values_of (start full) "c" = [5; 3; 3; 1; -1; -3; -3; -5]%Z.
Proof. repeat (split; [vm_compute; reflexivity|]). vm_compute. reflexivity. Qed.
Section Full.
Variable vals : id -> list Z.
Hypothesis Va : vals "a" = [1; 1; 1; 1; -1; -1; -1; -1]%Z.
Hypothesis Vb : vals "b" = [2; 2; 0; 0; 0; 0; -2; -2]%Z.
Hypothesis Vc : vals "c" = [5; 3; 3; 1; -1; -3; -3; -5]%Z.
Lemma full_linear : linear_data 8 names3 full_es (fun v => map IZR (vals v)) /\ (forall v, In v names3 -> varies 8 (noise full_es (fun v => map IZR (vals v)) v)).
Proof.
  destruct own_facts as [O1 O2]. apply (table_linear full_es vals own); [apply dag_by_order; [exact nodup3|reflexivity]|intros v I; each_name; rewrite ?Va, ?Vb, ?Vc; split; reflexivity| |exact O1|exact O2].
  intros v t I Ht. unfold noise. each_name.
  - change (incoming full_es "a") with (@nil (sedge R)). rewrite Va. change (own "a") with [1; 1; 1; 1; -1; -1; -1; -1]%Z. unfold at_. eight t Ht.
  - change (incoming full_es "b") with [mkSE "a" 0%Z "b" 1]. cbn [map vsum se_value se_from]. rewrite Va, Vb. change (own "b") with [1; 1; -1; -1; 1; 1; -1; -1]%Z. unfold at_. eight t Ht.
  - change (incoming full_es "c") with [mkSE "b" 0%Z "c" 1; mkSE "a" 0%Z "c" 2]. cbn [map vsum se_value se_from]. rewrite Va, Vb, Vc. change (own "c") with [1; -1; 1; -1; 1; -1; 1; -1]%Z. unfold at_. eight t Ht.
Qed.
Lemma full_len : forall v, In v names3 -> List.length (vals v) = 8%nat.
Proof. intros v I. each_name; rewrite ?Va, ?Vb, ?Vc; reflexivity. Qed.
Lemma full_var : forall v, In v names3 -> (0 < zc (vals v) (vals v))%Z.
Proof. intros v I. each_name; rewrite ?Va, ?Vb, ?Vc; reflexivity. Qed.
Lemma full_par : forall x y z, In x names3 -> In y names3 -> In z names3 -> NoDup [x; y; z] -> (zc (vals x) (vals y) * zc (vals z) (vals z) <> zc (vals x) (vals z) * zc (vals y) (vals z))%Z.
Proof. intros x y z Ix Iy Iz ND. destruct (distinct3 x y z ND) as (N1 & N2 & N3). clear ND. each_name; try contradiction; rewrite ?Va, ?Vb, ?Vc; vm_compute; congruence. Qed.
Lemma full_sep : forall x y, In x names3 -> In y names3 -> x <> y -> zc (vals x) (vals y) = 0%Z -> dsep (arrows full_es) x y [].
Proof. intros x y Ix Iy Ne Z. exfalso. each_name; try contradiction; rewrite ?Va, ?Vb, ?Vc in Z; vm_compute in Z; discriminate Z. Qed.
End Full.
Definition told3 : list step := [tell (remove_directed "b" "a" []); tell (remove_directed "c" "b" []); tell (remove_directed "c" "a" [])].
Example C129_nonvacuous : exists g0 g g', start_graph full = Ok g0 /\ linear_data 8 (dkeys (nodes g0)) full_es (fun v => map IZR (values_of g0 v)) /\ (forall v, In v (dkeys (nodes g0)) -> varies 8 (noise full_es (fun v => map IZR (values_of g0 v)) v)) /\
  (forall v, In v (dkeys (nodes g0)) -> centered (map IZR (values_of g0 v))) /\
  Phi3 0 = 1 / 2 /\ detected Phi3 (1 / 100) 8 (dkeys (nodes g0)) (arrows full_es) (fun v => map IZR (values_of g0 v)) /\ exact_tests IZR code3 Phi3 (1 / 100) 8 (values_of g0) (dkeys (nodes g0)) exact3e /\
  exact_effects IZR ecode3 8 (values_of g0) (dkeys (nodes g0)) exact3e /\
  (forall s, In s told3 -> knowledge_step (arrows full_es) (edge_in (arrows full_es)) (batch_runner no_hooks) g0 s) /\ (forall x y, edge_in (arrows full_es) x y -> exists s, In s told3 /\ tells (arrows full_es) g0 s x y) /\
  execute_pipeline 11 (batch_runner no_hooks) no_hooks (pc_with dedup KEEP_FIRST exact3e []) g0 = (g, Ok tt) /\ two_way g "a" "b" /\ two_way g "b" "c" /\ two_way g "a" "c" /\
  execute_pipeline 11 (batch_runner no_hooks) no_hooks (pc_with dedup KEEP_FIRST exact3e told3) g0 = (g', Ok tt) /\ stored_effect g' "a" "b" 1 /\ stored_effect g' "b" "c" 1 /\ weight full_es "b" "c" = 1 /\ stored_effect g' "a" "c" 0 /\ weight full_es "a" "c" = 2.
Proof.
  destruct full_facts as (S & K & Va & Vb & Vc). exists (start full). rewrite K. destruct (full_linear (values_of (start full)) Va Vb Vc) as [LD Vr]. do 2 eexists. split; [exact S|]. split; [exact LD|]. split; [exact Vr|].
  split; [intros v I; each_name; unfold centered; rewrite ?Va, ?Vb, ?Vc; cbn; lra|].
  split; [unfold Phi3; destruct (Req_EM_T 0 0); [reflexivity|contradiction]|].
  split; [apply (detected3 (values_of (start full)) (full_len _ Va Vb Vc) (full_var _ Va Vb Vc) (full_par _ Va Vb Vc) full_es LD (full_sep _ Va Vb Vc))|].
  split; [apply exact3e_tests, (exact3_exact (values_of (start full)) (full_len _ Va Vb Vc) (full_var _ Va Vb Vc) (full_par _ Va Vb Vc))|].
  split; [apply effect3_exact, (full_len _ Va Vb Vc)|].
  split; [intros s [<-|[<-|[<-|[]]]]; apply tell_knowledge; cbn; auto|].
  split; [intros x y [H|[H|[H|[]]]]; injection H as <- <-; eexists; (split; [|apply tell_tells]); cbn; auto|].
  split; [vm_compute; reflexivity|]. split; [vm_compute; reflexivity|]. split; [vm_compute; reflexivity|]. split; [vm_compute; reflexivity|]. split; [vm_compute; reflexivity|].
  split; [eexists; split; vm_compute; reflexivity|]. split; [eexists; split; vm_compute; reflexivity|]. split; [unfold weight; cbn; ring|]. split; [eexists; split; vm_compute; reflexivity|]. unfold weight. cbn. ring.
Qed.
