(* Direct effects estimated from data that follow linear structural equations: C93. *)
From Coq Require Import Reals List Lia Lra.
From Verif Require Import Base PyDict PyDictFacts Graph GraphSpec GraphFacts GraphInv GraphCheck PathSpec Actions IndepTests Pipeline Parallel PipeSpec PipeMain2 Construct ConstructFacts
  SampleGen SampleSpec Dag DagFacts SkelSpec SkelStart Schedules OrientSpec OrientTop PropsPC PropsCpdag DsepDec Ideal EffectSpec EffectFacts PropsEffect
  Numeric NumericSpec NumericFacts NumericFacts2 PropsNumeric LinearSpec UnitsFacts LinearFacts LinearFacts2 LinearFacts3 LinearFacts4 LinearThree PropsLinear LinearEffectSpec LinearEffectFacts.
Import ListNotations.
Open Scope R_scope.

(* C93: in linear data, if the causes of a variable have mean 0, least squares on them finds the weights of the variable's
   structural equation and nothing else; *)
Theorem C93_weights : forall n ns es col v ps cs, (0 < n)%nat -> NoDup ns -> linear_data n ns es col -> (forall w, In w ns -> varies n (noise es col w)) -> In v ns ->
  NoDup ps -> (forall p, In p ps <-> edge_in (arrows es) p v) -> (forall p, In p ps -> centered (col p)) -> (least_squares n (col v) (map col ps) cs <-> cs = map (fun p => weight es p v) ps).
Proof.
  intros n ns es col v ps cs Hn ND LD Va Iv NDp Hps Ce. split; [exact (weights_only n ns es col Hn ND LD Va v ps Iv NDp Hps Ce cs)|intros ->; exact (weights_fit n ns es col Hn ND LD v ps Iv NDp Hps Ce)].
Qed.
Print Assumptions C93_weights.
(* so that after a run on such data every edge it directs into a variable without undirected edges whose causes have
   mean 0 carries the weight of that edge in the structural equations. *)
Theorem C93_effects_partial : forall fuel P l d g0 dec code ecode Phi th n so es N g, start_graph d = Ok g0 -> (2 <= n)%nat ->
  linear_data n (dkeys (nodes g0)) es (fun v => map dec (values_of g0 v)) -> (forall v, In v (dkeys (nodes g0)) -> varies n (noise es (fun v => map dec (values_of g0 v)) v)) ->
  Phi 0 = 1 / 2 -> th < 1 -> detected Phi th n (dkeys (nodes g0)) (arrows es) (fun v => map dec (values_of g0 v)) ->
  exact_tests dec code Phi th n (values_of g0) (dkeys (nodes g0)) N -> exact_effects dec ecode n (values_of g0) (dkeys (nodes g0)) N ->
  set_order so -> exact_algorithm P so N l -> (List.length (nodes g0) * List.length (nodes g0) + 2 <= fuel)%nat -> execute_pipeline fuel P no_hooks l g0 = (g, Ok tt) ->
  forall u v, one_way g u v -> (forall p, ~ two_way g p v) -> (forall p, edge_in (arrows es) p v -> centered (map dec (values_of g0 p))) -> edge_in (arrows es) u v /\ stored_effect g u v (ecode (weight es u v)).
Proof.
  intros fuel P l d g0 dec code ecode Phi th n so es N g S0 H2 LD Va P0 Ht De EX EE SO EA F Ru u v O T Ce0. assert (ND := wf_nodes _ (cp_wf _ (complete_start d g0 S0))).
  destruct (C92_tests dec code Phi th n (values_of g0) (dkeys (nodes g0)) es N H2 ND LD Va P0 Ht De EX) as [c PT].
  assert (PR : perfect_run fuel P l g0 (arrows es) N) by (split; [exists d; exact S0|exact (ld_dag _ _ _ _ LD)|exists c; exact PT|exists so; split; assumption|exact F]).
  assert (DO := ld_dag _ _ _ _ LD). assert (Eu : edge_in (arrows es) u v) by (apply (proj1 (C31_one_way fuel P l g0 (arrows es) N g (Ok tt) PR Ru u v) O); [exact DO|split; intros; reflexivity]).
  split; [exact Eu|]. destruct (C60_causes_partial fuel P l g0 (arrows es) N g PR Ru u v O T) as (ps & k & NDp & Hp & Ef & St).
  assert (Iv : In v (dkeys (nodes g0))) by (apply (do_nodes _ _ DO _ _ Eu)).
  assert (NDu : NoDup (u :: ps)) by (constructor; [intros I; apply Hp in I; destruct I as [I _]; exact (I eq_refl)|exact NDp]).
  assert (Hps : forall p, In p (u :: ps) <-> edge_in (arrows es) p v). { intros p. cbn [In]. rewrite Hp. split; [intros [<-|[_ E]]; assumption|]. intros E. destruct (string_dec u p) as [|Ne]; [left; assumption|right; split; [congruence|exact E]]. }
  set (col := fun w => map dec (values_of g0 w)) in *.
  assert (Ip : forall p, In p (u :: ps) -> In p (dkeys (nodes g0))) by (intros p I; apply Hps in I; apply (do_nodes _ _ DO _ _ I)).
  assert (Ce : forall p, In p (u :: ps) -> centered (col p)) by (intros p I; apply Ce0, Hps, I).
  assert (W := weights_fit n _ es col ltac:(lia) ND LD v (u :: ps) Iv NDu Hps Ce). destruct (columns_ok n _ es col ltac:(lia) ND LD Va (u :: ps) NDu Ip Ce) as [_ Ind].
  assert (Q := EE u ps v (map (fun p => weight es p v) (u :: ps))). rewrite Q in Ef; [injection Ef as <-; exact St| | |exact Ind|exact W].
  - constructor; [|exact NDu]. intros I. apply Hps in I. apply (do_acyclic _ _ DO v). exists v. split; [exact I|apply reach_refl].
  - intros z [<-|I]; [exact Iv|apply Ip; exact I].
Qed.
Print Assumptions C93_effects_partial.

(* ---- three variables, eight observations: a regression that tells whether the coefficient is 1 ---- *)
Open Scope string_scope.
Open Scope list_scope.
Definition ecode3 (c : R) : Z := if Req_EM_T c 1 then 1%Z else 0%Z.
Definition effect3 (x : list Z) (zs : list (list Z)) (y : list Z) : Z :=
  match zs with
  | [] => if Z.eqb (zdot x y) (zdot x x) then 1 else 0
  | z :: _ => if Z.eqb (zdot x y * zdot z z - zdot x z * zdot z y) (zdot x x * zdot z z - zdot x z * zdot x z) then 1 else 0
  end%Z.
Definition exact3e : numerics := mkNum (n_pearson exact3) (n_corr_test exact3) (n_partial exact3) (n_matrix exact3) (n_regress exact3) (fun x zs y => Ok (effect3 x zs y)).
Section Effect3.
Variable vals : id -> list Z.
Hypothesis Len : forall v, In v names3 -> List.length (vals v) = 8%nat.
Notation colf := (fun v => map IZR (vals v)).
Lemma zdot_ip x y : List.length x = 8%nat -> List.length y = 8%nat -> sumn 8 (fun t => at_ (map IZR x) t * at_ (map IZR y) t) = IZR (zdot x y).
Proof. intros Lx Ly. rewrite <- zdot_R. symmetry. apply (dot_ip (map IZR x) (map IZR y) 8); rewrite map_length; assumption. Qed.
Lemma code_ratio c a b : b <> 0%Z -> c * IZR b = IZR a -> ecode3 c = (if Z.eqb a b then 1 else 0)%Z.
Proof.
  intros Nb E. unfold ecode3. apply not_0_IZR in Nb. destruct (Z.eqb_spec a b) as [Q|Q], (Req_EM_T c 1) as [W|W]; try reflexivity; exfalso.
  - apply W. rewrite Q in E. apply (Rmult_eq_reg_r (IZR b)); [lra|exact Nb].
  - apply Q. apply eq_IZR. rewrite <- E, W. ring.
Qed.
Lemma effect3_exact : exact_effects IZR ecode3 8 vals names3 exact3e.
Proof.
  intros u ps v cs ND Il Ind LS. cbn [exact3e n_effect]. f_equal. unfold effect_value.
  assert (Lv : List.length (vals v) = 8%nat) by (apply Len, Il; left; reflexivity). assert (Lu : List.length (vals u) = 8%nat) by (apply Len, Il; right; left; reflexivity).
  assert (Ob : observations 8 (map colf (u :: ps))) by (intros x I; apply in_map_iff in I; destruct I as (s & <- & I); rewrite map_length; apply Len, Il; right; exact I).
  assert (NE := normal_equations 8 _ _ cs Ob LS). destruct LS as [Lc _]. rewrite map_length in Lc, NE. assert (L3 := NoDup_incl_length ND Il). cbn in L3.
  destruct ps as [|p [|q ps]]; [| |cbn in L3; lia].
  - destruct cs as [|c [|c' cs]]; try discriminate Lc. cbn [map effect3 nth]. assert (E := NE 0%nat ltac:(cbn; lia)). cbn [map nth List.length] in E.
    rewrite (sumn_ext 8 _ (fun t => at_ (map IZR (vals v)) t * at_ (map IZR (vals u)) t - c * (at_ (map IZR (vals u)) t * at_ (map IZR (vals u)) t))) in E by (intros t _; unfold lin; cbn [List.length sumn nth]; ring).
    rewrite sumn_minus, sumn_scale, (zdot_ip _ _ Lv Lu), (zdot_ip _ _ Lu Lu) in E.
    assert (Sy : zdot (vals v) (vals u) = zdot (vals u) (vals v)) by (apply eq_IZR; rewrite <- (zdot_ip _ _ Lv Lu), <- (zdot_ip _ _ Lu Lv); apply sumn_ext; intros; ring). rewrite Sy in E. symmetry.
    apply code_ratio; [|lra]. intros Z. assert (X : nth 0 [1] 0 = 0); [|cbn in X; lra]. apply (Ind [1] eq_refl); [|cbn; lia]. intros t Ht. unfold lin. cbn [map List.length sumn nth]. assert (Y := ip_zero 8 (at_ (map IZR (vals u)))). unfold ip in Y. rewrite (zdot_ip _ _ Lu Lu), Z in Y. rewrite (Y eq_refl t Ht). ring.
  - destruct cs as [|c [|c' [|c'' cs]]]; try discriminate Lc. cbn [map effect3 nth]. assert (Lp : List.length (vals p) = 8%nat) by (apply Len, Il; right; right; left; reflexivity).
    assert (E := NE 0%nat ltac:(cbn; lia)). assert (E' := NE 1%nat ltac:(cbn; lia)). cbn [map nth List.length] in E, E'.
    rewrite (sumn_ext 8 _ (fun t => at_ (map IZR (vals v)) t * at_ (map IZR (vals u)) t - c * (at_ (map IZR (vals u)) t * at_ (map IZR (vals u)) t) - c' * (at_ (map IZR (vals u)) t * at_ (map IZR (vals p)) t))) in E by (intros t _; unfold lin; cbn [List.length sumn nth]; ring).
    rewrite (sumn_ext 8 _ (fun t => at_ (map IZR (vals p)) t * at_ (map IZR (vals v)) t - c * (at_ (map IZR (vals u)) t * at_ (map IZR (vals p)) t) - c' * (at_ (map IZR (vals p)) t * at_ (map IZR (vals p)) t))) in E' by (intros t _; unfold lin; cbn [List.length sumn nth]; ring).
    rewrite !sumn_minus, !sumn_scale, (zdot_ip _ _ Lv Lu), (zdot_ip _ _ Lu Lu), (zdot_ip _ _ Lu Lp) in E. rewrite !sumn_minus, !sumn_scale, (zdot_ip _ _ Lp Lv), (zdot_ip _ _ Lp Lp), (zdot_ip _ _ Lu Lp) in E'.
    assert (Sy : zdot (vals v) (vals u) = zdot (vals u) (vals v)) by (apply eq_IZR; rewrite <- (zdot_ip _ _ Lv Lu), <- (zdot_ip _ _ Lu Lv); apply sumn_ext; intros; ring). rewrite Sy in E. symmetry.
    set (uu := zdot (vals u) (vals u)) in *. set (pp := zdot (vals p) (vals p)) in *. set (up := zdot (vals u) (vals p)) in *. set (uv := zdot (vals u) (vals v)) in *. set (pv := zdot (vals p) (vals v)) in *.
    apply code_ratio.
    + intros Z. assert (Zr : IZR uu * IZR pp - IZR up * IZR up = 0) by (rewrite <- !mult_IZR, <- minus_IZR; apply (f_equal IZR) in Z; exact Z).
      assert (P0 : IZR pp = 0).
      { apply (Ind [IZR pp; - IZR up] eq_refl) with (j := 0%nat); [|cbn; lia]. intros t Ht. unfold lin. cbn [map List.length sumn nth].
        assert (Y := ip_zero 8 (fun t => IZR pp * at_ (map IZR (vals u)) t - IZR up * at_ (map IZR (vals p)) t)). unfold ip in Y.
        rewrite (sumn_ext 8 _ (fun t => IZR pp * IZR pp * (at_ (map IZR (vals u)) t * at_ (map IZR (vals u)) t) - 2 * IZR pp * IZR up * (at_ (map IZR (vals u)) t * at_ (map IZR (vals p)) t) + IZR up * IZR up * (at_ (map IZR (vals p)) t * at_ (map IZR (vals p)) t))) in Y by (intros; ring).
        rewrite sumn_plus, sumn_minus, !sumn_scale, (zdot_ip _ _ Lu Lu), (zdot_ip _ _ Lu Lp), (zdot_ip _ _ Lp Lp) in Y. fold uu pp up in Y.
        assert (A : IZR pp * IZR pp * IZR uu - 2 * IZR pp * IZR up * IZR up + IZR up * IZR up * IZR pp = 0) by (replace (IZR pp * IZR pp * IZR uu - 2 * IZR pp * IZR up * IZR up + IZR up * IZR up * IZR pp) with (IZR pp * (IZR uu * IZR pp - IZR up * IZR up)) by ring; rewrite Zr; ring).
        refine (eq_trans _ (Y A t Ht)). ring. }
      assert (X : nth 1 [0; 1] 0 = 0); [|cbn in X; lra]. apply (Ind [0; 1] eq_refl); [|cbn; lia]. intros t Ht. unfold lin. cbn [map List.length sumn nth]. assert (Y := ip_zero 8 (at_ (map IZR (vals p)))). unfold ip in Y. rewrite (zdot_ip _ _ Lp Lp) in Y. fold pp in Y. rewrite (Y P0 t Ht). ring.
    + rewrite !minus_IZR, !mult_IZR. assert (U : IZR uv = c * IZR uu + c' * IZR up) by lra. assert (V : IZR pv = c * IZR up + c' * IZR pp) by lra. rewrite U, V. ring.
Qed.
End Effect3.
Lemma exact3e_tests vals : exact_tests IZR code3 Phi3 (1 / 100) 8 vals names3 exact3 -> exact_tests IZR code3 Phi3 (1 / 100) 8 vals names3 exact3e.
Proof. intros [A B C E]. constructor; assumption. Qed.
Example C93_nonvacuous : exists g0 g, start_graph joint = Ok g0 /\ linear_data 8 (dkeys (nodes g0)) joint_es (fun v => map IZR (values_of g0 v)) /\ (forall v, In v (dkeys (nodes g0)) -> varies 8 (noise joint_es (fun v => map IZR (values_of g0 v)) v)) /\
  (forall v, In v (dkeys (nodes g0)) -> centered (map IZR (values_of g0 v))) /\
  Phi3 0 = 1 / 2 /\ detected Phi3 (1 / 100) 8 (dkeys (nodes g0)) (arrows joint_es) (fun v => map IZR (values_of g0 v)) /\ exact_tests IZR code3 Phi3 (1 / 100) 8 (values_of g0) (dkeys (nodes g0)) exact3e /\
  exact_effects IZR ecode3 8 (values_of g0) (dkeys (nodes g0)) exact3e /\
  execute_pipeline 11 (batch_runner no_hooks) no_hooks (pc dedup exact3e) g0 = (g, Ok tt) /\ one_way g "a" "c" /\ (forall p, In p names3 -> ~ two_way g p "c") /\ stored_effect g "a" "c" 1 /\ weight joint_es "a" "c" = 1.
Proof.
  destruct joint_facts as (S & K & Va & Vb & Vc). exists (start joint). rewrite K. destruct (joint_linear (values_of (start joint)) Va Vb Vc) as [LD Vr]. eexists. split; [exact S|]. split; [exact LD|]. split; [exact Vr|].
  split; [intros v I; each_name; unfold centered; rewrite ?Va, ?Vb, ?Vc; cbn; lra|].
  split; [unfold Phi3; destruct (Req_EM_T 0 0); [reflexivity|contradiction]|].
  split; [apply (detected3 (values_of (start joint)) (joint_len _ Va Vb Vc) (joint_var _ Va Vb Vc) (joint_par _ Va Vb Vc) joint_es LD (joint_sep _ Va Vb Vc))|].
  split; [apply exact3e_tests, (exact3_exact (values_of (start joint)) (joint_len _ Va Vb Vc) (joint_var _ Va Vb Vc) (joint_par _ Va Vb Vc))|].
  split; [apply effect3_exact, (joint_len _ Va Vb Vc)|]. split; [vm_compute; reflexivity|]. split; [vm_compute; reflexivity|]. split; [intros p I; each_name; vm_compute; discriminate|].
  split; [eexists; split; vm_compute; reflexivity|]. unfold weight. cbn. ring.
Qed.

(* The causes must have mean 0, because the regression has no intercept.  Here a = 1 + noise and c = a + b + 1 + noise: the
   tests find the graph, but the effect of a on c is not estimated to be 1. *)
Definition shifted : rawdata := DDict [("a", map Some [2; 2; 2; 2; 0; 0; 0; 0]); ("b", map Some [1; 1; -1; -1; 1; 1; -1; -1]); ("c", map Some [5; 3; 3; 1; 3; 1; 1; -1])]%Z.
Definition own1 (v : id) : list Z := if eqb v "a" then [2; 2; 2; 2; 0; 0; 0; 0]%Z else if eqb v "b" then [1; 1; -1; -1; 1; 1; -1; -1]%Z else [2; 0; 2; 0; 2; 0; 2; 0]%Z.
Lemma own1_facts : (forall u v, In u names3 -> In v names3 -> u <> v -> zc (own1 u) (own1 v) = 0%Z) /\ (forall v, In v names3 -> zc (own1 v) (own1 v) <> 0%Z).
Proof. split; [intros u v Iu Iv Ne|intros v Iv]; each_name; try contradiction; vm_compute; congruence. Qed.
Lemma shifted_facts : start_graph shifted = Ok (start shifted) /\ dkeys (nodes (start shifted)) = names3 /\
  values_of (start shifted) "a" = [2; 2; 2; 2; 0; 0; 0; 0]%Z /\ values_of (start shifted) "b" = [1; 1; -1; -1; 1; 1; -1; -1]%Z /\ values_of (start shifted) "c" = [5; 3; 3; 1; 3; 1; 1; -1]%Z.
Proof. repeat (split; [vm_compute; reflexivity|]). vm_compute. reflexivity. Qed.
Section Shifted.
Variable vals : id -> list Z.
Hypothesis Va : vals "a" = [2; 2; 2; 2; 0; 0; 0; 0]%Z.
Hypothesis Vb : vals "b" = [1; 1; -1; -1; 1; 1; -1; -1]%Z.
Hypothesis Vc : vals "c" = [5; 3; 3; 1; 3; 1; 1; -1]%Z.
Lemma shifted_linear : linear_data 8 names3 joint_es (fun v => map IZR (vals v)) /\ (forall v, In v names3 -> varies 8 (noise joint_es (fun v => map IZR (vals v)) v)).
Proof.
  destruct own1_facts as [O1 O2]. apply (table_linear joint_es vals own1); [apply dag_by_order; [exact nodup3|reflexivity]|intros v I; each_name; rewrite ?Va, ?Vb, ?Vc; split; reflexivity| |exact O1|exact O2].
  intros v t I Ht. unfold noise. each_name.
  - change (incoming joint_es "a") with (@nil (sedge R)). rewrite Va. change (own1 "a") with [2; 2; 2; 2; 0; 0; 0; 0]%Z. unfold at_. eight t Ht.
  - change (incoming joint_es "b") with (@nil (sedge R)). rewrite Vb. change (own1 "b") with [1; 1; -1; -1; 1; 1; -1; -1]%Z. unfold at_. eight t Ht.
  - change (incoming joint_es "c") with joint_es. cbn [joint_es map vsum se_value se_from]. rewrite Va, Vb, Vc. change (own1 "c") with [2; 0; 2; 0; 2; 0; 2; 0]%Z. unfold at_. eight t Ht.
Qed.
Lemma shifted_len : forall v, In v names3 -> List.length (vals v) = 8%nat.
Proof. intros v I. each_name; rewrite ?Va, ?Vb, ?Vc; reflexivity. Qed.
Lemma shifted_var : forall v, In v names3 -> (0 < zc (vals v) (vals v))%Z.
Proof. intros v I. each_name; rewrite ?Va, ?Vb, ?Vc; reflexivity. Qed.
Lemma shifted_par : forall x y z, In x names3 -> In y names3 -> In z names3 -> NoDup [x; y; z] -> (zc (vals x) (vals y) * zc (vals z) (vals z) <> zc (vals x) (vals z) * zc (vals y) (vals z))%Z.
Proof. intros x y z Ix Iy Iz ND. destruct (distinct3 x y z ND) as (N1 & N2 & N3). clear ND. each_name; try contradiction; rewrite ?Va, ?Vb, ?Vc; vm_compute; congruence. Qed.
Lemma shifted_sep : forall x y, In x names3 -> In y names3 -> x <> y -> zc (vals x) (vals y) = 0%Z -> dsep (arrows joint_es) x y [].
Proof.
  assert (Ac := do_acyclic _ _ (ld_dag _ _ _ _ (proj1 shifted_linear))). intros x y Ix Iy Ne Z. apply (dsepb_iff _ Ac). each_name; try contradiction; rewrite ?Va, ?Vb, ?Vc in Z; try (vm_compute in Z; discriminate Z); reflexivity.
Qed.
End Shifted.
Theorem C93_means_refuted : exists d g0 es N g, start_graph d = Ok g0 /\ linear_data 8 (dkeys (nodes g0)) es (fun v => map IZR (values_of g0 v)) /\ (forall v, In v (dkeys (nodes g0)) -> varies 8 (noise es (fun v => map IZR (values_of g0 v)) v)) /\
  Phi3 0 = 1 / 2 /\ detected Phi3 (1 / 100) 8 (dkeys (nodes g0)) (arrows es) (fun v => map IZR (values_of g0 v)) /\ exact_tests IZR code3 Phi3 (1 / 100) 8 (values_of g0) (dkeys (nodes g0)) N /\
  exact_effects IZR ecode3 8 (values_of g0) (dkeys (nodes g0)) N /\
  execute_pipeline 11 (batch_runner no_hooks) no_hooks (pc dedup N) g0 = (g, Ok tt) /\ one_way g "a" "c" /\ (forall p, In p (dkeys (nodes g0)) -> ~ two_way g p "c") /\
  exists k, stored_effect g "a" "c" k /\ k <> ecode3 (weight es "a" "c").
Proof.
  destruct shifted_facts as (S & K & Va & Vb & Vc). exists shifted, (start shifted), joint_es, exact3e. rewrite K. destruct (shifted_linear (values_of (start shifted)) Va Vb Vc) as [LD Vr]. eexists. split; [exact S|]. split; [exact LD|]. split; [exact Vr|].
  split; [unfold Phi3; destruct (Req_EM_T 0 0); [reflexivity|contradiction]|].
  split; [apply (detected3 (values_of (start shifted)) (shifted_len _ Va Vb Vc) (shifted_var _ Va Vb Vc) (shifted_par _ Va Vb Vc) joint_es LD (shifted_sep _ Va Vb Vc))|].
  split; [apply exact3e_tests, (exact3_exact (values_of (start shifted)) (shifted_len _ Va Vb Vc) (shifted_var _ Va Vb Vc) (shifted_par _ Va Vb Vc))|].
  split; [apply effect3_exact, (shifted_len _ Va Vb Vc)|]. split; [vm_compute; reflexivity|]. split; [vm_compute; reflexivity|]. split; [intros p I; each_name; vm_compute; discriminate|].
  exists 0%Z. split; [eexists; split; vm_compute; reflexivity|]. assert (W : weight joint_es "a" "c" = 1) by (unfold weight; cbn; ring). rewrite W. unfold ecode3. destruct (Req_EM_T 1 1); [discriminate|contradiction].
Qed.
Print Assumptions C93_means_refuted.
