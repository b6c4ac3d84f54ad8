(* The first tests without correlations: C117. *)
From Verif Require Import Base PyDict PyDictFacts Graph GraphSpec GraphFacts GraphInv GraphQ PathSpec Actions ActionSpec ActionFacts ActionMain Generators GenSpec GenFacts Rules IndepTests Pipeline Parallel
  PipeSpec PipeFacts PipeMain PipeMain2 Construct ConstructFacts Dag SkelSpec Serve SkelFacts SkelStart SkelSteps Schedules Toy LoopFacts NanFacts GraphCheck PropsPC WithoutSpec.
Open Scope string_scope.
Open Scope list_scope.
Open Scope nat_scope.

(* ---- steps in which no call returns an action ---- *)
Definition no_action (o : outcome) : Prop := o = None \/ o = Some [].
Lemma take_nothing dry os g : (forall o, In o os -> no_action o) -> take_action no_hooks dry os g = (g, Ok ([], [])).
Proof.
  induction os as [|o os IH]; intros H; [reflexivity|]. assert (I := IH (fun o' J => H o' (or_intror J))). destruct (H o (or_introl eq_refl)) as [-> | ->]; cbn [take_action]; [exact I|].
  cbn [run_pre_hooks no_hooks pre_hooks rfold]. unfold bind, gget, ret. cbn. rewrite I. reflexivity.
Qed.
Lemma single_nothing o : no_action o -> forall o', In o' (single_results o) -> no_action o'.
Proof. intros [-> | ->] o' I; cbn in I; [destruct I as [<-|[]]; left; reflexivity|destruct I]. Qed.
Section Nothing.
Variables (s : step) (cs : csettings) (g : graph) (dry : bool).
Hypothesis Gen : s_gen s = gen_all cs.
Hypothesis Un : s_unapplied s = false.
Hypothesis Calls : forall ns, In ns (all_combinations cs g) -> exists o, call s g ns None = Ok o /\ no_action o.
Lemma par_nothing bs tasks done_ past g' a r : par_run no_hooks dry s bs tasks done_ past g' a r ->
  (bs = [] \/ bs = gen_all cs g) -> (forall t, In t tasks -> exists ns, t = One ns /\ In ns (all_combinations cs g)) -> (forall o, In o done_ -> no_action o) -> (forall h, In h past -> h = g) -> g' = g -> a = ([], []) -> r = (g, Ok ([], [])).
Proof.
  induction 1 as [past g' a|f bs tasks done_ past g' a h es r Hp Ef Ru IH|f bs tasks done_ past g' a h e Hp Ef|bs t1 t t2 done_ past g' a h o r Hp Ec Ru IH|bs t1 t t2 done_ past g' a h e Hp Ec|bs tasks d1 o d2 past g' a g2 b r Et Ru IH|bs tasks d1 o d2 past g' a g2 e Et]; intros B T D Pa Eg Ea.
  - subst. reflexivity.
  - destruct B as [B|B]; [discriminate|]. unfold gen_all in B. injection B as -> ->. injection Ef as <-. apply IH; auto. intros t I. apply in_app_or in I. destruct I as [I|I]; [apply T; exact I|]. apply in_map_iff in I. destruct I as (ns & <- & I). exists ns. auto.
  - destruct B as [B|B]; [discriminate|]. unfold gen_all in B. injection B as -> ->. discriminate.
  - rewrite (Pa h Hp) in Ec. destruct (T t) as (ns & -> & I); [apply in_or_app; right; left; reflexivity|]. cbn [as_args rbind] in Ec. destruct (Calls ns I) as (o' & Co & No). rewrite Co in Ec. injection Ec as <-.
    apply IH; auto; [intros t J; apply T; apply in_app_or in J; apply in_or_app; destruct J; [left|right; right]; assumption|]. intros o [<-|J]; [exact No|apply D; exact J].
  - rewrite (Pa h Hp) in Ec. destruct (T t) as (ns & -> & I); [apply in_or_app; right; left; reflexivity|]. cbn [as_args rbind] in Ec. destruct (Calls ns I) as (o' & Co & No). rewrite Co in Ec. discriminate.
  - subst g' a. rewrite (take_nothing dry (single_results o) g) in Et by (apply single_nothing, D, in_or_app; right; left; reflexivity). injection Et as <- <-.
    apply IH; auto; [intros o' J; apply D; apply in_app_or in J; apply in_or_app; destruct J; [left|right; right]; assumption|intros h [<-|J]; [reflexivity|apply Pa; exact J]].
  - subst g'. rewrite (take_nothing dry (single_results o) g) in Et by (apply single_nothing, D, in_or_app; right; left; reflexivity). discriminate.
Qed.
Lemma step_nothing P : pool_runner no_hooks P -> s_chunked s = false -> s_sync s = false -> execute_step P no_hooks s dry g = (g, Ok ([], [])).
Proof.
  intros HP C Sy. unfold execute_step. destruct (s_parallel s).
  - assert (X := HP s dry g). unfold par_exec in X. rewrite Gen in X. apply (par_nothing _ _ _ _ _ _ _ X); auto; try (intros x []; fail). intros h [<-|[]]. reflexivity.
  - rewrite C, Sy. unfold bind at 1, gget. rewrite Gen. unfold bind at 1. assert (E : gen_run (gen_all cs g) g = Ok (map Generators.One (all_combinations cs g) ++ [])) by reflexivity. rewrite E, app_nil_r. cbn [liftr]. unfold ret. unfold bind. rewrite collect_from by exact Un.
    assert (R : exists os, rmap (fun ns => call s g ns None) (all_combinations cs g) = Ok os /\ forall o, In o os -> no_action o).
    { revert Calls. generalize (all_combinations cs g) as l. clear. induction l as [|ns l IH]; intros Ca; [exists []; split; [reflexivity|intros o []]|]. destruct (Ca ns (or_introl eq_refl)) as (o & Co & No). destruct (IH (fun x I => Ca x (or_intror I))) as (os & Eo & Nos).
      exists (o :: os). cbn [rmap]. rewrite Co, Eo. cbn [rbind]. split; [reflexivity|]. intros o' [<-|I]; [exact No|apply Nos; exact I]. }
    destruct R as (os & -> & No). cbn [rbind liftr app]. apply take_nothing. exact No.
Qed.
End Nothing.

(* ---- looking up a correlation ---- *)
Lemma uncomputed_corr g x y : uncomputed g -> get_corr g x y = Err TypeError \/ get_corr g x y = Err KeyError.
Proof.
  intros U. unfold get_corr. destruct (edge_value g x y) as [[m|]|e] eqn:E; cbn [rbind]; [rewrite (U x y m E); right; reflexivity|left; reflexivity|]. right. f_equal. unfold edge_value in E. destruct (negb (edge_exists g x y)); [discriminate|]. destruct (dget2 (edges g) x y); congruence.
Qed.
Lemma no_number_corr g x y : no_number g -> exists e, (e = TypeError \/ e = KeyError) /\ rbind (get_corr g x y) as_num = Err e.
Proof.
  intros U. unfold get_corr. destruct (edge_value g x y) as [[m|]|e] eqn:E; cbn [rbind].
  - destruct (dget m "correlation") as [c|] eqn:D; cbn [rbind]; [|exists KeyError; auto]. destruct c as [|b|k|t|l|x1 x2 zs|x1 x2 x3]; cbn [as_num]; try (exists TypeError; auto; fail). destruct (U x y m k E D).
  - exists TypeError; auto.
  - exists e. split; [|reflexivity]. right. unfold edge_value in E. destruct (negb (edge_exists g x y)); [discriminate|]. destruct (dget2 (edges g) x y); congruence.
Qed.

(* ---- calls ---- *)
Lemma partial_quiet N g ns : uncomputed g -> forall l, (forall z, In z l -> exists x y r, filter (fun n => negb (eqb n z)) ns = x :: y :: r) -> exists o, partial_loop N g ns l [] [] = Ok o /\ no_action o.
Proof.
  intros U. induction l as [|z l IH]; intros H; cbn [partial_loop]; [exists (Some []); split; [reflexivity|right; reflexivity]|]. destruct (H z (or_introl eq_refl)) as (x & y & r & ->).
  destruct (negb (edge_exists g x y) || mem (y, x) []); [apply IH; intros z' I; apply H; right; exact I|]. exists None. split; [|left; reflexivity]. destruct (uncomputed_corr g x y U) as [-> | ->]; reflexivity.
Qed.
Lemma triples_cases g : WF g -> forall ns, In ns (all_combinations (mkCS 3 3) g) -> exists p q r, ns = [p; q; r] /\ NoDup ns /\ forall n, In n ns -> In n (dkeys (nodes g)).
Proof.
  intros W ns H. apply all_combinations_In in H. destruct H as [S L]. unfold size_in in L; cbn [cs_min cs_max] in L. destruct ns as [|p [|q [|r [|z ns]]]]; cbn [List.length] in L; try lia.
  exists p, q, r. split; [reflexivity|]. split; [exact (subseq_NoDup _ _ S (wf_nodes _ W))|]. intros n I. exact (subseq_In _ _ S n I).
Qed.
Lemma eqb_same (x : id) : eqb x x = true.
Proof. destruct (eqb_spec x x); [reflexivity|contradiction]. Qed.
Lemma eqb_other (x y : id) : x <> y -> eqb x y = false.
Proof. intros H. destruct (eqb_spec x y); [contradiction|reflexivity]. Qed.
Lemma others_of (p q r z : id) : NoDup [p; q; r] -> In z [p; q; r] -> exists x y t, filter (fun n => negb (eqb n z)) [p; q; r] = x :: y :: t.
Proof.
  intros ND I. inversion ND as [|a l A ND1]; subst. inversion ND1 as [|b l B _]; subst. assert (p <> q) by (intros ->; apply A; left; reflexivity). assert (p <> r) by (intros ->; apply A; right; left; reflexivity). assert (q <> r) by (intros ->; apply B; left; reflexivity).
  destruct I as [<-|[<-|[<-|[]]]]; cbn [filter]; rewrite ?eqb_same, ?eqb_other by congruence; cbn [negb]; eauto.
Qed.
Lemma partial_calls N par g : WF g -> uncomputed g -> forall ns, In ns (all_combinations (mkCS 3 3) g) -> exists o, call (partial_step par N) g ns None = Ok o /\ no_action o.
Proof.
  intros W U ns H. destruct (triples_cases g W ns H) as (p & q & r & -> & ND & IN). unfold call. cbn [partial_step s_proc s_unapplied]. unfold partial_test.
  replace (forallb (dmem (nodes g)) [p; q; r]) with true by (symmetry; apply forallb_forall; intros n I; apply dmem_In, IN, I). apply partial_quiet; [exact U|]. intros z I. apply others_of; assumption.
Qed.

(* C117: without correlations the partial test does nothing, and says nothing *)
Theorem C117_silent : forall N par P dry g, pool_runner no_hooks P -> WF g -> uncomputed g -> execute_step P no_hooks (partial_step par N) dry g = (g, Ok ([], [])).
Proof. intros N par P dry g HP W U. apply (step_nothing (partial_step par N) (mkCS 3 3) g dry eq_refl eq_refl (partial_calls N par g W U) P HP eq_refl eq_refl). Qed.
Print Assumptions C117_silent.

(* C117: the test of the correlations itself raises, and changes nothing *)
Lemma corr_test_err N g x y us : no_number g -> dmem (nodes g) x = true -> dmem (nodes g) y = true -> exists e, (e = TypeError \/ e = KeyError) /\ rbind (get_corr g x y) as_num = Err e /\ call (correlation_step N) g [x; y] us = Err e.
Proof.
  intros U Hx Hy. destruct (no_number_corr g x y U) as (e & He & E). exists e. split; [exact He|]. split; [exact E|]. unfold call. cbn [correlation_step s_proc s_unapplied]. unfold correlation_test, node_at. cbn [nth_error]. rewrite Hx, Hy. cbn [rbind].
  destruct (get_corr g x y) as [c|e']; cbn [rbind] in E |- *; [rewrite E; reflexivity|injection E as ->; reflexivity].
Qed.
Theorem C117_correlation : forall N P dry g, WF g -> no_number g -> (exists x y, In x (dkeys (nodes g)) /\ In y (dkeys (nodes g)) /\ x <> y) ->
  exists e, (e = TypeError \/ e = KeyError) /\ execute_step P no_hooks (correlation_step N) dry g = (g, Err e).
Proof.
  intros N P dry g W U (x & y & Hx & Hy & Ne). rewrite (corr_unfold g N P dry g eq_refl). destruct (rmap (fun ns => call (correlation_step N) g ns None) (all_combinations (mkCS 2 2) g)) as [os|e] eqn:R.
  - exfalso. destruct (rmap_each _ _ _ R) as [A _]. apply dmem_In in Hx, Hy.
    destruct (pairs_In g g x y W eq_refl Hx Hy Ne) as [I|I]; destruct (A _ I) as (o & Co & _); [destruct (corr_test_err N g x y None U Hx Hy) as (e & _ & _ & E)|destruct (corr_test_err N g y x None U Hy Hx) as (e & _ & _ & E)]; congruence.
  - exists e. split; [|reflexivity]. destruct (rmap_err _ _ _ R) as (ns & I & Co). destruct (pairs_ok g g W eq_refl _ I) as (a & b & -> & Ha & Hb & _). destruct (corr_test_err N g a b None U Ha Hb) as (e' & He & _ & E). congruence.
Qed.
Print Assumptions C117_correlation.

(* C117: on the graph built from a table the error is a KeyError; an algorithm without the step that computes the
   correlations therefore stops in its first step, with the graph as it was *)
Lemma start_value g u v : complete g -> (exists o, edge_value g u v = Ok (Some o)) -> edge_value g u v = Ok (Some []) /\ dmem (nodes g) u = true /\ dmem (nodes g) v = true /\ u <> v.
Proof.
  intros C (o & E). unfold edge_value in *. destruct (edge_exists g u v) eqn:X; cbn [negb] in *; [|discriminate]. destruct (dget2 (edges g) u v) as [e|] eqn:G; [|discriminate].
  destruct (wf_fwd _ (cp_wf _ C) u v e G) as (A & B & Ne & _). assert (Y := cp_eget _ C u v A B Ne). unfold eget in Y. rewrite G in Y. injection Y as ->. auto.
Qed.
Lemma start_uncomputed g : complete g -> uncomputed g.
Proof. intros C u v m E. destruct (start_value g u v C (ex_intro _ m E)) as (E' & _). rewrite E' in E. injection E as <-. reflexivity. Qed.
Lemma uncomputed_no_number g : uncomputed g -> no_number g.
Proof. intros U u v m c E. rewrite (U u v m E). discriminate. Qed.
Lemma start_corr g x y : complete g -> dmem (nodes g) x = true -> dmem (nodes g) y = true -> x <> y -> get_corr g x y = Err KeyError.
Proof.
  intros C Hx Hy Ne. assert (E := cp_eget g C x y Hx Hy Ne). unfold get_corr, edge_value.
  assert (X : edge_exists g x y = true) by (rewrite edge_exists_or, (dee_val g x y (cp_wf _ C)), E; reflexivity). rewrite X. cbn [negb]. unfold eget in E. rewrite E. reflexivity.
Qed.
Theorem C117_first_missing : forall N P fuel r d g0, start_graph d = Ok g0 -> (exists x y, In x (dkeys (nodes g0)) /\ In y (dkeys (nodes g0)) /\ x <> y) ->
  execute_pipeline fuel P no_hooks (PStep (correlation_step N) :: r) g0 = (g0, Err KeyError).
Proof.
  intros N P fuel r d g0 S0 (x & y & Hx & Hy & Ne). assert (C := complete_start d g0 S0). assert (W := cp_wf _ C).
  cbn [execute_pipeline run_pstep]. unfold bind. rewrite (corr_unfold g0 N P false g0 eq_refl).
  assert (Cl : forall ns, In ns (all_combinations (mkCS 2 2) g0) -> call (correlation_step N) g0 ns None = Err KeyError).
  { intros ns I. destruct (pairs_ok g0 g0 W eq_refl _ I) as (a & b & -> & Ha & Hb & Nab). unfold SkelFacts.node in Ha, Hb. unfold call. cbn [correlation_step s_proc s_unapplied]. unfold correlation_test, node_at. cbn [nth_error]. rewrite Ha, Hb. cbn [rbind]. rewrite (start_corr g0 a b C Ha Hb Nab). reflexivity. }
  destruct (rmap (fun ns => call (correlation_step N) g0 ns None) (all_combinations (mkCS 2 2) g0)) as [os|e] eqn:R.
  - exfalso. destruct (rmap_each _ _ _ R) as [A _]. apply dmem_In in Hx, Hy. destruct (pairs_In g0 g0 x y W eq_refl Hx Hy Ne) as [I|I]; destruct (A _ I) as (o & Co & _); rewrite (Cl _ I) in Co; discriminate.
  - destruct (rmap_err _ _ _ R) as (ns & I & Co). rewrite (Cl ns I) in Co. injection Co as <-. reflexivity.
Qed.
Print Assumptions C117_first_missing.

(* ---- steps in which every call raises the same error ---- *)
Section Raising.
Variables (s : step) (cs : csettings) (g : graph) (dry : bool) (e : exn).
Hypothesis Gen : s_gen s = gen_all cs.
Hypothesis Un : s_unapplied s = false.
Hypothesis Some_ : all_combinations cs g <> [].
Hypothesis Calls : forall ns, In ns (all_combinations cs g) -> call s g ns None = Err e.
Lemma par_raise bs tasks done_ past g' a r : par_run no_hooks dry s bs tasks done_ past g' a r ->
  (bs = [] /\ tasks <> [] \/ bs = gen_all cs g) -> (forall t, In t tasks -> exists ns, t = One ns /\ In ns (all_combinations cs g)) -> done_ = [] -> (forall h, In h past -> h = g) -> g' = g -> r = (g, Err e).
Proof.
  induction 1 as [past g' a|f bs tasks done_ past g' a h es r Hp Ef Ru IH|f bs tasks done_ past g' a h e' Hp Ef|bs t1 t t2 done_ past g' a h o r Hp Ec Ru IH|bs t1 t t2 done_ past g' a h e' Hp Ec|bs tasks d1 o d2 past g' a g2 b r Et Ru IH|bs tasks d1 o d2 past g' a g2 e' Et]; intros B T D Pa Eg.
  - destruct B as [[_ B]|B]; [contradiction|discriminate].
  - destruct B as [[B _]|B]; [discriminate|]. unfold gen_all in B. injection B as -> ->. injection Ef as <-. apply IH; auto.
    + left. split; [reflexivity|]. intros X. apply app_eq_nil in X. destruct X as [_ X]. apply map_eq_nil in X. contradiction.
    + intros t I. apply in_app_or in I. destruct I as [I|I]; [apply T; exact I|]. apply in_map_iff in I. destruct I as (ns & <- & I). exists ns. auto.
  - destruct B as [[B _]|B]; [discriminate|]. unfold gen_all in B. injection B as -> ->. discriminate.
  - rewrite (Pa h Hp) in Ec. destruct (T t) as (ns & -> & I); [apply in_or_app; right; left; reflexivity|]. cbn [as_args rbind] in Ec. rewrite (Calls ns I) in Ec. discriminate.
  - rewrite (Pa h Hp) in Ec. destruct (T t) as (ns & -> & I); [apply in_or_app; right; left; reflexivity|]. cbn [as_args rbind] in Ec. rewrite (Calls ns I) in Ec. injection Ec as <-. subst. reflexivity.
  - destruct d1; discriminate.
  - destruct d1; discriminate.
Qed.
Lemma step_raise P : pool_runner no_hooks P -> s_chunked s = false -> s_sync s = false -> execute_step P no_hooks s dry g = (g, Err e).
Proof.
  intros HP C Sy. unfold execute_step. destruct (s_parallel s).
  - assert (X := HP s dry g). unfold par_exec in X. rewrite Gen in X. apply (par_raise _ _ _ _ _ _ _ X); auto; try (intros x []; fail). intros h [<-|[]]. reflexivity.
  - rewrite C, Sy. unfold bind at 1, gget. rewrite Gen. unfold bind at 1. assert (E : gen_run (gen_all cs g) g = Ok (map Generators.One (all_combinations cs g) ++ [])) by reflexivity. rewrite E, app_nil_r. cbn [liftr]. unfold ret. unfold bind. rewrite collect_from by exact Un.
    destruct (rmap (fun ns => call s g ns None) (all_combinations cs g)) as [os|e'] eqn:R.
    + exfalso. destruct (rmap_each _ _ _ R) as [A _]. destruct (all_combinations cs g) as [|ns l] eqn:El; [contradiction|]. destruct (A ns (or_introl eq_refl)) as (o & Co & _). rewrite (Calls ns (or_introl eq_refl)) in Co. discriminate.
    + destruct (rmap_err _ _ _ R) as (ns & I & Co). rewrite (Calls ns I) in Co. injection Co as <-. reflexivity.
Qed.
End Raising.
(* C117: a correlation that is not a number is not treated as a missing one *)
Theorem C117_text : forall N par P dry g, pool_runner no_hooks P -> WF g -> texts g -> (exists x y z, NoDup [x; y; z] /\ forall n, In n [x; y; z] -> In n (dkeys (nodes g))) ->
  execute_step P no_hooks (partial_step par N) dry g = (g, Err TypeError).
Proof.
  intros N par P dry g HP W Tx (x & y & z & ND & IN). apply (step_raise (partial_step par N) (mkCS 3 3) g dry TypeError eq_refl eq_refl); [| |exact HP|reflexivity|reflexivity].
  - intros E. destruct (subseq_of_subset string_dec (dkeys (nodes g)) (wf_nodes _ W) [x; y; z] ND IN) as (l & S & Pm). assert (I : In l (all_combinations (mkCS 3 3) g)).
    { apply all_combinations_In. split; [exact S|]. unfold size_in. cbn [cs_min cs_max]. apply Permutation_length in Pm. cbn [List.length] in Pm. assert (L := subseq_length _ _ S). unfold dkeys in L. rewrite map_length in L. unfold id in *. repeat split; [lia|lia|right; lia]. }
    rewrite E in I. destruct I.
  - intros ns I. destruct (triples_cases g W ns I) as (p & q & r & -> & ND' & IN'). unfold call. cbn [partial_step s_proc s_unapplied]. unfold partial_test.
    replace (forallb (dmem (nodes g)) [p; q; r]) with true by (symmetry; apply forallb_forall; intros n J; apply dmem_In, IN', J).
    inversion ND' as [|a0 l A ND1]; subst. inversion ND1 as [|b l B _]; subst. assert (Npq : p <> q) by (intros ->; apply A; left; reflexivity). assert (Npr : p <> r) by (intros ->; apply A; right; left; reflexivity). assert (Nqr : q <> r) by (intros ->; apply B; left; reflexivity).
    assert (Hp : In p (dkeys (nodes g))) by (apply IN'; left; reflexivity). assert (Hq : In q (dkeys (nodes g))) by (apply IN'; right; left; reflexivity). assert (Hr : In r (dkeys (nodes g))) by (apply IN'; right; right; left; reflexivity).
    assert (GC : forall u v, In u (dkeys (nodes g)) -> In v (dkeys (nodes g)) -> u <> v -> exists t, get_corr g u v = Ok t /\ as_num t = Err TypeError).
    { intros u v Hu Hv Ne. destruct (Tx u v Hu Hv Ne) as (m & t & E & D & Nt). exists t. unfold get_corr. rewrite E. cbn [rbind]. rewrite D. split; [reflexivity|]. destruct t; try reflexivity. destruct (Nt bits eq_refl). }
    cbn [partial_loop filter]. rewrite eqb_same, !eqb_other by congruence. cbn [negb].
    assert (EE : edge_exists g q r = true) by (destruct (Tx q r Hq Hr Nqr) as (m & t & E & _); unfold edge_value in E; destruct (edge_exists g q r); [reflexivity|discriminate]). rewrite EE. cbn [negb orb mem existsb].
    destruct (GC q r Hq Hr Nqr) as (t1 & -> & T1). destruct (GC q p Hq Hp ltac:(congruence)) as (t2 & -> & _). destruct (GC r p Hr Hp ltac:(congruence)) as (t3 & -> & _). cbn [rbind]. rewrite T1. reflexivity.
Qed.
Print Assumptions C117_text.

(* non-vacuity: three columns, with and without the correlations; the last graph has words for them *)
Definition abc : graph := toy_start ["a"; "b"; "c"].
Definition worded : list gop := [OAddNode "a" (Some [1]%Z) "a"; OAddNode "b" (Some [2]%Z) "b"; OAddNode "c" (Some [3]%Z) "c";
  OAddEdge "a" "b" (Some [("correlation", MStr "high")]) TUndirected; OAddEdge "a" "c" (Some [("correlation", MStr "low")]) TUndirected; OAddEdge "b" "c" (Some [("correlation", MNone)]) TUndirected].
Definition words : graph := Eval vm_compute in run_ops worded empty_graph.
Lemma words_WF : WF words.
Proof. replace words with (run_ops worded empty_graph) by (vm_compute; reflexivity). apply GraphMain.reachable_WF; eexists; split; [|reflexivity]. cbn [tame tame_op worded]. repeat (split; [exact Logic.I|]). exact Logic.I. Qed.
Lemma words_texts : texts words.
Proof.
  intros u v Hu Hv Ne. change (dkeys (nodes words)) with ["a"; "b"; "c"] in Hu, Hv.
  destruct Hu as [<-|[<-|[<-|[]]]]; destruct Hv as [<-|[<-|[<-|[]]]]; try contradiction; (eexists; eexists; split; [vm_compute; reflexivity|]; split; [vm_compute; reflexivity|]; intros c; discriminate).
Qed.
Lemma texts_no_number g : WF g -> texts g -> no_number g.
Proof.
  intros W T u v m c E D. assert (E2 := E). unfold edge_value in E2. destruct (negb _); [discriminate|]. destruct (dget2 (edges g) u v) as [e|] eqn:G; [|discriminate]. destruct (wf_fwd _ W u v e G) as (A & B & Ne & _).
  destruct (T u v (proj1 (dmem_In _ _) A) (proj1 (dmem_In _ _) B) Ne) as (m' & x & E' & D' & Nx). rewrite E in E'. injection E' as <-. rewrite D in D'. injection D' as <-. exact (Nx c eq_refl).
Qed.
Example C117_nonvacuous : start_graph (DDict (toy_table ["a"; "b"; "c"])) = Ok abc /\ WF abc /\ uncomputed abc /\ no_number abc /\ dkeys (nodes abc) = ["a"; "b"; "c"] /\
  words = run_ops worded empty_graph /\ WF words /\ texts words /\ no_number words /\ dkeys (nodes words) = ["a"; "b"; "c"] /\ ~ uncomputed words /\ pool_runner no_hooks (batch_runner no_hooks) /\
  execute_step (batch_runner no_hooks) no_hooks (partial_step false (toy (table_ci [(1, 3, [2])]%Z))) false abc = (abc, Ok ([], [])) /\
  execute_step (batch_runner no_hooks) no_hooks (correlation_step (toy (table_ci [(1, 3, [2])]%Z))) false abc = (abc, Err KeyError).
Proof.
  assert (S0 : start_graph (DDict (toy_table ["a"; "b"; "c"])) = Ok abc) by (vm_compute; reflexivity). assert (C := complete_start _ _ S0).
  split; [exact S0|]. split; [exact (cp_wf _ C)|]. split; [exact (start_uncomputed _ C)|]. split; [exact (uncomputed_no_number _ (start_uncomputed _ C))|]. split; [vm_compute; reflexivity|]. split; [vm_compute; reflexivity|].
  split; [exact words_WF|]. split; [exact words_texts|]. split; [exact (texts_no_number _ words_WF words_texts)|]. split; [vm_compute; reflexivity|]. split.
  { intros U. assert (X := U "a" "b" [("correlation", MStr "high")] ltac:(vm_compute; reflexivity)). vm_compute in X. discriminate. }
  split; [apply batch_pool|]. split; vm_compute; reflexivity.
Qed.
