(* Proofs of C97: ColliderRuleFCI on the skeleton of D. *)
From Verif Require Import Base PyDict PyDictFacts Graph GraphSpec GraphFacts GraphInv GraphInv2 GraphInv3 GraphQ GraphMain
  GraphPaths PathSpec Actions ActionSpec ActionFacts ActionMain Generators GenSpec GenFacts Rules IndepTests Pipeline Parallel PipeSpec PipeFacts PipeMain RuleFacts Serve Rows
  Construct ConstructSpec ConstructFacts Dag DagFacts DagSep SkelSpec SkelFacts SkelStart SkelSteps SkelMatrix SkelMain Schedules SkelMain2 DsepDec OrientSpec OrientGraph LoopFacts OrientMain OrientTop Fci FciSpec.
Open Scope string_scope.
Open Scope list_scope.

Lemma mem_cons (p q : id * id) l : mem p (q :: l) = if eqb p q then true else mem p l.
Proof. unfold mem. cbn [existsb]. destruct (eqb p q); reflexivity. Qed.
Definition marks (u v : id) : tresult := mkT u v UPDATE_EDGE_DIRECTED (Some mark).
(* g' is g with the directions in l marked *)
Record marked (g : graph) (l : list (id * id)) (g' : graph) : Prop := {
  mk_wf : WF g';
  mk_nodes : nodes g' = nodes g;
  mk_live : forall a b, directed_edge_exists g' a b = directed_edge_exists g a b;
  mk_meta : forall a b, directed_edge_exists g a b = true ->
    eget g' a b = if mem (a, b) l then option_map (set_meta (Some mark)) (eget g a b) else eget g a b }.
Lemma marked_refl g : WF g -> marked g [] g.
Proof. intros W. split; auto. Qed.
Lemma marked_act g l g1 u v : marked g l g1 -> exists b, apply_action (marks u v) g1 = (fst (apply_action (marks u v) g1), Ok b) /\ marked g ((u, v) :: l) (fst (apply_action (marks u v) g1)).
Proof.
  intros [W N L M]. destruct (apply_action (marks u v) g1) as [g2 r] eqn:R. destruct (apply_action_spec g1 _ g2 r W R) as (W2 & _ & N2 & S). cbn [fst].
  destruct r as [[]|e]; [| |exfalso; destruct S as (_ & NR & _); apply NR; exact Logic.I].
  - exists true. split; [reflexivity|]. destruct S as (_ & _ & Ef & _). unfold action_effect in Ef. cbn in Ef. destruct Ef as [[_ OC] Eu].
    assert (Ent : forall a b, entry g2 a b = if eqb (a, b) (u, v) then option_map (new_data (marks u v)) (entry g1 a b) else entry g1 a b).
    { intros a b. destruct (eqb_spec (a, b) (u, v)) as [X|X]; [injection X as -> ->; exact Eu|apply OC]. intros [Z|[]]; congruence. }
    assert (L' : forall a b, directed_edge_exists g2 a b = directed_edge_exists g1 a b).
    { intros a b. rewrite (dee_val g2 a b W2), (dee_val g1 a b W), <- !entry_eget, Ent. destruct (eqb _ _); [|reflexivity]. destruct (entry g1 a b); reflexivity. }
    split; [exact W2|congruence|intros a b; rewrite L'; apply L|].
    intros a b La. specialize (M a b La). rewrite <- entry_eget, Ent. assert (La1 := La). rewrite <- L in La1.
    destruct (eqb_spec (a, b) (u, v)) as [X|X].
    + injection X as -> ->. rewrite entry_eget. destruct (live_entry _ _ _ W La1) as (e & Ee & _). rewrite Ee, mem_cons, eqb_refl. rewrite Ee in M. destruct (mem (u, v) l), (eget g u v) as [e0|]; try discriminate M; injection M as ->; reflexivity.
    + rewrite entry_eget, mem_cons. destruct (eqb_spec (a, b) (u, v)); [contradiction|]. exact M.
  - exists false. split; [reflexivity|]. destruct S as [-> G]. split; auto. intros a b La. rewrite mem_cons. destruct (eqb_spec (a, b) (u, v)) as [X|X]; [|apply M; exact La].
    injection X as -> ->. exfalso. unfold action_guard in G. cbn in G. rewrite L in G. congruence.
Qed.
Definition pair_of (i : tresult) : id * id := (t_u i, t_v i).
Definition marking (i : tresult) : Prop := i = marks (t_u i) (t_v i).
Lemma marked_items : forall items g l g1, marked g l g1 -> Forall marking items ->
  exists g2 t, take_items false items g1 = (g2, Ok t) /\ marked g (rev (map pair_of items) ++ l) g2.
Proof.
  induction items as [|i items IH]; intros g l g1 M F; cbn [take_items].
  - exists g1, []. split; [reflexivity|exact M].
  - inversion F as [|? ? Fi Fr]; subst. destruct (marked_act g l g1 (t_u i) (t_v i) M) as (b & R & M1). rewrite <- Fi in R, M1.
    destruct (IH g _ _ M1 Fr) as (g2 & t & R2 & M2). exists g2. eexists. split; [unfold bind at 1; rewrite R; unfold bind; rewrite R2; reflexivity|].
    cbn [map rev]. rewrite <- app_assoc. exact M2.
Qed.
Lemma marked_take : forall os g l g1, marked g l g1 -> Forall (fun o => Forall marking (items_of o)) os ->
  exists g2 a, take_action no_hooks false os g1 = (g2, Ok a) /\ exists l', marked g l' g2 /\ forall p, In p l' <-> In p l \/ In p (map pair_of (flat_map items_of os)).
Proof.
  induction os as [|[items|] os IH]; intros g l g1 M F; cbn [take_action].
  - exists g1. eexists. split; [reflexivity|]. exists l. split; [exact M|]. intros p. cbn. tauto.
  - inversion F as [|? ? Fi Fr]; subst. cbn [items_of] in Fi. destruct (marked_items items g l g1 M Fi) as (g2 & t & R & M2).
    destruct (IH g _ g2 M2 Fr) as (g3 & a & R3 & l' & M3 & I3). exists g3. eexists. split.
    + unfold bind at 1, gget at 1. change (run_pre_hooks no_hooks g1 items) with (Ok items). cbn iota. unfold bind at 1. rewrite R. unfold bind at 1, gget at 1.
      change (run_post_hooks no_hooks g2 t) with (Ok tt). cbn iota. unfold bind. rewrite R3. reflexivity.
    + exists l'. split; [exact M3|]. intros p. rewrite I3, in_app_iff, <- in_rev. cbn [flat_map items_of]. rewrite map_app, in_app_iff. tauto.
  - inversion F as [|? ? Fi Fr]; subst. cbn [flat_map items_of app]. apply (IH g l g1 M Fr).
Qed.

Section Rule.
Variable g0 : graph.
Variable D : list (id * id).
Variable so : list id -> list id.
Hypothesis DG : dag_over (dkeys (nodes g0)) D.
Hypothesis SO : set_order so.
Notation node := (SkelFacts.node g0).
Notation E := (edge_in D).
Variable c : id -> id -> Z.
Variable g : graph.
Hypothesis F : found g0 D c g.
Hypothesis PG : forall u v, directed_edge_is_soft_deleted g u v = false.
Let K := proj1 F.
Let P := found_pre g0 D DG c g F.

Definition good_items (x y : id) (rs : list tresult) : Prop := Forall marking rs /\
  forall p, In p (map pair_of rs) <-> exists z, vstruct D x z y /\ (p = (x, z) \/ p = (y, z)).
Lemma fci_call x y : node x -> node y -> x <> y -> exists o, call (fci_rule so) g [x; y] None = Ok o /\ good_items x y (items_of o).
Proof.
  intros Hx Hy Ne. unfold call. cbn -[node_at]. unfold collider_rule_fci. rewrite (at_node g0 D _ P [x; y] 0 x eq_refl Hx), (at_node g0 D _ P [x; y] 1 y eq_refl Hy). cbn [rbind].
  assert (X := found_adjacent g0 D c DG g F). destruct (undirected_edge_exists g x y) eqn:U.
  { exists None. split; [reflexivity|]. split; [constructor|]. intros p. cbn. split; [intros []|]. intros (z & (_ & _ & _ & NA) & _). apply NA, X, und_l, U. }
  assert (G : directed_edge_exists g x y = false).
  { destruct (directed_edge_exists g x y) eqn:L; [|reflexivity]. unfold undirected_edge_exists in U. rewrite L, (found_sym g0 D c g F x y L) in U. discriminate. }
  destruct (common_ok g0 D so SO g P x y Hx Hy Ne) as (zs & Cz & Nz & _). assert (Iz := keys_adj g0 D so DG SO c g F PG x y zs Cz Hx Hy Ne). rewrite Cz. cbn [rbind].
  destruct (skel_separator g0 D c g x y K Hx Hy Ne G) as (S & (i & d & Hh & Hd & Hs) & GS). rewrite Hh. cbn [rbind].
  assert (Es : separators [i] = Ok S) by (unfold separators; cbn; rewrite Hd, Hs; cbn; rewrite app_nil_r; reflexivity).
  set (body := fun z => if negb (dmem (nodes g) z) then Err KeyError else _).
  assert (B : forall z, In z zs -> (vstruct D x z y /\ body z = Ok [marks x z; marks y z]) \/ (~ vstruct D x z y /\ body z = Ok [])).
  { intros z Hz. destruct (proj1 (Iz z) Hz) as [A1 A2]. assert (Hn := Nz z Hz). unfold body. rewrite (p_nodes _ _ _ P). unfold SkelFacts.node in Hn. rewrite Hn. cbn [negb]. rewrite Es. cbn [rbind].
    assert (NA := good_nadj g0 D DG x y S GS). destruct GS as (_ & N1 & N2 & Ds).
    assert (Nxz : x <> z) by (intros ->; exact (NA (adjacent_sym _ _ _ A2))). assert (Nzy : z <> y) by (intros ->; exact (NA A1)).
    destruct (mem z S) eqn:M.
    - right. split; [|reflexivity]. intros (E1 & E2 & _). apply mem_In in M. exact (sep_collider E x z y _ Ne Nxz Nzy (conj E1 E2) Ds M).
    - left. split; [|reflexivity].
      assert (CC : collider E x z y \/ ~ collider E x z y) by (unfold collider; destruct (edge_dec D x z), (edge_dec D y z); tauto).
      destruct CC as [[E1 E2]|NC]; [repeat split; auto|]. exfalso. apply (sep_non_collider E x z y _ Ne Nxz Nzy A1 (adjacent_sym _ _ _ A2) NC Ds).
      apply mem_not_In. exact M. }
  assert (R : forall l, (forall z, In z l -> In z zs) -> exists rs, rflat body l = Ok rs /\ Forall marking rs /\
    forall p, In p (map pair_of rs) <-> exists z, In z l /\ vstruct D x z y /\ (p = (x, z) \/ p = (y, z))).
  { induction l as [|z l IH]; intros Hl; cbn [rflat].
    - exists []. split; [reflexivity|]. split; [constructor|]. intros p. split; [intros []|intros (z & [] & _)].
    - destruct (IH (fun z' h => Hl z' (or_intror h))) as (rs & -> & Fr & Hr). destruct (B z (Hl z (or_introl eq_refl))) as [[V ->]|[NV ->]]; cbn [rbind].
      + eexists. split; [reflexivity|]. split; [cbn; repeat (constructor; [reflexivity|]); exact Fr|]. intros p. cbn. rewrite Hr. split.
        * intros [<-|[<-|(z' & H1 & H2)]]; [exists z; auto|exists z; auto|exists z'; tauto].
        * intros (z' & [<-|H1] & H2 & [->| ->]); auto; right; right; exists z'; auto.
      + eexists. split; [reflexivity|]. split; [exact Fr|]. intros p. rewrite Hr. split; [intros (z' & H1 & H2); exists z'; cbn; auto|].
        intros (z' & [<-|H1] & H2); [tauto|exists z'; auto]. }
  destruct (R zs (fun z h => h)) as (rs & -> & Fr & Hr). cbn [rbind]. eexists. split; [reflexivity|]. split; [exact Fr|]. intros p. cbn [items_of]. rewrite Hr. split.
  - intros (z & _ & H). exists z; exact H.
  - intros (z & V & H). exists z. split; [|auto]. apply Iz. destruct V as (E1 & E2 & _). split; left; assumption.
Qed.
Lemma fci_calls : forall l, (forall ns, In ns l -> pair_ok g0 ns) -> exists os, rmap (fun ns => call (fci_rule so) g ns None) l = Ok os /\
  Forall (fun o => Forall marking (items_of o)) os /\
  forall p, In p (map pair_of (flat_map items_of os)) <-> exists x y z, In [x; y] l /\ vstruct D x z y /\ (p = (x, z) \/ p = (y, z)).
Proof.
  induction l as [|ns l IH]; intros Hl; cbn [rmap].
  - exists []. split; [reflexivity|]. split; [constructor|]. intros p. split; [intros []|intros (x & y & z & [] & _)].
  - destruct (Hl ns (or_introl eq_refl)) as (x & y & -> & Hx & Hy & Ne). destruct (fci_call x y Hx Hy Ne) as (o & -> & Fo & Ho).
    destruct (IH (fun n h => Hl n (or_intror h))) as (os & -> & Fs & Hs). cbn [rbind]. exists (o :: os). split; [reflexivity|]. split; [constructor; assumption|].
    intros p. cbn [flat_map]. rewrite map_app, in_app_iff, Ho, Hs. split.
    + intros [(z & H)|(x' & y' & z & H1 & H)]; [exists x, y, z; cbn; auto|exists x', y', z; cbn; auto].
    + intros (x' & y' & z & [H1|H1] & H); [injection H1 as <- <-; left; exists z; exact H|right; exists x', y', z; auto].
Qed.
Lemma fci_step_run Pr : exists g' a l, execute_step Pr no_hooks (fci_rule so) false g = (g', Ok a) /\ marked g l g' /\ forall a b, In (a, b) l <-> arrowhead D a b.
Proof.
  assert (Gen : gen_run (s_gen (fci_rule so) g) g = Ok (map Generators.One (pairs_of g))) by (cbn; rewrite app_nil_r; reflexivity).
  rewrite (plain_unfold false (fci_rule so) ltac:(repeat split) Pr g _ Gen). rewrite collect_from by reflexivity.
  assert (OK := pairs_ok g0 g (p_wf _ _ _ P) (p_nodes _ _ _ P)). destruct (fci_calls (pairs_of g) OK) as (os & -> & Fo & Ho). cbn [rbind app]. unfold bind. cbn [liftr]. unfold ret.
  destruct (marked_take os g [] g (marked_refl g (p_wf _ _ _ P)) Fo) as (g' & a & -> & l & M & I). exists g', a, l. split; [reflexivity|]. split; [exact M|].
  intros u v. rewrite I. cbn [In]. rewrite Ho. split.
  - intros [[]|(x & y & z & _ & V & [H|H])]; injection H as -> ->; [exists y; exact V|exists x; apply vstruct_sym; exact V].
  - intros (y & V). right. assert (Hu : node u) by (apply node_In; apply (do_nodes _ _ DG u v), V). assert (Hy : node y) by (apply node_In; apply (do_nodes _ _ DG y v), V).
    destruct (pairs_In g0 g u y (p_wf _ _ _ P) (p_nodes _ _ _ P) Hu Hy (proj1 (proj2 (proj2 V)))) as [H|H].
    + exists u, y, v. auto.
    + exists y, u, v. split; [exact H|]. split; [apply vstruct_sym; exact V|auto].
Qed.
Lemma fci_pstep fuel Pr : exists g' l, run_pstep fuel Pr no_hooks (PStep (fci_rule so)) g = (g', Ok tt) /\ marked g l g' /\ forall a b, In (a, b) l <-> arrowhead D a b.
Proof.
  destruct (fci_step_run Pr) as (g1 & a & l & R & M & I). set (g2 := with_ahist g1 (ahist g1 ++ [HStep (s_name (fci_rule so)) (fst a) (snd a) []])).
  assert (W2 : WF g2) by (apply WF_ahist, (mk_wf _ _ _ M)). destruct (purge_ok g2 W2) as (g3 & Ok1 & W3 & N3 & _ & _ & _ & G3 & _). assert (L' := purge_dee g2 g3 W2 Ok1).
  exists g3, l. split; [|split; [|exact I]].
  - cbn [run_pstep]. unfold bind, log_step. rewrite R. fold g2. rewrite Ok1. reflexivity.
  - split; [exact W3|rewrite N3; exact (mk_nodes _ _ _ M)|intros x y; rewrite L'; exact (mk_live _ _ _ M x y)|].
    intros x y Lx. assert (Me := mk_meta _ _ _ M x y Lx). rewrite <- Me, G3. change (eget g2 x y) with (eget g1 x y). rewrite <- (mk_live _ _ _ M), (dee_val _ _ _ (mk_wf _ _ _ M)) in Lx.
    destruct (eget g1 x y) as [e|]; [|reflexivity]. destruct (e_del e); [discriminate Lx|reflexivity].
Qed.
End Rule.

Section Whole.
Variables (fuel : nat) (P : runner) (so so' : list id -> list id) (d : rawdata) (g0 : graph) (D : list (id * id)) (N : numerics) (c : id -> id -> Z).
Hypothesis S0 : start_graph d = Ok g0.
Hypothesis DG : dag_over (dkeys (nodes g0)) D.
Hypothesis PT : perfect_tests N (values_of g0) (dkeys (nodes g0)) D c.
Hypothesis SO : set_order so.
Hypothesis SO' : set_order so'.
Definition fci_found (sk : list pstep) : Prop :=
  exists g1 g, execute_pipeline fuel P no_hooks sk g0 = (g1, Ok tt) /\ execute_pipeline fuel P no_hooks (sk ++ [PStep (fci_rule so')]) g0 = (g, Ok tt) /\ nodes g = nodes g0 /\
  (forall x y, directed_edge_exists g x y = true <-> adjacent (edge_in D) x y) /\
  (forall x z, adjacent (edge_in D) x z -> edge_type g x z = edge_type g1 x z /\
     (arrowhead D x z -> edge_value g x z = Ok (Some mark)) /\
     (~ arrowhead D x z -> edge_value g x z = edge_value g1 x z /\ exists m, edge_value g x z = Ok (Some m) /\ dget m "correlation" = Some (MNum (c x z)))).
Lemma fci_finish sk s g1 : execute_pipeline fuel P no_hooks (sk ++ [PStep s]) g0 = (g1, Ok tt) -> found g0 D c g1 -> Forall (fun p => Forall (par_ok P) (steps_of p)) (sk ++ [PStep s]) ->
  fci_found (sk ++ [PStep s]).
Proof.
  intros R F FP. unfold fci_found.
  assert (PG := last_purged fuel P sk s g0 g1 (cp_wf _ (complete_start d g0 S0)) FP R).
  destruct (fci_pstep g0 D so' DG SO' c g1 F PG fuel P) as (g & l & E & M & I). exists g1, g. split; [exact R|]. split; [rewrite pipeline_app, R; cbn [execute_pipeline]; unfold bind; rewrite E; reflexivity|].
  assert (X := found_adjacent g0 D c DG g1 F). split; [rewrite (mk_nodes _ _ _ M); apply (sk_nodes _ _ _ _ _ (proj1 F))|]. split; [intros x y; rewrite (mk_live _ _ _ M); apply X|].
  intros x z A. assert (L1 := proj2 (X x z) A). assert (Me := mk_meta _ _ _ M x z L1). destruct (sk_corr _ _ _ _ _ (proj1 F) x z L1) as (e & m & G1 & G2 & G3).
  assert (L := L1). rewrite <- (mk_live _ _ _ M) in L. rewrite G1 in Me. cbn in Me. unfold eget in Me, G1.
  unfold edge_value, edge_type. rewrite !edge_exists_or, L, L1. cbn [orb negb]. rewrite Me, G1. split; [destruct (mem (x, z) l); reflexivity|]. split.
  - intros H. apply I, mem_In in H. rewrite H. reflexivity.
  - intros H. assert (H' : mem (x, z) l = false) by (destruct (mem (x, z) l) eqn:Q; [destruct H; apply I, mem_In; exact Q|reflexivity]).
    rewrite H', G2. split; [reflexivity|]. exists m. auto.
Qed.
Lemma fci_pc : fci_found (pc_skeleton so N).
Proof.
  destruct (pc_found g0 D N c so (complete_start d g0 S0) DG PT SO fuel P) as (g1 & R & F).
  apply (fci_finish [PStep (calculate_pearson N); PStep (correlation_step N); PStep (partial_step false N)] (matrix_step so 4 N) g1 R F).
  repeat constructor; intros X; discriminate X.
Qed.
Lemma fci_classic : fci_found (pc_classic_skeleton so N).
Proof.
  destruct (classic_found g0 D N c so (complete_start d g0 S0) DG PT SO fuel P) as (g1 & R & F).
  apply (fci_finish [PStep (calculate_pearson N); PStep (correlation_step N)] (matrix_step so 3 N) g1 R F).
  repeat constructor; intros X; discriminate X.
Qed.
End Whole.
