(* Orientation from recorded separators that are right on the unshielded triples. *)
From Verif Require Import Base PyDict PyDictFacts Graph GraphSpec GraphFacts GraphInv GraphQ PathSpec Actions ActionSpec ActionFacts ActionMain Generators GenSpec GenFacts Rules IndepTests Pipeline Parallel
  PipeSpec PipeFacts PipeMain PipeMain2 Construct ConstructSpec ConstructFacts Dag DagFacts DagSep SkelSpec SkelFacts SkelStart SkelSteps SkelMatrix SkelMain Schedules SkelMain2 DsepDec Ideal SkelTop
  Serve RuleFacts OrientSpec OrientGraph LoopFacts OrientMain OrientTop OrientThree OwnSpec OwnFacts.
Open Scope list_scope.
Open Scope nat_scope.

Section Faith.
Variables (g0 : graph) (D : list (id * id)) (so : list id -> list id).
Hypothesis DG : dag_over (dkeys (nodes g0)) D.
Hypothesis SO : set_order so.
Let Ac : acyclic (edge_in D) := do_acyclic _ _ DG.
Notation node := (SkelFacts.node g0).
Notation E := (edge_in D).
Notation pre := (OrientMain.pre g0 D).
Notation ori := (OrientMain.ori g0 D).
Notation justified := (OrientMain.justified D).
Notation vitem := (OrientMain.vitem D).

Section Collider.
Variables (c : id -> id -> Z) (sepok : id -> id -> list id -> Prop).
Variable st : cstrategy.
Variable g : graph.
Hypothesis K : skel g0 [] c sepok g.
Hypothesis X : forall x y, directed_edge_exists g x y = true <-> adjacent E x y.
Hypothesis T : forall x z y S, adjacent E x z -> adjacent E y z -> x <> y -> ~ adjacent E x y -> sepok x y S -> (In z S <-> ~ vstruct D x z y).
Hypothesis PG : forall u v, directed_edge_is_soft_deleted g u v = false.
Notation cs := (collider_step st so).
Lemma f_pre : pre g.
Proof.
  split.
  - exact (sk_wf _ _ _ _ _ K).
  - exact (sk_nodes _ _ _ _ _ K).
  - exact (sk_rows _ _ _ _ _ K).
  - intros u v L. apply X; exact L.
  - intros u v A L. apply X in A. congruence.
  - intros u v L. destruct (sk_corr _ _ _ _ _ K u v L) as (e & m & H1 & H2 & _). eauto.
Qed.
Let P := f_pre.
Lemma f_key_live x z e : eget g x z = Some e -> directed_edge_exists g x z = true.
Proof. intros G. rewrite (dee_val g x z (p_wf _ _ _ P)), G. specialize (PG x z). unfold directed_edge_is_soft_deleted in PG. unfold eget in G. rewrite G in PG. rewrite PG. reflexivity. Qed.
Lemma f_keys_adj x y zs : common_keys so g x y = Ok zs -> node x -> node y -> x <> y -> forall z, In z zs <-> adjacent E x z /\ adjacent E y z.
Proof.
  intros C Hx Hy Ne z. destruct (common_ok g0 D so SO g P x y Hx Hy Ne) as (zs' & C' & _ & I). rewrite C in C'; injection C' as <-. rewrite I. split.
  - intros (e1 & e2 & G1 & G2). rewrite <- !X. split; eapply f_key_live; eassumption.
  - intros [A1 A2]. rewrite <- X in A1, A2. destruct (live_key g0 D g P _ _ A1) as [e1 G1]. destruct (live_key g0 D g P _ _ A2) as [e2 G2]. eauto.
Qed.
Lemma f_body us acts S x y z : node z -> x <> y -> separators acts = Ok S -> ~ adjacent E x y -> sepok x y S -> adjacent E x z -> adjacent E y z ->
  Forall (goodo vitem) us ->
  (vstruct D x z y /\ collider_body st (Some us) acts g x y z = Ok [remove_directed z x (between x y z); remove_directed z y (between x y z)]) \/
  (~ vstruct D x z y /\ collider_body st (Some us) acts g x y z = Ok []).
Proof.
  intros Hz Ne Es NA GS A1 A2 Fu. assert (TT := T x z y S A1 A2 Ne NA GS).
  unfold collider_body. rewrite (p_nodes _ _ _ P). unfold SkelFacts.node in Hz. rewrite Hz. cbn [negb]. rewrite Es. cbn [rbind].
  destruct (mem z S) eqn:M.
  - right. split; [|reflexivity]. apply TT. apply mem_In. exact M.
  - left. assert (V : vstruct D x z y).
    { assert (CC : vstruct D x z y \/ ~ vstruct D x z y) by (unfold vstruct; destruct (edge_dec D x z), (edge_dec D y z); tauto).
      destruct CC as [V|NV]; [exact V|]. apply TT in NV. apply mem_In in NV. congruence. }
    split; [exact V|]. rewrite (no_unapplied g0 D DG us x z Fu (proj1 V)), (no_unapplied g0 D DG us y z Fu (proj1 (proj2 V))). reflexivity.
Qed.
Lemma f_separator x y : node x -> node y -> x <> y -> directed_edge_exists g x y = false -> exists S, recorded_separator g x y S /\ sepok x y S.
Proof.
  intros Hx Hy Ne L. destruct (sk_gone _ _ _ _ _ K x y Hx Hy Ne L) as (u & v & S & H & _ & OKS). exists S. split; [|exact OKS].
  exists (separated u v S); eexists; split; [|split; reflexivity].
  unfold retrieve_edge_history. unfold history, removals in H. destruct (dget (ehist g) (x, y)); cbn in *; [f_equal; exact H|discriminate].
Qed.
Lemma f_call us x y : node x -> node y -> x <> y -> Forall (goodo vitem) us -> exists o, call cs g [x; y] (Some us) = Ok o /\ goodo vitem o /\
  (forall z, vstruct D x z y -> In (remove_directed z x (between x y z)) (items_of o) /\ In (remove_directed z y (between x y z)) (items_of o)).
Proof.
  intros Hx Hy Ne Fu. unfold call. cbn -[node_at]. unfold collider_test. rewrite (at_node g0 D _ P [x; y] 0 x eq_refl Hx), (at_node g0 D _ P [x; y] 1 y eq_refl Hy). cbn [rbind].
  destruct (undirected_edge_exists g x y) eqn:U.
  { exists None. split; [reflexivity|]. split; [constructor|]. intros z (_ & _ & _ & NA). exfalso; apply NA, X. unfold undirected_edge_exists in U. apply andb_true_iff in U. exact (proj1 U). }
  assert (G : directed_edge_exists g x y = false).
  { destruct (directed_edge_exists g x y) eqn:L; [|reflexivity]. unfold undirected_edge_exists in U. rewrite L, (sk_sym _ _ _ _ _ K x y L) in U. discriminate. }
  assert (NA : ~ adjacent E x y) by (intros A; apply X in A; congruence).
  destruct (common_ok g0 D so SO g P x y Hx Hy Ne) as (zs & Cz & Nz & _). assert (Iz := f_keys_adj x y zs Cz Hx Hy Ne). rewrite Cz. cbn [rbind].
  destruct (f_separator x y Hx Hy Ne G) as (S & (i & d & Hh & Hd & Hs) & GS). rewrite Hh. cbn [rbind].
  assert (Es : separators [i] = Ok S) by (unfold separators; cbn; rewrite Hd, Hs; cbn; rewrite app_nil_r; reflexivity).
  assert (R : forall l, (forall z, In z l -> In z zs) -> exists rs, rflat (collider_body st (Some us) [i] g x y) l = Ok rs /\ Forall vitem rs /\
    (forall z, In z l -> vstruct D x z y -> In (remove_directed z x (between x y z)) rs /\ In (remove_directed z y (between x y z)) rs)).
  { induction l as [|z l IH]; intros Hl; cbn [rflat]; [exists []; split; [reflexivity|split; [constructor|intros z []]]|].
    destruct (IH (fun z' h => Hl z' (or_intror h))) as (rs & -> & Fr & Hr). assert (Hz := Hl z (or_introl eq_refl)). destruct (proj1 (Iz z) Hz) as [A1 A2].
    destruct (f_body us [i] S x y z (Nz z Hz) Ne Es NA GS A1 A2 Fu) as [[V B]|[NV B]]; rewrite B; cbn [rbind].
    - eexists. split; [reflexivity|]. split.
      + apply Forall_app. split; [|exact Fr]. constructor; [|constructor; [|constructor]]; [exists z, x, y|exists z, y, x]; eexists; (split; [reflexivity|]); [exact V|apply vstruct_sym; exact V].
      + intros z' [<-|Hz'] V'; [split; cbn; auto|]. destruct (Hr z' Hz' V') as [H1 H2]. split; apply in_app_iff; right; assumption.
    - eexists. split; [reflexivity|]. split; [exact Fr|]. intros z' [<-|Hz'] V'; [contradiction|]. cbn. apply Hr; assumption. }
  destruct (R zs (fun z h => h)) as (rs & -> & Fr & Hr). cbn [rbind]. eexists. split; [reflexivity|]. split; [exact Fr|]. intros z V. apply Hr; [|exact V].
  apply Iz. destruct V as (E1 & E2 & _). split; left; assumption.
Qed.
Lemma f_collect : forall l local, (forall ns, In ns l -> pair_ok g0 ns) -> Forall (goodo vitem) local ->
  exists os : list outcome, collect cs g (map Generators.One l) local = Ok os /\ Forall (goodo vitem) os /\
    forall x y z : id, In [x; y] l -> vstruct D x z y -> killed os z x /\ killed os z y.
Proof.
  induction l as [|ns l IH]; intros local Hl Fl; cbn [map collect as_args rbind].
  - exists local. split; [reflexivity|]. split; [exact Fl|]. intros x y z [].
  - destruct (Hl ns (or_introl eq_refl)) as (x & y & -> & Hx & Hy & Ne). destruct (f_call local x y Hx Hy Ne Fl) as (o & -> & Go & Ho). cbn [rbind].
    destruct (IH (local ++ [o]) (fun n h => Hl n (or_intror h))) as (os & R & Fo & Hos); [apply Forall_app; split; [exact Fl|constructor; [exact Go|constructor]]|].
    exists os. split; [exact R|]. split; [exact Fo|]. intros x' y' z [H|H] V; [|exact (Hos x' y' z H V)]. injection H as <- <-. destruct (Ho z V) as [H1 H2].
    assert (Io : In o os) by (eapply collect_local; [exact R|apply in_app_iff; cbn; auto]). split; [exists o, (remove_directed z x (between x y z))|exists o, (remove_directed z y (between x y z))]; repeat split; assumption.
Qed.
Lemma f_step Pr : exists g' a, execute_step Pr no_hooks cs false g = (g', Ok a) /\ ori g'.
Proof.
  assert (Gen : gen_run (s_gen cs g) g = Ok (map Generators.One (LoopFacts.pairs_of g))) by (cbn; rewrite app_nil_r; reflexivity).
  rewrite (plain_unfold false cs ltac:(repeat split) Pr g _ Gen). assert (OK := pairs_ok g0 g (p_wf _ _ _ P) (p_nodes _ _ _ P)).
  destruct (f_collect (LoopFacts.pairs_of g) [] OK (Forall_nil _)) as (os & R & Fo & Ho). unfold bind. rewrite R. cbn [liftr]. unfold ret.
  assert (Fj : Forall (fun o => Forall justified (items_of o)) os).
  { eapply Forall_impl; [|exact Fo]. intros o H. eapply Forall_impl; [|exact H]. intros i; apply vitem_justified. }
  destruct (justified_take g0 D os g P Fj) as (g' & a & TK & P' & A). rewrite TK. exists g', a. split; [reflexivity|]. split; [exact P'|].
  intros x z y V. destruct (directed_edge_exists g' z x) eqn:L; [|reflexivity]. exfalso. apply (af_live _ _ _ A) in L. destruct L as [_ L]. apply L.
  assert (Hx : node x) by (apply node_In; apply (do_nodes _ _ DG x z), V). assert (Hy : node y) by (apply node_In; apply (do_nodes _ _ DG y z), V).
  destruct (pairs_In g0 g x y (p_wf _ _ _ P) (p_nodes _ _ _ P) Hx Hy (proj1 (proj2 (proj2 V)))) as [H|H].
  - exact (proj1 (Ho x y z H V)).
  - exact (proj2 (Ho y x z H (vstruct_sym _ _ _ _ V))).
Qed.
Lemma f_collider fuel Pr : exists g2, run_pstep fuel Pr no_hooks (PStep cs) g = (g2, Ok tt) /\ ori g2.
Proof.
  destruct (f_step Pr) as (g1 & a1 & R1 & O1). cbn [run_pstep]. unfold bind at 1. rewrite R1. unfold bind at 1, log_step at 1. cbn beta iota.
  set (g1' := with_ahist g1 _). assert (O1' := ori_same g0 D g1 g1' O1 (after_log _ _ (p_wf _ _ _ (proj1 O1)))).
  destruct (after_purge g1' (p_wf _ _ _ (proj1 O1'))) as [A2 E2]. destruct (purge_soft_deleted_edges g1') as [g2 r2]. cbn [fst snd] in A2, E2. subst r2.
  exists g2. split; [reflexivity|]. exact (ori_same g0 D g1' g2 O1' A2).
Qed.
End Collider.

Theorem f_orient c sepok N st first name l last fuel Pr g : skel g0 [] c sepok g -> (forall x y, directed_edge_exists g x y = true <-> adjacent E x y) ->
  (forall x z y S, adjacent E x z -> adjacent E y z -> x <> y -> ~ adjacent E x y -> sepok x y S -> (In z S <-> ~ vstruct D x z y)) ->
  (forall u v, directed_edge_is_soft_deleted g u v = false) ->
  Forall (arranged so) first -> only_rules so l -> has_three so l -> (last = [] \/ last = [PStep (effect_step N)]) -> List.length (nodes g0) * List.length (nodes g0) + 2 <= fuel ->
  exists g' r, execute_pipeline fuel Pr no_hooks (PStep (collider_step st so) :: first ++ PLoop name exit_on_no_actions l :: last) g = (g', r) /\
    nodes g' = nodes g0 /\ meek_pattern g' D /\ match r with Ok _ => True | Err e => exists xs zs ys, n_effect N xs zs ys = Err e end.
Proof.
  intros K X T PG Ff Hl H3 La Fu. destruct (f_collider c sepok st g K X T PG fuel Pr) as (g2 & R2 & O2). rewrite (pipeline_cons _ _ _ _ _ _ _ R2).
  destruct (arranged_all g0 D so DG SO fuel Pr first g2 O2 Ff Fu) as (g3 & R3 & O3). rewrite pipeline_app, R3.
  destruct (loop_ends g0 D so DG SO fuel Pr name l g3 O3 Hl Fu) as (g4 & R4 & O4 & MP). rewrite (pipeline_cons _ _ _ _ _ _ _ R4). specialize (MP H3). destruct La as [->| ->].
  - exists g4, (Ok tt). split; [reflexivity|]. split; [exact (p_nodes _ _ _ (proj1 O4))|auto].
  - destruct (eff_run g0 D N g4 (proj1 O4) fuel Pr) as (g5 & r5 & R5 & (W5 & N5 & L5 & _) & H5). cbn [execute_pipeline]. unfold bind at 1. rewrite R5. exists g5.
    assert (MP5 : meek_pattern g5 D) by (intros x y; rewrite L5; apply MP). destruct r5 as [u|e]; eexists; (split; [reflexivity|auto]).
Qed.
End Faith.
