(* The orientation phase when directions are known beforehand: the lemmas of OrientMain for the closure of KnowSpec. *)
From Verif Require Import Base PyDict PyDictFacts Graph GraphSpec GraphFacts GraphInv GraphInv2 GraphInv3 GraphQ GraphMain
  GraphPaths PathSpec Actions ActionSpec ActionFacts ActionMain Generators GenSpec GenFacts Rules IndepTests Pipeline Parallel PipeFacts PipeMain RuleFacts Serve Rows
  Construct ConstructSpec ConstructFacts Dag DagFacts DagSep SkelSpec SkelFacts SkelStart SkelSteps SkelMatrix SkelMain Schedules SkelMain2 DsepDec OrientSpec OrientGraph LoopFacts OrientMain KnowSpec KnowGraph.
Open Scope string_scope.
Open Scope list_scope.
Open Scope nat_scope.

Section Main.
Variable g0 : graph.
Variable D : list (id * id).
Variable so : list id -> list id.
Hypothesis DG : dag_over (dkeys (nodes g0)) D.
Hypothesis SO : set_order so.
Variable KD : id -> id -> Prop.
Hypothesis KS : forall x y, KD x y -> edge_in D x y.
Notation node := (SkelFacts.node g0).
Notation E := (edge_in D).
Notation Ac := (do_acyclic _ _ DG).

Record pre (g : graph) : Prop := {
  p_wf : WF g;
  p_nodes : nodes g = nodes g0;
  p_rows : forall u v, node u -> node v -> u <> v -> dmem (edges g) u = true;
  p_adj : forall u v, directed_edge_exists g u v = true -> adjacent E u v;
  p_sound : forall u v, adjacent E u v -> directed_edge_exists g u v = false -> known D KD v u;
  p_meta : forall u v, directed_edge_exists g u v = true -> exists e m, eget g u v = Some e /\ e_meta e = Some m }.
Definition vs_done (g : graph) : Prop := forall x z y, vstruct D x z y -> directed_edge_exists g z x = false.
Definition ori (g : graph) : Prop := pre g /\ vs_done g.

Lemma pre_after K g g' : pre g -> after K g g' -> (forall a b, K a b \/ ~ K a b) -> (forall a b, K a b -> known D KD b a) -> pre g'.
Proof.
  intros [P1 P2 P3 P4 P5 P6] [A1 A2 A3 A4 A5] Kd Ks. split; auto.
  - congruence.
  - intros u v Hu Hv Ne. apply A5. eapply P3; eassumption.
  - intros u v L. apply P4. apply A3 in L. tauto.
  - intros u v A F. destruct (Kd u v) as [H|H]; [apply Ks; exact H|]. apply P5; [exact A|]. destruct (directed_edge_exists g u v) eqn:L; [|reflexivity].
    exfalso. assert (X : directed_edge_exists g' u v = true) by (apply A3; auto). congruence.
  - intros u v L. assert (M := A4 u v L). destruct (P6 u v) as (e & m & Ee & Em); [apply A3 in L; tauto|]. rewrite Ee in M. destruct (eget g' u v) as [e'|]; [|discriminate].
    cbn in M. injection M as M. exists e', m. split; [reflexivity|congruence].
Qed.
Lemma vs_shrinks g g' : shrinks g g' -> vs_done g -> vs_done g'.
Proof. intros (_ & _ & S) V x z y H. specialize (V x z y H). destruct (directed_edge_exists g' z x) eqn:L; [|reflexivity]. apply S in L. congruence. Qed.
Lemma ori_same g g' : ori g -> after (fun _ _ => False) g g' -> ori g'.
Proof. intros [P V] A. split; [eapply pre_after; [exact P|exact A|auto|intros a b []]|]. eapply vs_shrinks; [eapply after_shrinks; exact A|exact V]. Qed.

(* ---- reading the graph ---- *)
Section Read.
Variable g : graph.
Hypothesis P : pre g.
Lemma live_E x y : E x y -> directed_edge_exists g x y = true.
Proof.
  intros A. destruct (directed_edge_exists g x y) eqn:L; [reflexivity|]. exfalso. apply (no_two E Ac x y A). apply (known_sound D KD Ac KS).
  apply (p_sound _ P); [left; exact A|exact L].
Qed.
Lemma ee_adj x y : edge_exists g x y = true <-> adjacent E x y.
Proof.
  rewrite edge_exists_or, orb_true_iff. split.
  - intros [L|L]; apply (p_adj _ P) in L; [exact L|apply adjacent_sym; exact L].
  - intros [A|A]; apply live_E in A; auto.
Qed.
Lemma ee_apart x y : edge_exists g x y = false <-> ~ adjacent E x y.
Proof. rewrite <- ee_adj. destruct (edge_exists g x y); split; intros; congruence. Qed.
Lemma one_known x y : only_directed_edge_exists g x y = true -> known D KD x y.
Proof.
  unfold only_directed_edge_exists. rewrite andb_true_iff, negb_true_iff. intros [L F]. apply (p_sound _ P); [apply adjacent_sym, (p_adj _ P); exact L|exact F].
Qed.
Lemma und_adj x y : undirected_edge_exists g x y = true -> adjacent E x y.
Proof. intros U. apply (p_adj _ P), und_l, U. Qed.
Lemma live_nodes x y : directed_edge_exists g x y = true -> node x /\ node y /\ x <> y.
Proof. intros L. destruct (live_entry _ _ _ (p_wf _ P) L) as (e & _ & _ & A & B & C). rewrite (p_nodes _ P) in A, B. auto. Qed.
Lemma ee_nodes x y : edge_exists g x y = true -> node x /\ node y /\ x <> y.
Proof. rewrite edge_exists_or, orb_true_iff. intros [L|L]; apply live_nodes in L; destruct L as (A & B & C); auto. Qed.
Lemma at_node ns k x : nth_error ns k = Some x -> node x -> node_at g ns k = Ok x.
Proof. intros H N. unfold node_at. rewrite H, (p_nodes _ P). unfold SkelFacts.node in N. rewrite N. reflexivity. Qed.
Lemma row_get x y : node x -> node y -> x <> y -> exists r, dget (edges g) x = Some r /\ row_of g x = Ok (dkeys r).
Proof.
  intros Hx Hy Ne. assert (R := p_rows _ P x y Hx Hy Ne). unfold dmem in R. destruct (dget (edges g) x) as [r|] eqn:G; [|discriminate]. exists r. split; [reflexivity|].
  unfold row_of. rewrite G. reflexivity.
Qed.
Lemma key_node x r z : dget (edges g) x = Some r -> In z (dkeys r) -> node z.
Proof. intros G H. apply (row_keys _ _ _ z G) in H. destruct H as [e H]. destruct (wf_fwd _ (p_wf _ P) _ _ _ H) as (_ & B & _). rewrite (p_nodes _ P) in B. exact B. Qed.
Lemma common_ok x y : node x -> node y -> x <> y -> exists zs, common_keys so g x y = Ok zs /\ (forall z, In z zs -> node z) /\
  (forall z, In z zs <-> exists e1 e2, eget g x z = Some e1 /\ eget g y z = Some e2).
Proof.
  intros Hx Hy Ne. destruct (row_get x y Hx Hy Ne) as (rx & Gx & Rx). destruct (row_get y x Hy Hx (fun h => Ne (eq_sym h))) as (ry & Gy & Ry).
  unfold common_keys. rewrite Rx, Ry. cbn [rbind]. eexists. split; [reflexivity|]. assert (X : forall z, In z (so (filter (fun z => mem z (dkeys ry)) (dkeys rx))) <-> In z (dkeys rx) /\ In z (dkeys ry)).
  { intros z. rewrite (proj2 (SO _)). rewrite filter_In, mem_In. reflexivity. }
  split.
  - intros z Hz. apply X in Hz. exact (key_node x rx z Gx (proj1 Hz)).
  - intros z. rewrite X, (row_keys _ _ _ z Gx), (row_keys _ _ _ z Gy). unfold eget. split; [intros [[e1 H1] [e2 H2]]; eauto|intros (e1 & e2 & H1 & H2); eauto].
Qed.
Lemma live_key x z : directed_edge_exists g x z = true -> exists e, eget g x z = Some e.
Proof. intros L. destruct (live_entry _ _ _ (p_wf _ P) L) as (e & A & _). eauto. Qed.
End Read.

(* ---- one rule step ---- *)
Definition justified (i : tresult) : Prop := t_act i = DO_NOTHING \/ (t_act i = REMOVE_EDGE_DIRECTED /\ known D KD (t_v i) (t_u i)).
Definition sound_rule (s : step) : Prop := forall g ns, ori g -> pair_ok g0 ns -> exists o, call s g ns None = Ok o /\ Forall justified (items_of o).
Lemma justified_item i : justified i -> orient_item i.
Proof. intros [A|[A _]]; [left|right]; exact A. Qed.
Lemma rmap_ok {A B} (f : A -> res B) (Q : B -> Prop) : forall l, (forall a, In a l -> exists b, f a = Ok b /\ Q b) -> exists os, rmap f l = Ok os /\ Forall Q os.
Proof.
  induction l as [|a l IH]; intros H; cbn [rmap].
  - exists []. split; [reflexivity|constructor].
  - destruct (H a (or_introl eq_refl)) as (b & -> & Qb). destruct (IH (fun a' h => H a' (or_intror h))) as (os & -> & F). cbn. exists (b :: os). split; [reflexivity|constructor; assumption].
Qed.
Lemma justified_take rs g : pre g -> Forall (fun o => Forall justified (items_of o)) rs -> exists g' a, take_action no_hooks false rs g = (g', Ok a) /\ pre g' /\ after (killed rs) g g'.
Proof.
  intros P F. assert (F' : Forall (fun o => Forall orient_item (items_of o)) rs).
  { eapply Forall_impl; [|exact F]. intros o H. eapply Forall_impl; [|exact H]. intros i; apply justified_item. }
  assert (A := after_take rs g (p_wf _ P) F'). destruct (take_orient_ok rs g (p_wf _ P) F') as [a Ea]. destruct (take_action no_hooks false rs g) as [g' r]. cbn [fst snd] in *. subst r.
  exists g', a. split; [reflexivity|]. split; [|exact A]. apply (pre_after (killed rs) g g' P A (killed_dec rs)). intros x y (o & i & Ho & Hi & K1 & K2 & K3).
  rewrite Forall_forall in F. specialize (F o Ho). rewrite Forall_forall in F. destruct (F i Hi) as [B|[_ B]]; [congruence|]. rewrite K2, K3 in B. exact B.
Qed.
Lemma rule_keeps s P g : rule_step s -> sound_rule s -> ori g -> exists g' a, execute_step P no_hooks s false g = (g', Ok a) /\ ori g'.
Proof.
  intros RS SR [Pr V]. rewrite (rule_unfold s P false g RS).
  destruct (rmap_ok (fun ns => call s g ns None) (fun o => Forall justified (items_of o)) (pairs_of g)) as (os & Eo & Fo).
  { intros ns Hns. apply SR; [split; assumption|]. apply (pairs_ok g0 g (p_wf _ Pr) (p_nodes _ Pr) ns Hns). }
  rewrite Eo. destruct (justified_take os g Pr Fo) as (g' & a & R & P' & A). exists g', a. split; [exact R|]. split; [exact P'|].
  eapply vs_shrinks; [eapply after_shrinks; exact A|exact V].
Qed.

Lemma inner_keeps P : forall l g, Forall rule_step l -> Forall sound_rule l -> ori g -> exists g' a, run_inner P no_hooks false l g = (g', Ok a) /\ ori g'.
Proof.
  induction l as [|s l IH]; intros g F1 F2 O; cbn [run_inner].
  - eexists _, _. split; [reflexivity|exact O].
  - inversion F1; inversion F2; subst. destruct (rule_keeps s P g) as (g1 & a & R1 & O1); auto. destruct (IH g1) as (g2 & b & R2 & O2); auto.
    unfold bind. rewrite R1, R2. eexists _, _. split; [reflexivity|exact O2].
Qed.
Lemma loop_keeps P l : Forall rule_step l -> Forall sound_rule l -> forall fuel n last g, ori g -> (0 < n -> exists t, last = Some t) ->
  exists g' r, run_loop fuel P no_hooks exit_on_no_actions l n last g = (g', r) /\ ori g' /\ (r = Err OutOfFuel \/ exists hs, r = Ok hs).
Proof.
  intros F1 F2. induction fuel as [|f IH]; intros n last g O Hn; cbn [run_loop].
  - exists g, (Err OutOfFuel). split; [reflexivity|auto].
  - unfold bind at 1. assert (X : exists stop, exit_on_no_actions n last = Ok stop).
    { unfold exit_on_no_actions. destruct n; cbn; [eauto|]. destruct (Hn ltac:(lia)) as (t & ->). eauto. }
    destruct X as (stop & ->). cbn [liftr]. unfold ret at 1. destruct stop.
    + exists g, (Ok []). split; [reflexivity|]. split; [exact O|right; eauto].
    + destruct (inner_keeps P l g F1 F2 O) as (g1 & a & R1 & O1). unfold bind at 1. rewrite R1. destruct (IH (S n) (Some (snd a)) g1 O1 ltac:(eauto)) as (g2 & r & R2 & O2 & Hr).
      unfold bind at 1. rewrite R2. destruct Hr as [->|[hs ->]].
      * exists g2, (Err OutOfFuel). split; [reflexivity|auto].
      * eexists g2, (Ok _). split; [reflexivity|]. split; [exact O2|right; eauto].
Qed.

(* ---- the four rules are sound ---- *)
Lemma not_vs g x z y : vs_done g -> undirected_edge_exists g z y = true -> ~ vstruct D x z y.
Proof. intros V U H. apply vstruct_sym in H. specialize (V _ _ _ H). apply und_l in U. congruence. Qed.
Lemma nc_sound_loop g x y : ori g -> node x -> node y -> x <> y -> edge_exists g x y = false -> forall zs, (forall z, In z zs -> node z) ->
  exists o, non_collider_loop g x y zs = Ok o /\ Forall justified (items_of o).
Proof.
  intros [P V] Hx Hy Ne NE. assert (NA := proj1 (ee_apart g P x y) NE).
  assert (J : forall a b z, only_directed_edge_exists g a z = true -> undirected_edge_exists g z b = true -> a <> b -> ~ adjacent E a b -> known D KD z b).
  { intros a b z O U N A. apply (kn_1 D KD a z b); auto; [apply (one_known g P); exact O|apply (und_adj g P); exact U|eapply not_vs; eassumption]. }
  induction zs as [|z zs IH]; intros Hz; cbn [non_collider_loop]; [exists None; split; [reflexivity|constructor]|].
  rewrite (p_nodes _ P). assert (Nz := Hz z (or_introl eq_refl)). unfold SkelFacts.node in Nz. rewrite Nz. cbn [negb].
  destruct (only_directed_edge_exists g x z && undirected_edge_exists g z y) eqn:B1.
  { apply andb_true_iff in B1. destruct B1 as [B1 B2]. eexists. split; [reflexivity|]. constructor; [|constructor]. destruct (would_collide g y z); [left; reflexivity|right].
    split; [reflexivity|]. cbn. exact (J x y z B1 B2 Ne NA). }
  destruct (only_directed_edge_exists g y z && undirected_edge_exists g z x) eqn:B2; [|apply IH; intros; apply Hz; right; assumption].
  apply andb_true_iff in B2. destruct B2 as [B2 B3]. eexists. split; [reflexivity|]. constructor; [|constructor]. destruct (would_collide g x z); [left; reflexivity|right].
  split; [reflexivity|]. cbn. apply (J y x z B2 B3); [congruence|]. intros A; apply NA, adjacent_sym, A.
Qed.
Lemma nc_sound : sound_rule (non_collider_step so).
Proof.
  intros g ns O Hn. assert (P := proj1 O). unfold call. cbn -[node_at]. unfold non_collider_test. destruct Hn as (x & y & -> & Hx & Hy & Ne).
  rewrite (at_node _ P [x; y] 0 x eq_refl Hx), (at_node _ P [x; y] 1 y eq_refl Hy). cbn [rbind].
  destruct (edge_exists g x y) eqn:EE; [exists None; split; [reflexivity|constructor]|]. destruct (common_ok g P x y Hx Hy Ne) as (zs & -> & Hz & _). cbn [rbind].
  apply nc_sound_loop; assumption.
Qed.
Lemma forall_flat {A} (f : A -> list tresult) l : (forall a, In a l -> Forall justified (f a)) -> Forall justified (flat_map f l).
Proof. intros H. apply Forall_forall. intros i Hi. apply in_flat_map in Hi. destruct Hi as (a & Ha & Hi). specialize (H a Ha). rewrite Forall_forall in H. auto. Qed.
Lemma just_if (b : bool) u v d : (b = true -> known D KD v u) -> Forall justified (if b then [remove_directed u v d] else []).
Proof. intros H. destruct b; [|constructor]. constructor; [|constructor]. right. split; [reflexivity|exact (H eq_refl)]. Qed.
Ltac splitb B := rewrite ?andb_true_iff in B; repeat match goal with H : _ /\ _ |- _ => destruct H end.
Lemma triple_sound : sound_rule triple_step.
Proof.
  intros g ns O Hn. assert (P := proj1 O). unfold call. cbn -[node_at]. unfold triple_test. destruct Hn as (x & y & -> & Hx & Hy & Ne).
  rewrite (at_node _ P [x; y] 0 x eq_refl Hx), (at_node _ P [x; y] 1 y eq_refl Hy). cbn [rbind]. eexists. split; [reflexivity|]. cbn [items_of].
  apply forall_flat. intros z _. unfold triple_body. destruct (negb _); [constructor|]. apply Forall_app. split; apply just_if; intros B; splitb B.
  - apply (kn_2 D KD x z y); [apply (one_known g P); assumption|apply (one_known g P); assumption|apply (und_adj g P); assumption].
  - apply (kn_2 D KD y z x); [apply (one_known g P); assumption|apply (one_known g P); assumption|apply adjacent_sym, (und_adj g P); assumption].
Qed.
Lemma shared_NoDup g y w : NoDup (shared_adjacent so g y w).
Proof. apply (SO _). Qed.
Lemma shared_In g y w x : pre g -> In x (shared_adjacent so g y w) <-> edge_exists g y x = true /\ edge_exists g x w = true.
Proof.
  intros P. unfold shared_adjacent. rewrite (proj2 (SO _)). rewrite filter_In, andb_true_iff. split; [tauto|]. intros [A B]. split; [|auto].
  destruct (ee_nodes g P y x A) as (_ & N & _). apply dmem_In. rewrite (p_nodes _ P). exact N.
Qed.
Lemma und_sym g x y : undirected_edge_exists g x y = undirected_edge_exists g y x.
Proof. unfold undirected_edge_exists. apply andb_comm. Qed.
Lemma negb_ee g x y : pre g -> negb (edge_exists g x y) = true -> ~ adjacent E x y.
Proof. intros P H. apply negb_true_iff in H. apply (ee_apart g P); exact H. Qed.
Lemma r3 g x y w z : ori g -> negb (edge_exists g y w) = true -> only_directed_edge_exists g y z = true -> only_directed_edge_exists g w z = true ->
  undirected_edge_exists g x y = true -> undirected_edge_exists g x w = true -> undirected_edge_exists g x z = true -> y <> w -> known D KD x z.
Proof.
  intros [P V] NE O1 O2 U1 U2 U3 Ne. apply (kn_3 D KD x y w z); auto; try (apply (one_known g P); assumption); try (apply (und_adj g P); assumption); [apply (negb_ee g); assumption|].
  eapply not_vs; [exact V|exact U2].
Qed.
Lemma r4 g x y w z : ori g -> negb (edge_exists g y z) = true -> only_directed_edge_exists g y w = true -> only_directed_edge_exists g w z = true ->
  undirected_edge_exists g x y = true -> undirected_edge_exists g x w = true -> undirected_edge_exists g x z = true -> y <> z -> known D KD x z.
Proof.
  intros [P V] NE O1 O2 U1 U2 U3 Ne. apply (kn_4 D KD x y w z); auto; try (apply (one_known g P); assumption); try (apply (und_adj g P); assumption); [apply (negb_ee g); assumption|].
  eapply not_vs; [exact V|exact U3].
Qed.
Lemma quad_sound : sound_rule (quadruple_step so).
Proof.
  intros g ns O Hn. assert (P := proj1 O). unfold call. cbn -[node_at combos]. unfold quadruple_test. destruct Hn as (y & w & -> & Hy & Hw & Ne).
  rewrite (at_node _ P [y; w] 0 y eq_refl Hy), (at_node _ P [y; w] 1 w eq_refl Hw). cbn [rbind]. eexists. split; [reflexivity|]. cbn [items_of].
  apply forall_flat. intros p Hp. destruct (combos_two _ _ (shared_NoDup g y w) Hp) as (x & z & -> & Nxz & _). unfold quadruple_body.
  apply Forall_app. split; apply just_if; intros B; splitb B.
  - eapply (r3 g x y w z O); assumption.
  - apply (r3 g z y w x O); try assumption; rewrite und_sym; assumption.
Qed.
Lemma fquad_sound : sound_rule (further_quadruple_step so).
Proof.
  intros g ns O Hn. assert (P := proj1 O). unfold call. cbn -[node_at combos]. unfold further_quadruple_test. destruct Hn as (x & w & -> & Hx & Hw & Ne).
  rewrite (at_node _ P [x; w] 0 x eq_refl Hx), (at_node _ P [x; w] 1 w eq_refl Hw). cbn [rbind]. eexists. split; [reflexivity|]. cbn [items_of].
  apply forall_flat. intros p Hp. destruct (combos_two _ _ (shared_NoDup g x w) Hp) as (y & z & -> & Nyz & _). unfold further_quadruple_body.
  assert (J : forall u v, known D KD v u -> Forall justified [remove_directed u v []]) by (intros u v H; constructor; [right; split; [reflexivity|exact H]|constructor]).
  assert (Nzy : z <> y) by congruence.
  match goal with |- Forall _ (if ?b then _ else _) => destruct b eqn:B1 end; [apply J; splitb B1; eapply (r4 g x y w z O); assumption|].
  match goal with |- Forall _ (if ?b then _ else _) => destruct b eqn:B2 end; [apply J; splitb B2; eapply (r4 g x z w y O); assumption|].
  match goal with |- Forall _ (if ?b then _ else _) => destruct b eqn:B3 end; [apply J; splitb B3; eapply (r4 g w y x z O); try assumption; rewrite und_sym; assumption|].
  match goal with |- Forall _ (if ?b then _ else _) => destruct b eqn:B4 end; [apply J; splitb B4; eapply (r4 g w z x y O); try assumption; rewrite und_sym; assumption|]. constructor.
Qed.
Lemma rules_sound : Forall sound_rule (orientation_steps so).
Proof. apply Forall_cons; [apply nc_sound|]. apply Forall_cons; [apply triple_sound|]. apply Forall_cons; [apply quad_sound|]. apply Forall_cons; [apply fquad_sound|]. apply Forall_nil. Qed.

(* ---- a graph on which the rules are silent shows the derived arrows ---- *)
Lemma no_collide g a b z : ori g -> only_directed_edge_exists g a z = true -> undirected_edge_exists g z b = true -> a <> b -> edge_exists g a b = false -> would_collide g b z = false.
Proof.
  intros [P V] O U Ne NE. destruct (would_collide g b z) eqn:W; [|reflexivity]. exfalso. unfold would_collide in W. apply existsb_exists in W. destruct W as (n & _ & W).
  apply andb_true_iff in W. destruct W as [W1 W2]. assert (O1 : known D KD z b).
  { apply (kn_1 D KD a z b); [apply (one_known g P); exact O|apply (und_adj g P); exact U|exact Ne|apply (ee_apart g P); exact NE|eapply not_vs; eassumption]. }
  assert (O2 : known D KD b z).
  { apply (kn_1 D KD n b z); [apply (one_known g P); exact W1|apply adjacent_sym, (und_adj g P); exact U| |apply (negb_ee g); [exact P|exact W2]|].
    - intros ->. unfold only_directed_edge_exists in W1. apply andb_true_iff in W1. destruct W1 as [_ W1]. apply und_r in U. rewrite U in W1. discriminate.
    - apply (not_vs g); [exact V|]. rewrite und_sym. exact U. }
  exact (known_asym D KD Ac KS _ _ O1 O2).
Qed.
Lemma nc_fires g a b : ori g -> a <> b -> edge_exists g a b = false -> forall zs, (forall z, In z zs -> node z) ->
  (exists z, In z zs /\ ((only_directed_edge_exists g a z = true /\ undirected_edge_exists g z b = true) \/ (only_directed_edge_exists g b z = true /\ undirected_edge_exists g z a = true))) ->
  exists i, non_collider_loop g a b zs = Ok (Some [i]) /\ t_act i = REMOVE_EDGE_DIRECTED.
Proof.
  intros O Ne NE. induction zs as [|z zs IH]; intros Hz (z1 & H1 & H2); [destruct H1|]. cbn [non_collider_loop].
  rewrite (p_nodes _ (proj1 O)). assert (Nz := Hz z (or_introl eq_refl)). unfold SkelFacts.node in Nz. rewrite Nz. cbn [negb].
  destruct (only_directed_edge_exists g a z && undirected_edge_exists g z b) eqn:B1.
  { apply andb_true_iff in B1. destruct B1 as [B1 B2]. rewrite (no_collide g a b z O B1 B2 Ne NE). eexists. split; reflexivity. }
  destruct (only_directed_edge_exists g b z && undirected_edge_exists g z a) eqn:B2.
  { apply andb_true_iff in B2. destruct B2 as [B2 B3]. rewrite (no_collide g b a z O B2 B3 (fun h => Ne (eq_sym h)) ltac:(rewrite edge_exists_sym; exact NE)). eexists. split; reflexivity. }
  apply IH; [intros; apply Hz; right; assumption|]. destruct H1 as [<-|H1]; [|exists z1; auto].
  destruct H2 as [[C1 C2]|[C1 C2]]; [rewrite C1, C2 in B1|rewrite C1, C2 in B2]; discriminate.
Qed.
Lemma quiet_call s g x y : pre g -> quiet s g -> node x -> node y -> x <> y ->
  exists a b o, ((a = x /\ b = y) \/ (a = y /\ b = x)) /\ call s g [a; b] None = Ok o /\ (forall i, In i (items_of o) -> t_act i = DO_NOTHING).
Proof.
  intros P Qu Hx Hy Ne. destruct (pairs_In g0 g x y (p_wf _ P) (p_nodes _ P) Hx Hy Ne) as [H|H]; destruct (Qu _ H) as (o & C & N).
  - exists x, y, o. auto.
  - exists y, x, o. auto.
Qed.

Section Closed.
Variable g : graph.
Hypothesis O : ori g.
Let P : pre g := proj1 O.
Notation L := (fun x y => directed_edge_exists g x y = true).
Lemma one_b x y : One L x y -> only_directed_edge_exists g x y = true.
Proof. intros [A B]. unfold only_directed_edge_exists. rewrite A. destruct (directed_edge_exists g y x); [congruence|reflexivity]. Qed.
Lemma two_b x y : Two L x y -> undirected_edge_exists g x y = true.
Proof. intros [A B]. unfold undirected_edge_exists. rewrite A, B. reflexivity. Qed.
Lemma one_ee x y : One L x y -> edge_exists g x y = true /\ edge_exists g y x = true.
Proof. intros [A _]. rewrite !edge_exists_or, A. split; [reflexivity|apply orb_true_r]. Qed.
Lemma two_ee x y : Two L x y -> edge_exists g x y = true /\ edge_exists g y x = true.
Proof. intros [A _]. rewrite !edge_exists_or, A. split; [reflexivity|apply orb_true_r]. Qed.
Lemma one_nodes x y : One L x y -> node x /\ node y /\ x <> y.
Proof. intros [A _]. exact (live_nodes g P x y A). Qed.
Lemma apart_b x y : ~ adjacent E x y -> edge_exists g x y = false.
Proof. apply (ee_apart g P). Qed.

Lemma cl_1 : quiet (non_collider_step so) g -> forall x z y, One L x z -> Two L z y -> x <> y -> ~ adjacent E x y -> False.
Proof.
  intros Qu x z y O1 T2 Ne NA. destruct (one_nodes _ _ O1) as (Hx & Hz & _). destruct (live_nodes g P _ _ (proj1 T2)) as (_ & Hy & _).
  destruct (quiet_call _ g x y P Qu Hx Hy Ne) as (a & b & o & Hab & C & Qo). unfold call in C. cbn -[node_at] in C. unfold non_collider_test in C.
  assert (Ha : node a /\ node b /\ a <> b) by (destruct Hab as [[-> ->]|[-> ->]]; auto). destruct Ha as (Ha & Hb & Nab).
  rewrite (at_node _ P [a; b] 0 a eq_refl Ha), (at_node _ P [a; b] 1 b eq_refl Hb) in C. cbn [rbind] in C.
  assert (EE : edge_exists g a b = false) by (destruct Hab as [[-> ->]|[-> ->]]; [|rewrite edge_exists_sym]; apply apart_b; exact NA). rewrite EE in C.
  destruct (common_ok g P a b Ha Hb Nab) as (zs & Cz & Nz & Iz). rewrite Cz in C. cbn [rbind] in C.
  destruct (nc_fires g a b O Nab EE zs Nz) as (i & R & A).
  { exists z. destruct (live_key g P x z (proj1 O1)) as [e1 K1]. destruct (live_key g P y z (proj2 T2)) as [e2 K2]. split.
    - apply Iz. destruct Hab as [[-> ->]|[-> ->]]; [exists e1, e2|exists e2, e1]; auto.
    - apply one_b in O1. apply two_b in T2. destruct Hab as [[-> ->]|[-> ->]]; auto. }
  rewrite R in C. injection C as <-. specialize (Qo i (or_introl eq_refl)). congruence.
Qed.
Lemma cl_2 : quiet triple_step g -> forall x z y, One L x z -> One L z y -> Two L x y -> False.
Proof.
  intros Qu x z y O1 O2 T. destruct (live_nodes g P _ _ (proj1 T)) as (Hx & Hy & Ne).
  destruct (quiet_call _ g x y P Qu Hx Hy Ne) as (a & b & o & Hab & C & Qo). unfold call in C. cbn -[node_at] in C. unfold triple_test in C.
  assert (Ha : node a /\ node b) by (destruct Hab as [[-> ->]|[-> ->]]; auto). destruct Ha as (Ha & Hb).
  rewrite (at_node _ P [a; b] 0 a eq_refl Ha), (at_node _ P [a; b] 1 b eq_refl Hb) in C. cbn [rbind] in C. injection C as <-. cbn [items_of] in Qo.
  destruct (one_nodes _ _ O1) as (_ & Hz & _). destruct (one_ee _ _ O1) as [E1 E1']. destruct (one_ee _ _ O2) as [E2 E2']. apply one_b in O1, O2. assert (U := two_b _ _ T). assert (U' := U). rewrite und_sym in U'.
  assert (X : exists i, In i (triple_body g a b z) /\ t_act i = REMOVE_EDGE_DIRECTED).
  { unfold triple_body. destruct Hab as [[-> ->]|[-> ->]].
    - rewrite E2', E1, U, O1, O2. cbn. eexists; split; [left; reflexivity|reflexivity].
    - rewrite E1, E2', U', O1, O2. cbn. eexists; split; [apply in_app_iff; right; left; reflexivity|reflexivity]. }
  destruct X as (i & Hi & A). specialize (Qo i). rewrite Qo in A; [discriminate|]. apply in_flat_map. exists z. split; [|exact Hi].
  apply dmem_In. rewrite (p_nodes _ P). exact Hz.
Qed.
Lemma cl_3 : quiet (quadruple_step so) g -> forall x y w z, One L y z -> One L w z -> y <> w -> ~ adjacent E y w -> Two L x y -> Two L x w -> Two L x z -> False.
Proof.
  intros Qu x y w z O1 O2 Ne NA T1 T2 T3. destruct (one_nodes _ _ O1) as (Hy & Hz & _). destruct (one_nodes _ _ O2) as (Hw & _ & _).
  destruct (quiet_call _ g y w P Qu Hy Hw Ne) as (a & b & o & Hab & C & Qo). unfold call in C. cbn -[node_at combos] in C. unfold quadruple_test in C.
  assert (Ha : node a /\ node b) by (destruct Hab as [[-> ->]|[-> ->]]; auto). destruct Ha as (Ha & Hb).
  rewrite (at_node _ P [a; b] 0 a eq_refl Ha), (at_node _ P [a; b] 1 b eq_refl Hb) in C. cbn [rbind] in C. injection C as <-. cbn [items_of] in Qo.
  assert (Nxz : x <> z) by (destruct (live_nodes g P _ _ (proj1 T3)) as (_ & _ & N); exact N).
  assert (Ix : In x (shared_adjacent so g a b)).
  { apply (shared_In g _ _ _ P). destruct (two_ee _ _ T1), (two_ee _ _ T2). destruct Hab as [[-> ->]|[-> ->]]; auto. }
  assert (Iz : In z (shared_adjacent so g a b)).
  { apply (shared_In g _ _ _ P). destruct (one_ee _ _ O1), (one_ee _ _ O2). destruct Hab as [[-> ->]|[-> ->]]; auto. }
  apply one_b in O1, O2. assert (U1 := two_b _ _ T1). assert (U2 := two_b _ _ T2). assert (U3 := two_b _ _ T3).
  assert (U1' := U1). assert (U2' := U2). assert (U3' := U3). rewrite und_sym in U1', U2', U3'. assert (A1 := apart_b _ _ NA). assert (A2 := A1). rewrite edge_exists_sym in A2.
  assert (X : exists p i, In p (combos 2 (shared_adjacent so g a b)) /\ In i (quadruple_body g a b p) /\ t_act i = REMOVE_EDGE_DIRECTED).
  { destruct (combos_pair _ x z Ix Iz Nxz) as [H|H].
    - exists [x; z]. eexists. split; [exact H|]. unfold quadruple_body. destruct Hab as [[-> ->]|[-> ->]]; rewrite ?A1, ?A2, O1, O2, U1, U2, U3; cbn; (split; [left; reflexivity|reflexivity]).
    - exists [z; x]. eexists. split; [exact H|]. unfold quadruple_body. destruct Hab as [[-> ->]|[-> ->]]; rewrite ?A1, ?A2, O1, O2, U1', U2', U3'; cbn; (split; [apply in_app_iff; right; left; reflexivity|reflexivity]). }
  destruct X as (p & i & Hp & Hi & A). specialize (Qo i). rewrite Qo in A; [discriminate|]. apply in_flat_map. exists p. auto.
Qed.
Lemma fq_in g' x w y z : (exists b1 b2 b3 b4 : bool, b1 || b2 || b3 || b4 = true /\
    further_quadruple_body g' x w [y; z] = if b1 then [remove_directed z x []] else if b2 then [remove_directed y x []] else if b3 then [remove_directed z w []] else if b4 then [remove_directed y w []] else []) ->
  exists i, In i (further_quadruple_body g' x w [y; z]) /\ t_act i = REMOVE_EDGE_DIRECTED.
Proof. intros (b1 & b2 & b3 & b4 & H & ->). destruct b1, b2, b3, b4; try discriminate H; (eexists; split; [left; reflexivity|reflexivity]). Qed.
Lemma cl_4 : quiet (further_quadruple_step so) g -> forall x y w z, One L y w -> One L w z -> y <> z -> ~ adjacent E y z -> Two L x y -> Two L x w -> Two L x z -> False.
Proof.
  intros Qu x y w z O1 O2 Ne NA T1 T2 T3. destruct (live_nodes g P _ _ (proj1 T2)) as (Hx & Hw & Nxw).
  destruct (quiet_call _ g x w P Qu Hx Hw Nxw) as (a & b & o & Hab & C & Qo). unfold call in C. cbn -[node_at combos] in C. unfold further_quadruple_test in C.
  assert (Ha : node a /\ node b) by (destruct Hab as [[-> ->]|[-> ->]]; auto). destruct Ha as (Ha & Hb).
  rewrite (at_node _ P [a; b] 0 a eq_refl Ha), (at_node _ P [a; b] 1 b eq_refl Hb) in C. cbn [rbind] in C. injection C as <-. cbn [items_of] in Qo.
  assert (Iy : In y (shared_adjacent so g a b)).
  { apply (shared_In g _ _ _ P). destruct (two_ee _ _ T1), (one_ee _ _ O1). destruct Hab as [[-> ->]|[-> ->]]; auto. }
  assert (Iz : In z (shared_adjacent so g a b)).
  { apply (shared_In g _ _ _ P). destruct (two_ee _ _ T3), (one_ee _ _ O2). destruct Hab as [[-> ->]|[-> ->]]; auto. }
  apply one_b in O1, O2. assert (U1 := two_b _ _ T1). assert (U2 := two_b _ _ T2). assert (U3 := two_b _ _ T3).
  assert (U2' := U2). rewrite und_sym in U2'. assert (A1 := apart_b _ _ NA). assert (A2 := A1). rewrite edge_exists_sym in A2.
  assert (X : exists p i, In p (combos 2 (shared_adjacent so g a b)) /\ In i (further_quadruple_body g a b p) /\ t_act i = REMOVE_EDGE_DIRECTED).
  { destruct (combos_pair _ y z Iy Iz Ne) as [H|H].
    - exists [y; z]. assert (Y : exists i, In i (further_quadruple_body g a b [y; z]) /\ t_act i = REMOVE_EDGE_DIRECTED); [|destruct Y as (i & Y); exists i; auto].
      apply fq_in. eexists _, _, _, _. split; [|reflexivity]. destruct Hab as [[-> ->]|[-> ->]]; rewrite ?A1, ?O1, ?O2, ?U1, ?U2, ?U2', ?U3; cbn; rewrite ?orb_true_r; reflexivity.
    - exists [z; y]. assert (Y : exists i, In i (further_quadruple_body g a b [z; y]) /\ t_act i = REMOVE_EDGE_DIRECTED); [|destruct Y as (i & Y); exists i; auto].
      apply fq_in. eexists _, _, _, _. split; [|reflexivity]. destruct Hab as [[-> ->]|[-> ->]]; rewrite ?A1, ?O1, ?O2, ?U1, ?U2, ?U2', ?U3; cbn; rewrite ?orb_true_r; reflexivity. }
  destruct X as (p & i & Hp & Hi & A). specialize (Qo i). rewrite Qo in A; [discriminate|]. apply in_flat_map. exists p. auto.
Qed.
Theorem quiet_pattern : (forall x y, KD x y -> directed_edge_exists g y x = false) -> Forall (fun s => quiet s g) (orientation_steps so) -> known_pattern D KD g.
Proof.
  intros TD F. unfold orientation_steps in F. inversion F as [|? ? Q1 F1]; subst. inversion F1 as [|? ? Q2 F2]; subst. inversion F2 as [|? ? Q3 F3]; subst. inversion F3 as [|? ? Q4 _]; subst.
  intros x y. apply (KnowGraph.closed_pattern D KD Ac KS L).
  - intros a b. destruct (directed_edge_exists g a b); [left|right]; congruence.
  - exact (p_adj _ P).
  - intros a b A N. apply (p_sound _ P); [exact A|]. destruct (directed_edge_exists g a b); congruence.
  - intros a b H. split; [apply (live_E g P), KS; exact H|]. intros X. rewrite (TD a b H) in X. discriminate X.
  - intros a z b V H. rewrite (proj2 O a z b V) in H. discriminate.
  - exact (cl_1 Q1).
  - exact (cl_2 Q2).
  - exact (cl_3 Q3).
  - exact (cl_4 Q4).
Qed.
End Closed.

(* ---- the effect step leaves the live directions alone ---- *)
Section Effect.
Variable N : numerics.
Variable g : graph.
Hypothesis P : pre g.
Definition eff_inv (g' : graph) : Prop := WF g' /\ nodes g' = nodes g0 /\ (forall a b, directed_edge_exists g' a b = directed_edge_exists g a b) /\
  (forall u v, directed_edge_exists g' u v = true -> exists e m, eget g' u v = Some e /\ e_meta e = Some m).
Definition eff_exn (e : exn) : Prop := exists xs zs ys, n_effect N xs zs ys = Err e.
Definition eff_item (i : tresult) : Prop := t_act i = UPDATE_EDGE_DIRECTED /\ exists m, t_data i = Some m.
Definition eff_arg (ns : list id) : Prop := exists u v, ns = [u; v] /\ directed_edge_exists g u v = true.
Lemma eff_act i : eff_item i -> keeps eff_inv eff_exn (apply_action i) (fun _ _ => True).
Proof.
  intros [A [m Dm]] g1 (W & Nn & L & M). destruct (apply_action i g1) as [g' r] eqn:R. destruct (apply_action_spec g1 i g' r W R) as (W' & _ & Nn' & S). cbn [fst snd].
  destruct r as [[]|e]; [| |exfalso; destruct S as (_ & NR & _); apply NR; unfold action_ready; rewrite A; exact I].
  - destruct S as (_ & _ & Ef & _). unfold action_effect in Ef. rewrite A in Ef. cbn in Ef. destruct Ef as [[_ OC] Eu]. split; [|exact I].
    assert (Ent : forall a b, entry g' a b = if eqb (a, b) (t_u i, t_v i) then option_map (new_data i) (entry g1 a b) else entry g1 a b).
    { intros a b. destruct (eqb_spec (a, b) (t_u i, t_v i)) as [X|X]; [injection X as -> ->; exact Eu|apply OC]. intros [Z|[]]; congruence. }
    assert (L' : forall a b, directed_edge_exists g' a b = directed_edge_exists g1 a b).
    { intros a b. rewrite (dee_val g' a b W'), (dee_val g1 a b W), <- !entry_eget, Ent. destruct (eqb _ _); [|reflexivity]. destruct (entry g1 a b); [|reflexivity]. unfold new_data. rewrite Dm. reflexivity. }
    split; [exact W'|]. split; [congruence|]. split; [intros a b; rewrite L'; apply L|].
    intros u v Lv. rewrite L' in Lv. destruct (M u v Lv) as (e & m' & E1 & E2). rewrite <- entry_eget in E1 |- *. rewrite Ent, E1. destruct (eqb _ _); [|exists e, m'; auto].
    exists (new_data i e), m. split; [reflexivity|]. unfold new_data. rewrite Dm. reflexivity.
  - destruct S as [-> _]. split; [|exact I]. split; auto.
Qed.
Lemma eff_step_keeps Pr : step_keeps eff_inv eff_exn Pr no_hooks eff_item false (effect_step N).
Proof.
  apply (keeps_step eff_inv eff_exn eff_item no_hooks (no_hooks_good _ _ _) false (fun _ => eff_act) eff_arg Pr (effect_step N)); [discriminate|]. split.
  - intros g1 ns us (W & Nn & L & M) (u & v & -> & Luv) _. unfold call. cbn -[node_at]. unfold effect_process.
    assert (Luv1 := Luv). rewrite <- L in Luv1. destruct (live_entry _ _ _ W Luv1) as (e & Ee & _ & Hu & Hv & _). unfold node_at. cbn [nth_error]. rewrite Hu, Hv. cbn [rbind].
    destruct (M u v Luv1) as (e' & m & E1 & E2). unfold edge_value. rewrite edge_exists_or, Luv1. cbn [orb negb]. unfold eget in E1. rewrite E1, E2. cbn [rbind].
    destruct (undirected_edge_exists g1 u v); [constructor|]. destruct (parents_of_node g1 v) as [ps|x] eqn:Pa; cbn [rbind].
    + destruct (n_effect N _ _ _) as [z|x] eqn:NE; cbn [rbind]; [|unfold eff_exn; eauto]. constructor; [|constructor]. split; [reflexivity|]. eexists; reflexivity.
    + exfalso. apply (parents_err g1 v x W) in Pa. destruct Pa as [_ Pa]. specialize (Pa u). rewrite edge_exists_or, Luv1 in Pa. discriminate.
  - intros g1 (W & Nn & L & M). constructor; [|constructor]. intros g2 _. cbn. rewrite Forall_forall. intros em Hem. apply in_map_iff in Hem. destruct Hem as (ns & <- & Hns).
    cbn. destruct (live_pairs_two _ _ Hns) as (u & v & ->). apply live_pairs_In in Hns. exists u, v. split; [reflexivity|]. rewrite <- L. exact Hns.
Qed.
Lemma eff_run fuel Pr : exists g' r, run_pstep fuel Pr no_hooks (PStep (effect_step N)) g = (g', r) /\ eff_inv g' /\ match r with Ok _ => True | Err e => eff_exn e end.
Proof.
  assert (Kp : keeps eff_inv eff_exn (run_pstep fuel Pr no_hooks (PStep (effect_step N))) (fun _ _ => True)).
  { eapply keeps_pstep_plain; [|apply eff_step_keeps|].
    - intros g1 h (W & Nn & L & M). split; [apply WF_ahist; exact W|]. split; [exact Nn|]. split; [exact L|exact M].
    - intros g1 (W & Nn & L & M). destruct (after_purge g1 W) as [[A1 A2 A3 A4 _] Ok1]. destruct (purge_soft_deleted_edges g1) as [g2 r]. cbn [fst snd] in *. subst r. split; [|exact I].
      assert (L' : forall a b, directed_edge_exists g2 a b = directed_edge_exists g1 a b) by (intros a b; apply eq_true_iff_eq; rewrite A3; tauto).
      split; [exact A1|]. split; [congruence|]. split; [intros a b; rewrite L'; apply L|]. intros u v Lv. assert (Me := A4 u v Lv). rewrite L' in Lv. destruct (M u v Lv) as (e & m & E1 & E2).
      rewrite E1 in Me. destruct (eget g2 u v) as [e2|]; [|discriminate]. cbn in Me. injection Me as Me. exists e2, m. split; [reflexivity|congruence]. }
  destruct (Kp g) as [H1 H2].
  { split; [exact (p_wf _ P)|]. split; [exact (p_nodes _ P)|]. split; [reflexivity|exact (p_meta _ P)]. }
  destruct (run_pstep fuel Pr no_hooks (PStep (effect_step N)) g) as [g' r]. exists g', r. split; [reflexivity|]. split; [exact H1|]. cbn in H2. destruct r; auto.
Qed.
End Effect.

(* ---- steps that tell directions ---- *)
Section Tell.
Variable P : runner.
Variable gs : graph.
Notation seen' := (seen_late D g0).
Definition kinv (g : graph) : Prop := ori g /\ shrinks gs g.
Lemma pre_seen g : pre g -> seen' g.
Proof. intros Pg. split; [exact (p_nodes _ Pg)|]. split; [intros x y; apply (ee_adj g Pg)|intros x y; apply (live_E g Pg)]. Qed.
Lemma kinv_after K g g' : kinv g -> after K g g' -> (forall a b, K a b \/ ~ K a b) -> (forall a b, K a b -> known D KD b a) -> kinv g'.
Proof.
  intros [[Pg V] S] A Kd Ks. assert (S' := after_shrinks _ _ _ A). split; [split; [exact (pre_after K g g' Pg A Kd Ks)|exact (vs_shrinks g g' S' V)]|exact (shrinks_trans _ _ _ S S')].
Qed.
Lemma kinv_same g g' : kinv g -> after (fun _ _ => False) g g' -> kinv g'.
Proof. intros I A. apply (kinv_after _ g g' I A); [auto|intros a b []]. Qed.
Lemma kinv_log g h : kinv g -> kinv (with_ahist g h).
Proof.
  intros I. apply (kinv_same g); [exact I|]. assert (W := p_wf _ (proj1 (proj1 I))). split; auto; [apply WF_ahist; exact W|intros a b; split; [auto|tauto]|intros a H; exact H].
Qed.
Lemma adj_dec x y : adjacent E x y \/ ~ adjacent E x y.
Proof. unfold adjacent. destruct (edge_dec D x y), (edge_dec D y x); tauto. Qed.
Lemma after_adjacent K g g' : pre g -> after K g g' -> after (fun a b => K a b /\ adjacent E a b) g g'.
Proof.
  intros Pg [A1 A2 A3 A4 A5]. split; auto. intros a b. rewrite A3. split; [intros [H1 H2]; split; [exact H1|intros [H3 _]; exact (H2 H3)]|]. intros [H1 H2]. split; [exact H1|]. intros H3. apply H2. split; [exact H3|exact (p_adj _ Pg _ _ H1)].
Qed.
Lemma told_item i : known_result D KD i -> orient_item i.
Proof. intros [A|[A _]]; [left|right]; exact A. Qed.
Lemma told_act i : known_result D KD i -> keeps kinv noE (apply_action i) (fun _ _ => True).
Proof.
  intros Q g I. assert (W := p_wf _ (proj1 (proj1 I))). assert (A := after_item i g W (told_item i Q)). destruct (orient_item_ok i g W (told_item i Q)) as [b Eb]. rewrite Eb. split; [|exact Logic.I].
  apply (kinv_after (fun a b => kills i a b /\ adjacent E a b) g _ I (after_adjacent _ g _ (proj1 (proj1 I)) A)).
  - intros x y. unfold kills. destruct (adj_dec x y) as [Ad|Ad]; [|right; intros [_ X]; exact (Ad X)]. destruct Q as [Q|[Q _]]; [right; intros ((X & _) & _); congruence|].
    destruct (eqb_spec (t_u i) x) as [->|N1]; [|right; intros ((_ & X & _) & _); exact (N1 X)]. destruct (eqb_spec (t_v i) y) as [->|N2]; [left; auto|right; intros ((_ & _ & X) & _); exact (N2 X)].
  - intros x y ((X & <- & <-) & Ad). destruct Q as [Q|[_ [Q|Q]]]; [congruence|apply kn_told; exact Q|contradiction (Q Ad)].
Qed.
(* results with directions between variables that are not adjacent have no effect *)
Lemma told_take rs g : pre g -> Forall (fun o => Forall (known_result D KD) (items_of o)) rs -> exists g' a, take_action no_hooks false rs g = (g', Ok a) /\ pre g' /\ after (killed rs) g g'.
Proof.
  intros Pg F. assert (F' : Forall (fun o => Forall orient_item (items_of o)) rs).
  { eapply Forall_impl; [|exact F]. intros o H. eapply Forall_impl; [|exact H]. intros i; apply told_item. }
  assert (A := after_take rs g (p_wf _ Pg) F'). destruct (take_orient_ok rs g (p_wf _ Pg) F') as [a Ea]. destruct (take_action no_hooks false rs g) as [g' r]. cbn [fst snd] in *. subst r.
  exists g', a. split; [reflexivity|]. split; [|exact A]. apply (pre_after (fun a b => killed rs a b /\ adjacent E a b) g g' Pg (after_adjacent _ g g' Pg A)).
  - intros x y. destruct (adj_dec x y) as [Ad|Ad]; [|right; intros [_ X]; exact (Ad X)]. destruct (killed_dec rs x y) as [Kd|Kd]; [left; auto|right; intros [X _]; exact (Kd X)].
  - intros x y ((o & i & Ho & Hi & K1 & K2 & K3) & Ad). rewrite Forall_forall in F. specialize (F o Ho). rewrite Forall_forall in F.
    destruct (F i Hi) as [B|[_ [B|B]]]; [congruence| |]; rewrite K2, K3 in B; [apply kn_told; exact B|contradiction (B Ad)].
Qed.
Lemma told_good s : knowledge_step D KD P g0 s -> exists A, good_step kinv noE (known_result D KD) A s.
Proof.
  intros (A & G & C & _). exists A. split.
  - intros g ns us K Hn _. unfold call. destruct (C g ns (if s_unapplied s then us else None) (pre_seen g (proj1 (proj1 K))) Hn) as (o & -> & F). apply Forall_forall. exact F.
  - intros g K. apply Forall_forall. intros f Hf g' K'. destruct (G g g' f (pre_seen g (proj1 (proj1 K))) Hf (pre_seen g' (proj1 (proj1 K')))) as (es & -> & F). apply Forall_forall. intros e He. specialize (F e He). unfold good_em.
    destruct (negb (s_parallel s) && s_chunked s)%bool; [apply Forall_forall; exact F|]. destruct F as (ns & -> & F). exact F.
Qed.
Lemma told_step s : knowledge_step D KD P g0 s -> step_keeps kinv noE P no_hooks (known_result D KD) false s.
Proof.
  intros Ks. destruct (told_good s Ks) as (A & GS). destruct Ks as (A' & _ & _ & HP).
  apply (keeps_step kinv noE (known_result D KD) no_hooks (no_hooks_good _ _ _) false (fun _ => told_act) A P s HP GS).
Qed.
Lemma told_pstep fuel s : knowledge_step D KD P g0 s -> keeps kinv noE (run_pstep fuel P no_hooks (PStep s)) (fun _ _ => True).
Proof.
  intros Ks. eapply keeps_pstep_plain; [intros g h; apply kinv_log|apply told_step; exact Ks|].
  intros g I. destruct (after_purge g (p_wf _ (proj1 (proj1 I)))) as [A E]. destruct (purge_soft_deleted_edges g) as [g2 r]. cbn [fst snd] in *. subst r. split; [exact (kinv_same g g2 I A)|exact Logic.I].
Qed.
Lemma told_steps fuel ks g : (forall s, In s ks -> knowledge_step D KD P g0 s) -> kinv g -> exists g', execute_pipeline fuel P no_hooks (map PStep ks) g = (g', Ok tt) /\ kinv g'.
Proof.
  intros H I. assert (X : keeps kinv noE (execute_pipeline fuel P no_hooks (map PStep ks)) (fun _ _ => True)).
  { apply keeps_pipeline. apply Forall_forall. intros p Hp. apply in_map_iff in Hp. destruct Hp as (s & <- & Hs). apply told_pstep; auto. }
  destruct (X g I) as [I' R]. destruct (execute_pipeline fuel P no_hooks (map PStep ks) g) as [g' r]. cbn [fst snd] in *. exists g'. destruct r as [[]|e]; [auto|destruct R].
Qed.
End Tell.

(* ---- the rules and the effect step, from a graph on which the known directions have been told ---- *)
Theorem rules_run N fuel Pr g : ori g -> (forall x y, KD x y -> directed_edge_exists g y x = false) -> List.length (nodes g0) * List.length (nodes g0) + 2 <= fuel ->
  exists g' r, execute_pipeline fuel Pr no_hooks [PLoop "Loop" exit_on_no_actions (orientation_steps so); PStep (effect_step N)] g = (g', r) /\
    nodes g' = nodes g0 /\ known_pattern D KD g' /\ match r with Ok _ => True | Err e => eff_exn N e end.
Proof.
  intros O2 TD Fu.
  assert (S2 : exists g3, run_pstep fuel Pr no_hooks (PLoop "Loop" exit_on_no_actions (orientation_steps so)) g = (g3, Ok tt) /\ ori g3 /\ known_pattern D KD g3).
  { destruct (loop_keeps Pr _ (orientation_rules_ok so) rules_sound fuel 0 None g O2 ltac:(lia)) as (g3 & r3 & R3 & O3 & H3).
    destruct (loop_run Pr _ (orientation_rules_ok so) fuel 0 None g g3 r3 (p_wf _ (proj1 O2)) ltac:(lia) R3) as [Sh L3]. cbn [run_pstep]. unfold bind at 1. rewrite R3.
    destruct H3 as [->|[hs ->]].
    - exfalso. apply L3; [|reflexivity]. unfold need. assert (B := live_count_bound g). rewrite (p_nodes _ (proj1 O2)) in B. lia.
    - eexists. split; [reflexivity|]. split; [exact (proj1 (kinv_log g g3 _ (conj O3 Sh)))|]. apply (quiet_pattern g3 O3); [|exact L3].
      intros x y H. destruct (directed_edge_exists g3 y x) eqn:L; [|reflexivity]. apply Sh in L. rewrite (TD x y H) in L. discriminate L. }
  destruct S2 as (g3 & R3 & O3 & MP). rewrite (pipeline_cons _ _ _ _ _ _ _ R3).
  destruct (eff_run N g3 (proj1 O3) fuel Pr) as (g4 & r4 & R4 & (W4 & N4 & L4 & _) & H4). cbn [execute_pipeline]. unfold bind at 1. rewrite R4. exists g4.
  assert (MP4 : known_pattern D KD g4) by (intros x y; rewrite L4; apply MP).
  destruct r4 as [u|e]; eexists; (split; [reflexivity|auto]).
Qed.
End Main.
