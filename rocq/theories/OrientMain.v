(* The orientation phase under perfect tests: every removal reverses a derived arrow, and at the end the
   graph shows exactly the derived arrows. *)
From Verif Require Import Base PyDict PyDictFacts Graph GraphSpec GraphFacts GraphInv GraphInv2 GraphInv3 GraphQ GraphMain
  GraphPaths PathSpec Actions ActionSpec ActionFacts ActionMain Generators GenSpec GenFacts Rules IndepTests Pipeline Parallel PipeFacts PipeMain RuleFacts Serve Rows
  Construct ConstructSpec ConstructFacts Dag DagFacts DagSep SkelSpec SkelFacts SkelStart SkelSteps SkelMatrix SkelMain Schedules SkelMain2 DsepDec OrientSpec OrientGraph LoopFacts.
Open Scope string_scope.
Open Scope list_scope.

Lemma combos_pair {A} (l : list A) x y : In x l -> In y l -> x <> y -> In [x; y] (combos 2 l) \/ In [y; x] (combos 2 l).
Proof.
  assert (S0 : forall (b : A) m, In b m -> subseq [b] m).
  { intros b m. induction m as [|c m IH]; intros Hb; [destruct Hb|]. destruct Hb as [->|Hb]; [apply sub_keep, subseq_nil_l|apply sub_drop; auto]. }
  rewrite !combos_In. induction l as [|a l IH]; intros Hx Hy Ne; [destruct Hx|].
  assert (S1 : forall b, In b l -> subseq [a; b] (a :: l)) by (intros b Hb; apply sub_keep, S0, Hb).
  destruct Hx as [->|Hx], Hy as [->|Hy]; [congruence|left|right|]; try (split; [apply S1; assumption|reflexivity]).
  destruct (IH Hx Hy Ne) as [[H Ln]|[H Ln]]; [left|right]; (split; [apply sub_drop; exact H|exact Ln]).
Qed.
Lemma combos_two {A} (l : list A) p : NoDup l -> In p (combos 2 l) -> exists x y, p = [x; y] /\ x <> y /\ In x l /\ In y l.
Proof.
  intros ND H. apply combos_In in H. destruct H as [S Ln]. destruct p as [|x [|y [|? ?]]]; try discriminate. exists x, y. split; [reflexivity|].
  assert (ND' := subseq_NoDup _ _ S ND). inversion ND' as [|? ? X _]; subst. split; [intros ->; apply X; left; reflexivity|].
  split; eapply subseq_In; try exact S; cbn; auto.
Qed.

Definition killb (rs : list outcome) (a b : id) : bool :=
  existsb (fun o => existsb (fun i => taction_eqb (t_act i) REMOVE_EDGE_DIRECTED && eqb (t_u i) a && eqb (t_v i) b) (items_of o)) rs.
Lemma killb_iff rs a b : killb rs a b = true <-> killed rs a b.
Proof.
  unfold killb, killed, kills. rewrite existsb_exists. split.
  - intros (o & Ho & H). apply existsb_exists in H. destruct H as (i & Hi & H). rewrite !andb_true_iff in H. destruct H as [[H1 H2] H3].
    exists o, i. destruct (eqb_spec (t_u i) a); [|discriminate]. destruct (eqb_spec (t_v i) b); [|discriminate]. repeat split; auto. destruct (t_act i); try discriminate; reflexivity.
  - intros (o & i & Ho & Hi & H1 & H2 & H3). exists o. split; [exact Ho|]. apply existsb_exists. exists i. split; [exact Hi|]. rewrite H1, H2, H3, !eqb_refl. reflexivity.
Qed.
Lemma killed_dec rs a b : killed rs a b \/ ~ killed rs a b.
Proof. destruct (killb rs a b) eqn:K; [left; apply killb_iff; exact K|right; rewrite <- killb_iff, K; discriminate]. Qed.

Section Main.
Variable g0 : graph.
Variable D : list (id * id).
Variable so : list id -> list id.
Hypothesis DG : dag_over (dkeys (nodes g0)) D.
Hypothesis SO : set_order so.
Notation node := (SkelFacts.node g0).
Notation E := (edge_in D).
Notation Ac := (do_acyclic _ _ DG).

Record pre (g : graph) : Prop := {
  p_wf : WF g;
  p_nodes : nodes g = nodes g0;
  p_rows : forall u v, node u -> node v -> u <> v -> dmem (edges g) u = true;
  p_adj : forall u v, directed_edge_exists g u v = true -> adjacent E u v;
  p_sound : forall u v, adjacent E u v -> directed_edge_exists g u v = false -> oriented D v u;
  p_meta : forall u v, directed_edge_exists g u v = true -> exists e m, eget g u v = Some e /\ e_meta e = Some m }.
Definition vs_done (g : graph) : Prop := forall x z y, vstruct D x z y -> directed_edge_exists g z x = false.
Definition ori (g : graph) : Prop := pre g /\ vs_done g.

Lemma pre_after K g g' : pre g -> after K g g' -> (forall a b, K a b \/ ~ K a b) -> (forall a b, K a b -> oriented D b a) -> pre g'.
Proof.
  intros [P1 P2 P3 P4 P5 P6] [A1 A2 A3 A4 A5] Kd Ks. split; auto.
  - congruence.
  - intros u v Hu Hv Ne. apply A5. eapply P3; eassumption.
  - intros u v L. apply P4. apply A3 in L. tauto.
  - intros u v A F. destruct (Kd u v) as [H|H]; [apply Ks; exact H|]. apply P5; [exact A|]. destruct (directed_edge_exists g u v) eqn:L; [|reflexivity].
    exfalso. assert (X : directed_edge_exists g' u v = true) by (apply A3; auto). congruence.
  - intros u v L. assert (M := A4 u v L). destruct (P6 u v) as (e & m & Ee & Em); [apply A3 in L; tauto|]. rewrite Ee in M. destruct (eget g' u v) as [e'|]; [|discriminate].
    cbn in M. injection M as M. exists e', m. split; [reflexivity|congruence].
Qed.
Lemma vs_shrinks g g' : shrinks g g' -> vs_done g -> vs_done g'.
Proof. intros (_ & _ & S) V x z y H. specialize (V x z y H). destruct (directed_edge_exists g' z x) eqn:L; [|reflexivity]. apply S in L. congruence. Qed.
Lemma ori_same g g' : ori g -> after (fun _ _ => False) g g' -> ori g'.
Proof. intros [P V] A. split; [eapply pre_after; [exact P|exact A|auto|intros a b []]|]. eapply vs_shrinks; [eapply after_shrinks; exact A|exact V]. Qed.

(* ---- reading the graph ---- *)
Section Read.
Variable g : graph.
Hypothesis P : pre g.
Lemma live_E x y : E x y -> directed_edge_exists g x y = true.
Proof.
  intros A. destruct (directed_edge_exists g x y) eqn:L; [reflexivity|]. exfalso. apply (no_two E Ac x y A). apply (oriented_sound D Ac).
  apply (p_sound _ P); [left; exact A|exact L].
Qed.
Lemma ee_adj x y : edge_exists g x y = true <-> adjacent E x y.
Proof.
  rewrite edge_exists_or, orb_true_iff. split.
  - intros [L|L]; apply (p_adj _ P) in L; [exact L|apply adjacent_sym; exact L].
  - intros [A|A]; apply live_E in A; auto.
Qed.
Lemma ee_apart x y : edge_exists g x y = false <-> ~ adjacent E x y.
Proof. rewrite <- ee_adj. destruct (edge_exists g x y); split; intros; congruence. Qed.
Lemma one_oriented x y : only_directed_edge_exists g x y = true -> oriented D x y.
Proof.
  unfold only_directed_edge_exists. rewrite andb_true_iff, negb_true_iff. intros [L F]. apply (p_sound _ P); [apply adjacent_sym, (p_adj _ P); exact L|exact F].
Qed.
Lemma und_adj x y : undirected_edge_exists g x y = true -> adjacent E x y.
Proof. intros U. apply (p_adj _ P), und_l, U. Qed.
Lemma live_nodes x y : directed_edge_exists g x y = true -> node x /\ node y /\ x <> y.
Proof. intros L. destruct (live_entry _ _ _ (p_wf _ P) L) as (e & _ & _ & A & B & C). rewrite (p_nodes _ P) in A, B. auto. Qed.
Lemma ee_nodes x y : edge_exists g x y = true -> node x /\ node y /\ x <> y.
Proof. rewrite edge_exists_or, orb_true_iff. intros [L|L]; apply live_nodes in L; destruct L as (A & B & C); auto. Qed.
Lemma at_node ns k x : nth_error ns k = Some x -> node x -> node_at g ns k = Ok x.
Proof. intros H N. unfold node_at. rewrite H, (p_nodes _ P). unfold SkelFacts.node in N. rewrite N. reflexivity. Qed.
Lemma row_get x y : node x -> node y -> x <> y -> exists r, dget (edges g) x = Some r /\ row_of g x = Ok (dkeys r).
Proof.
  intros Hx Hy Ne. assert (R := p_rows _ P x y Hx Hy Ne). unfold dmem in R. destruct (dget (edges g) x) as [r|] eqn:G; [|discriminate]. exists r. split; [reflexivity|].
  unfold row_of. rewrite G. reflexivity.
Qed.
Lemma key_node x r z : dget (edges g) x = Some r -> In z (dkeys r) -> node z.
Proof. intros G H. apply (row_keys _ _ _ z G) in H. destruct H as [e H]. destruct (wf_fwd _ (p_wf _ P) _ _ _ H) as (_ & B & _). rewrite (p_nodes _ P) in B. exact B. Qed.
Lemma common_ok x y : node x -> node y -> x <> y -> exists zs, common_keys so g x y = Ok zs /\ (forall z, In z zs -> node z) /\
  (forall z, In z zs <-> exists e1 e2, eget g x z = Some e1 /\ eget g y z = Some e2).
Proof.
  intros Hx Hy Ne. destruct (row_get x y Hx Hy Ne) as (rx & Gx & Rx). destruct (row_get y x Hy Hx (fun h => Ne (eq_sym h))) as (ry & Gy & Ry).
  unfold common_keys. rewrite Rx, Ry. cbn [rbind]. eexists. split; [reflexivity|]. assert (X : forall z, In z (so (filter (fun z => mem z (dkeys ry)) (dkeys rx))) <-> In z (dkeys rx) /\ In z (dkeys ry)).
  { intros z. rewrite (proj2 (SO _)). rewrite filter_In, mem_In. reflexivity. }
  split.
  - intros z Hz. apply X in Hz. exact (key_node x rx z Gx (proj1 Hz)).
  - intros z. rewrite X, (row_keys _ _ _ z Gx), (row_keys _ _ _ z Gy). unfold eget. split; [intros [[e1 H1] [e2 H2]]; eauto|intros (e1 & e2 & H1 & H2); eauto].
Qed.
Lemma live_key x z : directed_edge_exists g x z = true -> exists e, eget g x z = Some e.
Proof. intros L. destruct (live_entry _ _ _ (p_wf _ P) L) as (e & A & _). eauto. Qed.
End Read.

(* ---- one rule step ---- *)
Definition justified (i : tresult) : Prop := t_act i = DO_NOTHING \/ (t_act i = REMOVE_EDGE_DIRECTED /\ oriented D (t_v i) (t_u i)).
Definition sound_rule (s : step) : Prop := forall g ns, ori g -> pair_ok g0 ns -> exists o, call s g ns None = Ok o /\ Forall justified (items_of o).
Lemma justified_item i : justified i -> orient_item i.
Proof. intros [A|[A _]]; [left|right]; exact A. Qed.
Lemma rmap_ok {A B} (f : A -> res B) (Q : B -> Prop) : forall l, (forall a, In a l -> exists b, f a = Ok b /\ Q b) -> exists os, rmap f l = Ok os /\ Forall Q os.
Proof.
  induction l as [|a l IH]; intros H; cbn [rmap].
  - exists []. split; [reflexivity|constructor].
  - destruct (H a (or_introl eq_refl)) as (b & -> & Qb). destruct (IH (fun a' h => H a' (or_intror h))) as (os & -> & F). cbn. exists (b :: os). split; [reflexivity|constructor; assumption].
Qed.
Lemma justified_take rs g : pre g -> Forall (fun o => Forall justified (items_of o)) rs -> exists g' a, take_action no_hooks false rs g = (g', Ok a) /\ pre g' /\ after (killed rs) g g'.
Proof.
  intros P F. assert (F' : Forall (fun o => Forall orient_item (items_of o)) rs).
  { eapply Forall_impl; [|exact F]. intros o H. eapply Forall_impl; [|exact H]. intros i; apply justified_item. }
  assert (A := after_take rs g (p_wf _ P) F'). destruct (take_orient_ok rs g (p_wf _ P) F') as [a Ea]. destruct (take_action no_hooks false rs g) as [g' r]. cbn [fst snd] in *. subst r.
  exists g', a. split; [reflexivity|]. split; [|exact A]. apply (pre_after (killed rs) g g' P A (killed_dec rs)). intros x y (o & i & Ho & Hi & K1 & K2 & K3).
  rewrite Forall_forall in F. specialize (F o Ho). rewrite Forall_forall in F. destruct (F i Hi) as [B|[_ B]]; [congruence|]. rewrite K2, K3 in B. exact B.
Qed.
Lemma rule_keeps s P g : rule_step s -> sound_rule s -> ori g -> exists g' a, execute_step P no_hooks s false g = (g', Ok a) /\ ori g'.
Proof.
  intros RS SR [Pr V]. rewrite (rule_unfold s P false g RS).
  destruct (rmap_ok (fun ns => call s g ns None) (fun o => Forall justified (items_of o)) (pairs_of g)) as (os & Eo & Fo).
  { intros ns Hns. apply SR; [split; assumption|]. apply (pairs_ok g0 g (p_wf _ Pr) (p_nodes _ Pr) ns Hns). }
  rewrite Eo. destruct (justified_take os g Pr Fo) as (g' & a & R & P' & A). exists g', a. split; [exact R|]. split; [exact P'|].
  eapply vs_shrinks; [eapply after_shrinks; exact A|exact V].
Qed.

Lemma inner_keeps P : forall l g, Forall rule_step l -> Forall sound_rule l -> ori g -> exists g' a, run_inner P no_hooks false l g = (g', Ok a) /\ ori g'.
Proof.
  induction l as [|s l IH]; intros g F1 F2 O; cbn [run_inner].
  - eexists _, _. split; [reflexivity|exact O].
  - inversion F1; inversion F2; subst. destruct (rule_keeps s P g) as (g1 & a & R1 & O1); auto. destruct (IH g1) as (g2 & b & R2 & O2); auto.
    unfold bind. rewrite R1, R2. eexists _, _. split; [reflexivity|exact O2].
Qed.
Lemma loop_keeps P l : Forall rule_step l -> Forall sound_rule l -> forall fuel n last g, ori g -> (0 < n -> exists t, last = Some t) ->
  exists g' r, run_loop fuel P no_hooks exit_on_no_actions l n last g = (g', r) /\ ori g' /\ (r = Err OutOfFuel \/ exists hs, r = Ok hs).
Proof.
  intros F1 F2. induction fuel as [|f IH]; intros n last g O Hn; cbn [run_loop].
  - exists g, (Err OutOfFuel). split; [reflexivity|auto].
  - unfold bind at 1. assert (X : exists stop, exit_on_no_actions n last = Ok stop).
    { unfold exit_on_no_actions. destruct n; cbn; [eauto|]. destruct (Hn ltac:(lia)) as (t & ->). eauto. }
    destruct X as (stop & ->). cbn [liftr]. unfold ret at 1. destruct stop.
    + exists g, (Ok []). split; [reflexivity|]. split; [exact O|right; eauto].
    + destruct (inner_keeps P l g F1 F2 O) as (g1 & a & R1 & O1). unfold bind at 1. rewrite R1. destruct (IH (S n) (Some (snd a)) g1 O1 ltac:(eauto)) as (g2 & r & R2 & O2 & Hr).
      unfold bind at 1. rewrite R2. destruct Hr as [->|[hs ->]].
      * exists g2, (Err OutOfFuel). split; [reflexivity|auto].
      * eexists g2, (Ok _). split; [reflexivity|]. split; [exact O2|right; eauto].
Qed.

(* ---- the four rules are sound ---- *)
Lemma not_vs g x z y : vs_done g -> undirected_edge_exists g z y = true -> ~ vstruct D x z y.
Proof. intros V U H. apply vstruct_sym in H. specialize (V _ _ _ H). apply und_l in U. congruence. Qed.
Lemma nc_sound_loop g x y : ori g -> node x -> node y -> x <> y -> edge_exists g x y = false -> forall zs, (forall z, In z zs -> node z) ->
  exists o, non_collider_loop g x y zs = Ok o /\ Forall justified (items_of o).
Proof.
  intros [P V] Hx Hy Ne NE. assert (NA := proj1 (ee_apart g P x y) NE).
  assert (J : forall a b z, only_directed_edge_exists g a z = true -> undirected_edge_exists g z b = true -> a <> b -> ~ adjacent E a b -> oriented D z b).
  { intros a b z O U N A. apply (or_1 D a z b); auto; [apply (one_oriented g P); exact O|apply (und_adj g P); exact U|eapply not_vs; eassumption]. }
  induction zs as [|z zs IH]; intros Hz; cbn [non_collider_loop]; [exists None; split; [reflexivity|constructor]|].
  rewrite (p_nodes _ P). assert (Nz := Hz z (or_introl eq_refl)). unfold SkelFacts.node in Nz. rewrite Nz. cbn [negb].
  destruct (only_directed_edge_exists g x z && undirected_edge_exists g z y) eqn:B1.
  { apply andb_true_iff in B1. destruct B1 as [B1 B2]. eexists. split; [reflexivity|]. constructor; [|constructor]. destruct (would_collide g y z); [left; reflexivity|right].
    split; [reflexivity|]. cbn. exact (J x y z B1 B2 Ne NA). }
  destruct (only_directed_edge_exists g y z && undirected_edge_exists g z x) eqn:B2; [|apply IH; intros; apply Hz; right; assumption].
  apply andb_true_iff in B2. destruct B2 as [B2 B3]. eexists. split; [reflexivity|]. constructor; [|constructor]. destruct (would_collide g x z); [left; reflexivity|right].
  split; [reflexivity|]. cbn. apply (J y x z B2 B3); [congruence|]. intros A; apply NA, adjacent_sym, A.
Qed.
Lemma nc_sound : sound_rule (non_collider_step so).
Proof.
  intros g ns O Hn. assert (P := proj1 O). unfold call. cbn -[node_at]. unfold non_collider_test. destruct Hn as (x & y & -> & Hx & Hy & Ne).
  rewrite (at_node _ P [x; y] 0 x eq_refl Hx), (at_node _ P [x; y] 1 y eq_refl Hy). cbn [rbind].
  destruct (edge_exists g x y) eqn:EE; [exists None; split; [reflexivity|constructor]|]. destruct (common_ok g P x y Hx Hy Ne) as (zs & -> & Hz & _). cbn [rbind].
  apply nc_sound_loop; assumption.
Qed.
Lemma forall_flat {A} (f : A -> list tresult) l : (forall a, In a l -> Forall justified (f a)) -> Forall justified (flat_map f l).
Proof. intros H. apply Forall_forall. intros i Hi. apply in_flat_map in Hi. destruct Hi as (a & Ha & Hi). specialize (H a Ha). rewrite Forall_forall in H. auto. Qed.
Lemma just_if (b : bool) u v d : (b = true -> oriented D v u) -> Forall justified (if b then [remove_directed u v d] else []).
Proof. intros H. destruct b; [|constructor]. constructor; [|constructor]. right. split; [reflexivity|exact (H eq_refl)]. Qed.
Ltac splitb B := rewrite ?andb_true_iff in B; repeat match goal with H : _ /\ _ |- _ => destruct H end.
Lemma triple_sound : sound_rule triple_step.
Proof.
  intros g ns O Hn. assert (P := proj1 O). unfold call. cbn -[node_at]. unfold triple_test. destruct Hn as (x & y & -> & Hx & Hy & Ne).
  rewrite (at_node _ P [x; y] 0 x eq_refl Hx), (at_node _ P [x; y] 1 y eq_refl Hy). cbn [rbind]. eexists. split; [reflexivity|]. cbn [items_of].
  apply forall_flat. intros z _. unfold triple_body. destruct (negb _); [constructor|]. apply Forall_app. split; apply just_if; intros B; splitb B.
  - apply (or_2 D x z y); [apply (one_oriented g P); assumption|apply (one_oriented g P); assumption|apply (und_adj g P); assumption].
  - apply (or_2 D y z x); [apply (one_oriented g P); assumption|apply (one_oriented g P); assumption|apply adjacent_sym, (und_adj g P); assumption].
Qed.
Lemma shared_NoDup g y w : NoDup (shared_adjacent so g y w).
Proof. apply (SO _). Qed.
Lemma shared_In g y w x : pre g -> In x (shared_adjacent so g y w) <-> edge_exists g y x = true /\ edge_exists g x w = true.
Proof.
  intros P. unfold shared_adjacent. rewrite (proj2 (SO _)). rewrite filter_In, andb_true_iff. split; [tauto|]. intros [A B]. split; [|auto].
  destruct (ee_nodes g P y x A) as (_ & N & _). apply dmem_In. rewrite (p_nodes _ P). exact N.
Qed.
Lemma und_sym g x y : undirected_edge_exists g x y = undirected_edge_exists g y x.
Proof. unfold undirected_edge_exists. apply andb_comm. Qed.
Lemma negb_ee g x y : pre g -> negb (edge_exists g x y) = true -> ~ adjacent E x y.
Proof. intros P H. apply negb_true_iff in H. apply (ee_apart g P); exact H. Qed.
Lemma r3 g x y w z : ori g -> negb (edge_exists g y w) = true -> only_directed_edge_exists g y z = true -> only_directed_edge_exists g w z = true ->
  undirected_edge_exists g x y = true -> undirected_edge_exists g x w = true -> undirected_edge_exists g x z = true -> y <> w -> oriented D x z.
Proof.
  intros [P V] NE O1 O2 U1 U2 U3 Ne. apply (or_3 D x y w z); auto; try (apply (one_oriented g P); assumption); try (apply (und_adj g P); assumption); [apply (negb_ee g); assumption|].
  eapply not_vs; [exact V|exact U2].
Qed.
Lemma r4 g x y w z : ori g -> negb (edge_exists g y z) = true -> only_directed_edge_exists g y w = true -> only_directed_edge_exists g w z = true ->
  undirected_edge_exists g x y = true -> undirected_edge_exists g x w = true -> undirected_edge_exists g x z = true -> y <> z -> oriented D x z.
Proof.
  intros [P V] NE O1 O2 U1 U2 U3 Ne. apply (or_4 D x y w z); auto; try (apply (one_oriented g P); assumption); try (apply (und_adj g P); assumption); [apply (negb_ee g); assumption|].
  eapply not_vs; [exact V|exact U3].
Qed.
Lemma quad_sound : sound_rule (quadruple_step so).
Proof.
  intros g ns O Hn. assert (P := proj1 O). unfold call. cbn -[node_at combos]. unfold quadruple_test. destruct Hn as (y & w & -> & Hy & Hw & Ne).
  rewrite (at_node _ P [y; w] 0 y eq_refl Hy), (at_node _ P [y; w] 1 w eq_refl Hw). cbn [rbind]. eexists. split; [reflexivity|]. cbn [items_of].
  apply forall_flat. intros p Hp. destruct (combos_two _ _ (shared_NoDup g y w) Hp) as (x & z & -> & Nxz & _). unfold quadruple_body.
  apply Forall_app. split; apply just_if; intros B; splitb B.
  - eapply (r3 g x y w z O); assumption.
  - apply (r3 g z y w x O); try assumption; rewrite und_sym; assumption.
Qed.
Lemma fquad_sound : sound_rule (further_quadruple_step so).
Proof.
  intros g ns O Hn. assert (P := proj1 O). unfold call. cbn -[node_at combos]. unfold further_quadruple_test. destruct Hn as (x & w & -> & Hx & Hw & Ne).
  rewrite (at_node _ P [x; w] 0 x eq_refl Hx), (at_node _ P [x; w] 1 w eq_refl Hw). cbn [rbind]. eexists. split; [reflexivity|]. cbn [items_of].
  apply forall_flat. intros p Hp. destruct (combos_two _ _ (shared_NoDup g x w) Hp) as (y & z & -> & Nyz & _). unfold further_quadruple_body.
  assert (J : forall u v, oriented D v u -> Forall justified [remove_directed u v []]) by (intros u v H; constructor; [right; split; [reflexivity|exact H]|constructor]).
  assert (Nzy : z <> y) by congruence.
  match goal with |- Forall _ (if ?b then _ else _) => destruct b eqn:B1 end; [apply J; splitb B1; eapply (r4 g x y w z O); assumption|].
  match goal with |- Forall _ (if ?b then _ else _) => destruct b eqn:B2 end; [apply J; splitb B2; eapply (r4 g x z w y O); assumption|].
  match goal with |- Forall _ (if ?b then _ else _) => destruct b eqn:B3 end; [apply J; splitb B3; eapply (r4 g w y x z O); try assumption; rewrite und_sym; assumption|].
  match goal with |- Forall _ (if ?b then _ else _) => destruct b eqn:B4 end; [apply J; splitb B4; eapply (r4 g w z x y O); try assumption; rewrite und_sym; assumption|]. constructor.
Qed.
Lemma rules_sound : Forall sound_rule (orientation_steps so).
Proof. apply Forall_cons; [apply nc_sound|]. apply Forall_cons; [apply triple_sound|]. apply Forall_cons; [apply quad_sound|]. apply Forall_cons; [apply fquad_sound|]. apply Forall_nil. Qed.

(* ---- a graph on which the rules are silent shows the derived arrows ---- *)
Lemma no_collide g a b z : ori g -> only_directed_edge_exists g a z = true -> undirected_edge_exists g z b = true -> a <> b -> edge_exists g a b = false -> would_collide g b z = false.
Proof.
  intros [P V] O U Ne NE. destruct (would_collide g b z) eqn:W; [|reflexivity]. exfalso. unfold would_collide in W. apply existsb_exists in W. destruct W as (n & _ & W).
  apply andb_true_iff in W. destruct W as [W1 W2]. assert (O1 : oriented D z b).
  { apply (or_1 D a z b); [apply (one_oriented g P); exact O|apply (und_adj g P); exact U|exact Ne|apply (ee_apart g P); exact NE|eapply not_vs; eassumption]. }
  assert (O2 : oriented D b z).
  { apply (or_1 D n b z); [apply (one_oriented g P); exact W1|apply adjacent_sym, (und_adj g P); exact U| |apply (negb_ee g); [exact P|exact W2]|].
    - intros ->. unfold only_directed_edge_exists in W1. apply andb_true_iff in W1. destruct W1 as [_ W1]. apply und_r in U. rewrite U in W1. discriminate.
    - apply (not_vs g); [exact V|]. rewrite und_sym. exact U. }
  exact (oriented_asym D Ac _ _ O1 O2).
Qed.
Lemma nc_fires g a b : ori g -> a <> b -> edge_exists g a b = false -> forall zs, (forall z, In z zs -> node z) ->
  (exists z, In z zs /\ ((only_directed_edge_exists g a z = true /\ undirected_edge_exists g z b = true) \/ (only_directed_edge_exists g b z = true /\ undirected_edge_exists g z a = true))) ->
  exists i, non_collider_loop g a b zs = Ok (Some [i]) /\ t_act i = REMOVE_EDGE_DIRECTED.
Proof.
  intros O Ne NE. induction zs as [|z zs IH]; intros Hz (z1 & H1 & H2); [destruct H1|]. cbn [non_collider_loop].
  rewrite (p_nodes _ (proj1 O)). assert (Nz := Hz z (or_introl eq_refl)). unfold SkelFacts.node in Nz. rewrite Nz. cbn [negb].
  destruct (only_directed_edge_exists g a z && undirected_edge_exists g z b) eqn:B1.
  { apply andb_true_iff in B1. destruct B1 as [B1 B2]. rewrite (no_collide g a b z O B1 B2 Ne NE). eexists. split; reflexivity. }
  destruct (only_directed_edge_exists g b z && undirected_edge_exists g z a) eqn:B2.
  { apply andb_true_iff in B2. destruct B2 as [B2 B3]. rewrite (no_collide g b a z O B2 B3 (fun h => Ne (eq_sym h)) ltac:(rewrite edge_exists_sym; exact NE)). eexists. split; reflexivity. }
  apply IH; [intros; apply Hz; right; assumption|]. destruct H1 as [<-|H1]; [|exists z1; auto].
  destruct H2 as [[C1 C2]|[C1 C2]]; [rewrite C1, C2 in B1|rewrite C1, C2 in B2]; discriminate.
Qed.
Lemma quiet_call s g x y : pre g -> quiet s g -> node x -> node y -> x <> y ->
  exists a b o, ((a = x /\ b = y) \/ (a = y /\ b = x)) /\ call s g [a; b] None = Ok o /\ (forall i, In i (items_of o) -> t_act i = DO_NOTHING).
Proof.
  intros P Qu Hx Hy Ne. destruct (pairs_In g0 g x y (p_wf _ P) (p_nodes _ P) Hx Hy Ne) as [H|H]; destruct (Qu _ H) as (o & C & N).
  - exists x, y, o. auto.
  - exists y, x, o. auto.
Qed.

Section Closed.
Variable g : graph.
Hypothesis O : ori g.
Let P : pre g := proj1 O.
Notation L := (fun x y => directed_edge_exists g x y = true).
Lemma one_b x y : One L x y -> only_directed_edge_exists g x y = true.
Proof. intros [A B]. unfold only_directed_edge_exists. rewrite A. destruct (directed_edge_exists g y x); [congruence|reflexivity]. Qed.
Lemma two_b x y : Two L x y -> undirected_edge_exists g x y = true.
Proof. intros [A B]. unfold undirected_edge_exists. rewrite A, B. reflexivity. Qed.
Lemma one_ee x y : One L x y -> edge_exists g x y = true /\ edge_exists g y x = true.
Proof. intros [A _]. rewrite !edge_exists_or, A. split; [reflexivity|apply orb_true_r]. Qed.
Lemma two_ee x y : Two L x y -> edge_exists g x y = true /\ edge_exists g y x = true.
Proof. intros [A _]. rewrite !edge_exists_or, A. split; [reflexivity|apply orb_true_r]. Qed.
Lemma one_nodes x y : One L x y -> node x /\ node y /\ x <> y.
Proof. intros [A _]. exact (live_nodes g P x y A). Qed.
Lemma apart_b x y : ~ adjacent E x y -> edge_exists g x y = false.
Proof. apply (ee_apart g P). Qed.

Lemma cl_1 : quiet (non_collider_step so) g -> forall x z y, One L x z -> Two L z y -> x <> y -> ~ adjacent E x y -> False.
Proof.
  intros Qu x z y O1 T2 Ne NA. destruct (one_nodes _ _ O1) as (Hx & Hz & _). destruct (live_nodes g P _ _ (proj1 T2)) as (_ & Hy & _).
  destruct (quiet_call _ g x y P Qu Hx Hy Ne) as (a & b & o & Hab & C & Qo). unfold call in C. cbn -[node_at] in C. unfold non_collider_test in C.
  assert (Ha : node a /\ node b /\ a <> b) by (destruct Hab as [[-> ->]|[-> ->]]; auto). destruct Ha as (Ha & Hb & Nab).
  rewrite (at_node _ P [a; b] 0 a eq_refl Ha), (at_node _ P [a; b] 1 b eq_refl Hb) in C. cbn [rbind] in C.
  assert (EE : edge_exists g a b = false) by (destruct Hab as [[-> ->]|[-> ->]]; [|rewrite edge_exists_sym]; apply apart_b; exact NA). rewrite EE in C.
  destruct (common_ok g P a b Ha Hb Nab) as (zs & Cz & Nz & Iz). rewrite Cz in C. cbn [rbind] in C.
  destruct (nc_fires g a b O Nab EE zs Nz) as (i & R & A).
  { exists z. destruct (live_key g P x z (proj1 O1)) as [e1 K1]. destruct (live_key g P y z (proj2 T2)) as [e2 K2]. split.
    - apply Iz. destruct Hab as [[-> ->]|[-> ->]]; [exists e1, e2|exists e2, e1]; auto.
    - apply one_b in O1. apply two_b in T2. destruct Hab as [[-> ->]|[-> ->]]; auto. }
  rewrite R in C. injection C as <-. specialize (Qo i (or_introl eq_refl)). congruence.
Qed.
Lemma cl_2 : quiet triple_step g -> forall x z y, One L x z -> One L z y -> Two L x y -> False.
Proof.
  intros Qu x z y O1 O2 T. destruct (live_nodes g P _ _ (proj1 T)) as (Hx & Hy & Ne).
  destruct (quiet_call _ g x y P Qu Hx Hy Ne) as (a & b & o & Hab & C & Qo). unfold call in C. cbn -[node_at] in C. unfold triple_test in C.
  assert (Ha : node a /\ node b) by (destruct Hab as [[-> ->]|[-> ->]]; auto). destruct Ha as (Ha & Hb).
  rewrite (at_node _ P [a; b] 0 a eq_refl Ha), (at_node _ P [a; b] 1 b eq_refl Hb) in C. cbn [rbind] in C. injection C as <-. cbn [items_of] in Qo.
  destruct (one_nodes _ _ O1) as (_ & Hz & _). destruct (one_ee _ _ O1) as [E1 E1']. destruct (one_ee _ _ O2) as [E2 E2']. apply one_b in O1, O2. assert (U := two_b _ _ T). assert (U' := U). rewrite und_sym in U'.
  assert (X : exists i, In i (triple_body g a b z) /\ t_act i = REMOVE_EDGE_DIRECTED).
  { unfold triple_body. destruct Hab as [[-> ->]|[-> ->]].
    - rewrite E2', E1, U, O1, O2. cbn. eexists; split; [left; reflexivity|reflexivity].
    - rewrite E1, E2', U', O1, O2. cbn. eexists; split; [apply in_app_iff; right; left; reflexivity|reflexivity]. }
  destruct X as (i & Hi & A). specialize (Qo i). rewrite Qo in A; [discriminate|]. apply in_flat_map. exists z. split; [|exact Hi].
  apply dmem_In. rewrite (p_nodes _ P). exact Hz.
Qed.
Lemma cl_3 : quiet (quadruple_step so) g -> forall x y w z, One L y z -> One L w z -> y <> w -> ~ adjacent E y w -> Two L x y -> Two L x w -> Two L x z -> False.
Proof.
  intros Qu x y w z O1 O2 Ne NA T1 T2 T3. destruct (one_nodes _ _ O1) as (Hy & Hz & _). destruct (one_nodes _ _ O2) as (Hw & _ & _).
  destruct (quiet_call _ g y w P Qu Hy Hw Ne) as (a & b & o & Hab & C & Qo). unfold call in C. cbn -[node_at combos] in C. unfold quadruple_test in C.
  assert (Ha : node a /\ node b) by (destruct Hab as [[-> ->]|[-> ->]]; auto). destruct Ha as (Ha & Hb).
  rewrite (at_node _ P [a; b] 0 a eq_refl Ha), (at_node _ P [a; b] 1 b eq_refl Hb) in C. cbn [rbind] in C. injection C as <-. cbn [items_of] in Qo.
  assert (Nxz : x <> z) by (destruct (live_nodes g P _ _ (proj1 T3)) as (_ & _ & N); exact N).
  assert (Ix : In x (shared_adjacent so g a b)).
  { apply (shared_In g _ _ _ P). destruct (two_ee _ _ T1), (two_ee _ _ T2). destruct Hab as [[-> ->]|[-> ->]]; auto. }
  assert (Iz : In z (shared_adjacent so g a b)).
  { apply (shared_In g _ _ _ P). destruct (one_ee _ _ O1), (one_ee _ _ O2). destruct Hab as [[-> ->]|[-> ->]]; auto. }
  apply one_b in O1, O2. assert (U1 := two_b _ _ T1). assert (U2 := two_b _ _ T2). assert (U3 := two_b _ _ T3).
  assert (U1' := U1). assert (U2' := U2). assert (U3' := U3). rewrite und_sym in U1', U2', U3'. assert (A1 := apart_b _ _ NA). assert (A2 := A1). rewrite edge_exists_sym in A2.
  assert (X : exists p i, In p (combos 2 (shared_adjacent so g a b)) /\ In i (quadruple_body g a b p) /\ t_act i = REMOVE_EDGE_DIRECTED).
  { destruct (combos_pair _ x z Ix Iz Nxz) as [H|H].
    - exists [x; z]. eexists. split; [exact H|]. unfold quadruple_body. destruct Hab as [[-> ->]|[-> ->]]; rewrite ?A1, ?A2, O1, O2, U1, U2, U3; cbn; (split; [left; reflexivity|reflexivity]).
    - exists [z; x]. eexists. split; [exact H|]. unfold quadruple_body. destruct Hab as [[-> ->]|[-> ->]]; rewrite ?A1, ?A2, O1, O2, U1', U2', U3'; cbn; (split; [apply in_app_iff; right; left; reflexivity|reflexivity]). }
  destruct X as (p & i & Hp & Hi & A). specialize (Qo i). rewrite Qo in A; [discriminate|]. apply in_flat_map. exists p. auto.
Qed.
Lemma fq_in g' x w y z : (exists b1 b2 b3 b4 : bool, b1 || b2 || b3 || b4 = true /\
    further_quadruple_body g' x w [y; z] = if b1 then [remove_directed z x []] else if b2 then [remove_directed y x []] else if b3 then [remove_directed z w []] else if b4 then [remove_directed y w []] else []) ->
  exists i, In i (further_quadruple_body g' x w [y; z]) /\ t_act i = REMOVE_EDGE_DIRECTED.
Proof. intros (b1 & b2 & b3 & b4 & H & ->). destruct b1, b2, b3, b4; try discriminate H; (eexists; split; [left; reflexivity|reflexivity]). Qed.
Lemma cl_4 : quiet (further_quadruple_step so) g -> forall x y w z, One L y w -> One L w z -> y <> z -> ~ adjacent E y z -> Two L x y -> Two L x w -> Two L x z -> False.
Proof.
  intros Qu x y w z O1 O2 Ne NA T1 T2 T3. destruct (live_nodes g P _ _ (proj1 T2)) as (Hx & Hw & Nxw).
  destruct (quiet_call _ g x w P Qu Hx Hw Nxw) as (a & b & o & Hab & C & Qo). unfold call in C. cbn -[node_at combos] in C. unfold further_quadruple_test in C.
  assert (Ha : node a /\ node b) by (destruct Hab as [[-> ->]|[-> ->]]; auto). destruct Ha as (Ha & Hb).
  rewrite (at_node _ P [a; b] 0 a eq_refl Ha), (at_node _ P [a; b] 1 b eq_refl Hb) in C. cbn [rbind] in C. injection C as <-. cbn [items_of] in Qo.
  assert (Iy : In y (shared_adjacent so g a b)).
  { apply (shared_In g _ _ _ P). destruct (two_ee _ _ T1), (one_ee _ _ O1). destruct Hab as [[-> ->]|[-> ->]]; auto. }
  assert (Iz : In z (shared_adjacent so g a b)).
  { apply (shared_In g _ _ _ P). destruct (two_ee _ _ T3), (one_ee _ _ O2). destruct Hab as [[-> ->]|[-> ->]]; auto. }
  apply one_b in O1, O2. assert (U1 := two_b _ _ T1). assert (U2 := two_b _ _ T2). assert (U3 := two_b _ _ T3).
  assert (U2' := U2). rewrite und_sym in U2'. assert (A1 := apart_b _ _ NA). assert (A2 := A1). rewrite edge_exists_sym in A2.
  assert (X : exists p i, In p (combos 2 (shared_adjacent so g a b)) /\ In i (further_quadruple_body g a b p) /\ t_act i = REMOVE_EDGE_DIRECTED).
  { destruct (combos_pair _ y z Iy Iz Ne) as [H|H].
    - exists [y; z]. assert (Y : exists i, In i (further_quadruple_body g a b [y; z]) /\ t_act i = REMOVE_EDGE_DIRECTED); [|destruct Y as (i & Y); exists i; auto].
      apply fq_in. eexists _, _, _, _. split; [|reflexivity]. destruct Hab as [[-> ->]|[-> ->]]; rewrite ?A1, ?O1, ?O2, ?U1, ?U2, ?U2', ?U3; cbn; rewrite ?orb_true_r; reflexivity.
    - exists [z; y]. assert (Y : exists i, In i (further_quadruple_body g a b [z; y]) /\ t_act i = REMOVE_EDGE_DIRECTED); [|destruct Y as (i & Y); exists i; auto].
      apply fq_in. eexists _, _, _, _. split; [|reflexivity]. destruct Hab as [[-> ->]|[-> ->]]; rewrite ?A1, ?O1, ?O2, ?U1, ?U2, ?U2', ?U3; cbn; rewrite ?orb_true_r; reflexivity. }
  destruct X as (p & i & Hp & Hi & A). specialize (Qo i). rewrite Qo in A; [discriminate|]. apply in_flat_map. exists p. auto.
Qed.
Theorem quiet_pattern : Forall (fun s => quiet s g) (orientation_steps so) -> meek_pattern g D.
Proof.
  intros F. unfold orientation_steps in F. inversion F as [|? ? Q1 F1]; subst. inversion F1 as [|? ? Q2 F2]; subst. inversion F2 as [|? ? Q3 F3]; subst. inversion F3 as [|? ? Q4 _]; subst.
  intros x y. apply (closed_pattern D Ac L).
  - intros a b. destruct (directed_edge_exists g a b); [left|right]; congruence.
  - exact (p_adj _ P).
  - intros a b A N. apply (p_sound _ P); [exact A|]. destruct (directed_edge_exists g a b); congruence.
  - intros a z b V H. rewrite (proj2 O a z b V) in H. discriminate.
  - exact (cl_1 Q1).
  - exact (cl_2 Q2).
  - exact (cl_3 Q3).
  - exact (cl_4 Q4).
Qed.
End Closed.

(* ---- ColliderTest on the purged skeleton ---- *)
Section Collider.
Variable c : id -> id -> Z.
Variable st : cstrategy.
Variable g : graph.
Hypothesis F : found g0 D c g.
Hypothesis PG : forall u v, directed_edge_is_soft_deleted g u v = false.
Notation cs := (collider_step st so).
Let K := proj1 F.
Lemma found_pre : pre g.
Proof.
  assert (X := found_adjacent g0 D c DG g F). split.
  - exact (sk_wf _ _ _ _ _ K).
  - exact (sk_nodes _ _ _ _ _ K).
  - exact (sk_rows _ _ _ _ _ K).
  - intros u v L. apply X; exact L.
  - intros u v A L. apply X in A. congruence.
  - intros u v L. destruct (sk_corr _ _ _ _ _ K u v L) as (e & m & H1 & H2 & _). eauto.
Qed.
Let P := found_pre.
Lemma found_sym x y : directed_edge_exists g x y = true -> directed_edge_exists g y x = true.
Proof. apply (sk_sym _ _ _ _ _ K). Qed.
Lemma key_live x z e : eget g x z = Some e -> directed_edge_exists g x z = true.
Proof. intros G. rewrite (dee_val g x z (p_wf _ P)), G. specialize (PG x z). unfold directed_edge_is_soft_deleted in PG. unfold eget in G. rewrite G in PG. rewrite PG. reflexivity. Qed.
Lemma keys_adj x y zs : common_keys so g x y = Ok zs -> node x -> node y -> x <> y -> forall z, In z zs <-> adjacent E x z /\ adjacent E y z.
Proof.
  intros C Hx Hy Ne z. destruct (common_ok g P x y Hx Hy Ne) as (zs' & C' & _ & I). rewrite C in C'; injection C' as <-. rewrite I. assert (X := found_adjacent g0 D c DG g F). split.
  - intros (e1 & e2 & G1 & G2). rewrite <- !X. split; eapply key_live; eassumption.
  - intros [A1 A2]. rewrite <- X in A1, A2. destruct (live_key g P _ _ A1) as [e1 G1]. destruct (live_key g P _ _ A2) as [e2 G2]. eauto.
Qed.
Definition vitem (i : tresult) : Prop := exists u v w d, i = remove_directed u v d /\ vstruct D v u w.
Lemma vitem_justified i : vitem i -> justified i.
Proof. intros (u & v & w & d & -> & V). right. split; [reflexivity|]. cbn. apply (or_v D v u w); exact V. Qed.
Lemma no_unapplied us x z : Forall (goodo vitem) us -> E x z -> filter_unapplied_actions (Some us) x z = Ok [].
Proof.
  intros Fu A. cbn. f_equal. induction Fu as [|o us Fo _ IH]; [reflexivity|]. cbn [flat_map]. rewrite IH, app_nil_r. destruct o as [rs|]; [|reflexivity]. unfold goodo in Fo. cbn [items_of] in Fo.
  induction Fo as [|i rs (u & v & w & d & -> & V) _ IHr]; [reflexivity|]. cbn [filter t_u t_v remove_directed].
  destruct (eqb_spec u x) as [->|]; [|exact IHr]. destruct (eqb_spec v z) as [->|]; [|exact IHr]. exfalso. exact (no_two E Ac _ _ A (proj1 V)).
Qed.
Lemma body_vs us acts S x y z : node x -> node y -> node z -> x <> y -> separators acts = Ok S -> good_sep g0 D x y S -> adjacent E x z -> adjacent E y z ->
  Forall (goodo vitem) us ->
  (vstruct D x z y /\ collider_body st (Some us) acts g x y z = Ok [remove_directed z x (between x y z); remove_directed z y (between x y z)]) \/
  (~ vstruct D x z y /\ collider_body st (Some us) acts g x y z = Ok []).
Proof.
  intros Hx Hy Hz Ne Es GS A1 A2 Fu. assert (NA := good_nadj g0 D DG x y S GS). destruct GS as (_ & N1 & N2 & Ds).
  assert (Nxz : x <> z) by (intros ->; exact (NA (adjacent_sym _ _ _ A2))). assert (Nzy : z <> y) by (intros ->; exact (NA A1)).
  unfold collider_body. rewrite (p_nodes _ P). unfold SkelFacts.node in Hz. rewrite Hz. cbn [negb]. rewrite Es. cbn [rbind].
  destruct (mem z S) eqn:M.
  - right. split; [|reflexivity]. intros (E1 & E2 & _). apply mem_In in M. exact (sep_collider E x z y _ Ne Nxz Nzy (conj E1 E2) Ds M).
  - left. assert (V : vstruct D x z y).
    { assert (CC : collider E x z y \/ ~ collider E x z y) by (unfold collider; destruct (edge_dec D x z), (edge_dec D y z); tauto).
      destruct CC as [[E1 E2]|NC]; [repeat split; auto|]. exfalso. apply (sep_non_collider E x z y _ Ne Nxz Nzy A1 (adjacent_sym _ _ _ A2) NC Ds).
      apply mem_not_In. exact M. }
    split; [exact V|]. rewrite (no_unapplied us x z Fu (proj1 V)), (no_unapplied us y z Fu (proj1 (proj2 V))). reflexivity.
Qed.
Lemma coll_call us x y : node x -> node y -> x <> y -> Forall (goodo vitem) us -> exists o, call cs g [x; y] (Some us) = Ok o /\ goodo vitem o /\
  (forall z, vstruct D x z y -> In (remove_directed z x (between x y z)) (items_of o) /\ In (remove_directed z y (between x y z)) (items_of o)).
Proof.
  intros Hx Hy Ne Fu. unfold call. cbn -[node_at]. unfold collider_test. rewrite (at_node _ P [x; y] 0 x eq_refl Hx), (at_node _ P [x; y] 1 y eq_refl Hy). cbn [rbind].
  assert (X := found_adjacent g0 D c DG g F). destruct (undirected_edge_exists g x y) eqn:U.
  { exists None. split; [reflexivity|]. split; [constructor|]. intros z (_ & _ & _ & NA). exfalso; apply NA, X, und_l, U. }
  assert (G : directed_edge_exists g x y = false).
  { destruct (directed_edge_exists g x y) eqn:L; [|reflexivity]. unfold undirected_edge_exists in U. rewrite L, (found_sym x y L) in U. discriminate. }
  destruct (common_ok g P x y Hx Hy Ne) as (zs & Cz & Nz & _). assert (Iz := keys_adj x y zs Cz Hx Hy Ne). rewrite Cz. cbn [rbind].
  destruct (skel_separator g0 D c g x y K Hx Hy Ne G) as (S & (i & d & Hh & Hd & Hs) & GS). rewrite Hh. cbn [rbind].
  assert (Es : separators [i] = Ok S) by (unfold separators; cbn; rewrite Hd, Hs; cbn; rewrite app_nil_r; reflexivity).
  assert (R : forall l, (forall z, In z l -> In z zs) -> exists rs, rflat (collider_body st (Some us) [i] g x y) l = Ok rs /\ Forall vitem rs /\
    (forall z, In z l -> vstruct D x z y -> In (remove_directed z x (between x y z)) rs /\ In (remove_directed z y (between x y z)) rs)).
  { induction l as [|z l IH]; intros Hl; cbn [rflat]; [exists []; split; [reflexivity|split; [constructor|intros z []]]|].
    destruct (IH (fun z' h => Hl z' (or_intror h))) as (rs & -> & Fr & Hr). assert (Hz := Hl z (or_introl eq_refl)). destruct (proj1 (Iz z) Hz) as [A1 A2].
    destruct (body_vs us [i] S x y z Hx Hy (Nz z Hz) Ne Es GS A1 A2 Fu) as [[V B]|[NV B]]; rewrite B; cbn [rbind].
    - eexists. split; [reflexivity|]. split.
      + apply Forall_app. split; [|exact Fr]. constructor; [|constructor; [|constructor]]; [exists z, x, y|exists z, y, x]; eexists; (split; [reflexivity|]); [exact V|apply vstruct_sym; exact V].
      + intros z' [<-|Hz'] V'; [split; cbn; auto|]. destruct (Hr z' Hz' V') as [H1 H2]. split; apply in_app_iff; right; assumption.
    - eexists. split; [reflexivity|]. split; [exact Fr|]. intros z' [<-|Hz'] V'; [contradiction|]. cbn. apply Hr; assumption. }
  destruct (R zs (fun z h => h)) as (rs & -> & Fr & Hr). cbn [rbind]. eexists. split; [reflexivity|]. split; [exact Fr|]. intros z V. apply Hr; [|exact V].
  apply Iz. destruct V as (E1 & E2 & _). split; left; assumption.
Qed.
Lemma coll_collect : forall l local, (forall ns, In ns l -> pair_ok g0 ns) -> Forall (goodo vitem) local ->
  exists os : list outcome, collect cs g (map Generators.One l) local = Ok os /\ Forall (goodo vitem) os /\
    forall x y z : id, In [x; y] l -> vstruct D x z y -> killed os z x /\ killed os z y.
Proof.
  induction l as [|ns l IH]; intros local Hl Fl; cbn [map collect as_args rbind].
  - exists local. split; [reflexivity|]. split; [exact Fl|]. intros x y z [].
  - destruct (Hl ns (or_introl eq_refl)) as (x & y & -> & Hx & Hy & Ne). destruct (coll_call local x y Hx Hy Ne Fl) as (o & -> & Go & Ho). cbn [rbind].
    destruct (IH (local ++ [o]) (fun n h => Hl n (or_intror h))) as (os & R & Fo & Hos); [apply Forall_app; split; [exact Fl|constructor; [exact Go|constructor]]|].
    exists os. split; [exact R|]. split; [exact Fo|]. intros x' y' z [H|H] V; [|exact (Hos x' y' z H V)]. injection H as <- <-. destruct (Ho z V) as [H1 H2].
    assert (Io : In o os) by (eapply collect_local; [exact R|apply in_app_iff; cbn; auto]). split; [exists o, (remove_directed z x (between x y z))|exists o, (remove_directed z y (between x y z))]; repeat split; assumption.
Qed.
Lemma coll_step Pr : exists g' a, execute_step Pr no_hooks cs false g = (g', Ok a) /\ ori g'.
Proof.
  assert (Gen : gen_run (s_gen cs g) g = Ok (map Generators.One (pairs_of g))) by (cbn; rewrite app_nil_r; reflexivity).
  rewrite (plain_unfold false cs ltac:(repeat split) Pr g _ Gen). assert (OK := pairs_ok g0 g (p_wf _ P) (p_nodes _ P)).
  destruct (coll_collect (pairs_of g) [] OK (Forall_nil _)) as (os & R & Fo & Ho). unfold bind. rewrite R. cbn [liftr]. unfold ret.
  assert (Fj : Forall (fun o => Forall justified (items_of o)) os).
  { eapply Forall_impl; [|exact Fo]. intros o H. eapply Forall_impl; [|exact H]. intros i; apply vitem_justified. }
  destruct (justified_take os g P Fj) as (g' & a & T & P' & A). rewrite T. exists g', a. split; [reflexivity|]. split; [exact P'|].
  intros x z y V. destruct (directed_edge_exists g' z x) eqn:L; [|reflexivity]. exfalso. apply (af_live _ _ _ A) in L. destruct L as [_ L]. apply L.
  assert (Hx : node x) by (apply node_In; apply (do_nodes _ _ DG x z), V). assert (Hy : node y) by (apply node_In; apply (do_nodes _ _ DG y z), V).
  destruct (pairs_In g0 g x y (p_wf _ P) (p_nodes _ P) Hx Hy (proj1 (proj2 (proj2 V)))) as [H|H].
  - exact (proj1 (Ho x y z H V)).
  - exact (proj2 (Ho y x z H (vstruct_sym _ _ _ _ V))).
Qed.
End Collider.

(* ---- the effect step leaves the live directions alone ---- *)
Section Effect.
Variable N : numerics.
Variable g : graph.
Hypothesis P : pre g.
Definition eff_inv (g' : graph) : Prop := WF g' /\ nodes g' = nodes g0 /\ (forall a b, directed_edge_exists g' a b = directed_edge_exists g a b) /\
  (forall u v, directed_edge_exists g' u v = true -> exists e m, eget g' u v = Some e /\ e_meta e = Some m).
Definition eff_exn (e : exn) : Prop := exists xs zs ys, n_effect N xs zs ys = Err e.
Definition eff_item (i : tresult) : Prop := t_act i = UPDATE_EDGE_DIRECTED /\ exists m, t_data i = Some m.
Definition eff_arg (ns : list id) : Prop := exists u v, ns = [u; v] /\ directed_edge_exists g u v = true.
Lemma eff_act i : eff_item i -> keeps eff_inv eff_exn (apply_action i) (fun _ _ => True).
Proof.
  intros [A [m Dm]] g1 (W & Nn & L & M). destruct (apply_action i g1) as [g' r] eqn:R. destruct (apply_action_spec g1 i g' r W R) as (W' & _ & Nn' & S). cbn [fst snd].
  destruct r as [[]|e]; [| |exfalso; destruct S as (_ & NR & _); apply NR; unfold action_ready; rewrite A; exact I].
  - destruct S as (_ & _ & Ef & _). unfold action_effect in Ef. rewrite A in Ef. cbn in Ef. destruct Ef as [[_ OC] Eu]. split; [|exact I].
    assert (Ent : forall a b, entry g' a b = if eqb (a, b) (t_u i, t_v i) then option_map (new_data i) (entry g1 a b) else entry g1 a b).
    { intros a b. destruct (eqb_spec (a, b) (t_u i, t_v i)) as [X|X]; [injection X as -> ->; exact Eu|apply OC]. intros [Z|[]]; congruence. }
    assert (L' : forall a b, directed_edge_exists g' a b = directed_edge_exists g1 a b).
    { intros a b. rewrite (dee_val g' a b W'), (dee_val g1 a b W), <- !entry_eget, Ent. destruct (eqb _ _); [|reflexivity]. destruct (entry g1 a b); [|reflexivity]. unfold new_data. rewrite Dm. reflexivity. }
    split; [exact W'|]. split; [congruence|]. split; [intros a b; rewrite L'; apply L|].
    intros u v Lv. rewrite L' in Lv. destruct (M u v Lv) as (e & m' & E1 & E2). rewrite <- entry_eget in E1 |- *. rewrite Ent, E1. destruct (eqb _ _); [|exists e, m'; auto].
    exists (new_data i e), m. split; [reflexivity|]. unfold new_data. rewrite Dm. reflexivity.
  - destruct S as [-> _]. split; [|exact I]. split; auto.
Qed.
Lemma eff_step_keeps Pr : step_keeps eff_inv eff_exn Pr no_hooks eff_item false (effect_step N).
Proof.
  apply (keeps_step eff_inv eff_exn eff_item no_hooks (no_hooks_good _ _ _) false (fun _ => eff_act) eff_arg Pr (effect_step N)); [discriminate|]. split.
  - intros g1 ns us (W & Nn & L & M) (u & v & -> & Luv) _. unfold call. cbn -[node_at]. unfold effect_process.
    assert (Luv1 := Luv). rewrite <- L in Luv1. destruct (live_entry _ _ _ W Luv1) as (e & Ee & _ & Hu & Hv & _). unfold node_at. cbn [nth_error]. rewrite Hu, Hv. cbn [rbind].
    destruct (M u v Luv1) as (e' & m & E1 & E2). unfold edge_value. rewrite edge_exists_or, Luv1. cbn [orb negb]. unfold eget in E1. rewrite E1, E2. cbn [rbind].
    destruct (undirected_edge_exists g1 u v); [constructor|]. destruct (parents_of_node g1 v) as [ps|x] eqn:Pa; cbn [rbind].
    + destruct (n_effect N _ _ _) as [z|x] eqn:NE; cbn [rbind]; [|unfold eff_exn; eauto]. constructor; [|constructor]. split; [reflexivity|]. eexists; reflexivity.
    + exfalso. apply (parents_err g1 v x W) in Pa. destruct Pa as [_ Pa]. specialize (Pa u). rewrite edge_exists_or, Luv1 in Pa. discriminate.
  - intros g1 (W & Nn & L & M). constructor; [|constructor]. intros g2 _. cbn. rewrite Forall_forall. intros em Hem. apply in_map_iff in Hem. destruct Hem as (ns & <- & Hns).
    cbn. destruct (live_pairs_two _ _ Hns) as (u & v & ->). apply live_pairs_In in Hns. exists u, v. split; [reflexivity|]. rewrite <- L. exact Hns.
Qed.
Lemma eff_run fuel Pr : exists g' r, run_pstep fuel Pr no_hooks (PStep (effect_step N)) g = (g', r) /\ eff_inv g' /\ match r with Ok _ => True | Err e => eff_exn e end.
Proof.
  assert (Kp : keeps eff_inv eff_exn (run_pstep fuel Pr no_hooks (PStep (effect_step N))) (fun _ _ => True)).
  { eapply keeps_pstep_plain; [|apply eff_step_keeps|].
    - intros g1 h (W & Nn & L & M). split; [apply WF_ahist; exact W|]. split; [exact Nn|]. split; [exact L|exact M].
    - intros g1 (W & Nn & L & M). destruct (after_purge g1 W) as [[A1 A2 A3 A4 _] Ok1]. destruct (purge_soft_deleted_edges g1) as [g2 r]. cbn [fst snd] in *. subst r. split; [|exact I].
      assert (L' : forall a b, directed_edge_exists g2 a b = directed_edge_exists g1 a b) by (intros a b; apply eq_true_iff_eq; rewrite A3; tauto).
      split; [exact A1|]. split; [congruence|]. split; [intros a b; rewrite L'; apply L|]. intros u v Lv. assert (Me := A4 u v Lv). rewrite L' in Lv. destruct (M u v Lv) as (e & m & E1 & E2).
      rewrite E1 in Me. destruct (eget g2 u v) as [e2|]; [|discriminate]. cbn in Me. injection Me as Me. exists e2, m. split; [reflexivity|congruence]. }
  destruct (Kp g) as [H1 H2].
  { split; [exact (p_wf _ P)|]. split; [exact (p_nodes _ P)|]. split; [reflexivity|exact (p_meta _ P)]. }
  destruct (run_pstep fuel Pr no_hooks (PStep (effect_step N)) g) as [g' r]. exists g', r. split; [reflexivity|]. split; [exact H1|]. cbn in H2. destruct r; auto.
Qed.
End Effect.

(* ---- the orientation phase and the effect step ---- *)
Lemma live_count_bound g : live_count g <= List.length (nodes g) * List.length (nodes g).
Proof.
  unfold live_count. assert (FL : forall (A : Type) (f : A -> bool) l, List.length (filter f l) <= List.length l) by (intros A f l; induction l as [|a l IH]; cbn; [lia|destruct (f a); cbn; lia]).
  etransitivity; [apply FL|]. rewrite prod_length. unfold dkeys. rewrite map_length. lia.
Qed.
Theorem orient_run c N fuel Pr g : found g0 D c g -> (forall u v, directed_edge_is_soft_deleted g u v = false) ->
  List.length (nodes g0) * List.length (nodes g0) + 2 <= fuel ->
  exists g' r, execute_pipeline fuel Pr no_hooks (orientation_rules so ++ [PStep (effect_step N)]) g = (g', r) /\
    nodes g' = nodes g0 /\ meek_pattern g' D /\ match r with Ok _ => True | Err e => eff_exn N e end.
Proof.
  intros F PG Fu. unfold orientation_rules. cbn [app].
  assert (LG : forall g h, WF g -> after (fun _ _ => False) g (with_ahist g h)).
  { intros g1 h W. split; auto; [apply WF_ahist; exact W|intros a b; split; [auto|tauto]|intros a H; exact H]. }
  assert (S1 : exists g2, run_pstep fuel Pr no_hooks (PStep (collider_step KEEP_FIRST so)) g = (g2, Ok tt) /\ ori g2).
  { destruct (coll_step c KEEP_FIRST g F PG Pr) as (g1 & a1 & R1 & O1). cbn [run_pstep]. unfold bind at 1. rewrite R1. unfold bind at 1, log_step at 1. cbn beta iota.
    set (g1' := with_ahist g1 _). assert (O1' := ori_same g1 g1' O1 (LG _ _ (p_wf _ (proj1 O1)))).
    destruct (after_purge g1' (p_wf _ (proj1 O1'))) as [A2 E2]. destruct (purge_soft_deleted_edges g1') as [g2 r2]. cbn [fst snd] in A2, E2. subst r2.
    exists g2. split; [reflexivity|]. exact (ori_same g1' g2 O1' A2). }
  destruct S1 as (g2 & R2 & O2). rewrite (pipeline_cons _ _ _ _ _ _ _ R2).
  assert (S2 : exists g3, run_pstep fuel Pr no_hooks (PLoop "Loop" exit_on_no_actions (orientation_steps so)) g2 = (g3, Ok tt) /\ ori g3 /\ meek_pattern g3 D).
  { destruct (loop_keeps Pr _ (orientation_rules_ok so) rules_sound fuel 0 None g2 O2 ltac:(lia)) as (g3 & r3 & R3 & O3 & H3).
    destruct (loop_run Pr _ (orientation_rules_ok so) fuel 0 None g2 g3 r3 (p_wf _ (proj1 O2)) ltac:(lia) R3) as [_ L3]. cbn [run_pstep]. unfold bind at 1. rewrite R3.
    destruct H3 as [->|[hs ->]].
    - exfalso. apply L3; [|reflexivity]. unfold need. assert (B := live_count_bound g2). rewrite (p_nodes _ (proj1 O2)) in B. lia.
    - eexists. split; [reflexivity|]. split; [exact (ori_same g3 _ O3 (LG _ _ (p_wf _ (proj1 O3))))|]. exact (quiet_pattern g3 O3 L3). }
  destruct S2 as (g3 & R3 & O3 & MP). rewrite (pipeline_cons _ _ _ _ _ _ _ R3).
  destruct (eff_run N g3 (proj1 O3) fuel Pr) as (g4 & r4 & R4 & (W4 & N4 & L4 & _) & H4). cbn [execute_pipeline]. unfold bind at 1. rewrite R4. exists g4.
  assert (MP4 : meek_pattern g4 D) by (intros x y; rewrite L4; apply MP).
  destruct r4 as [u|e]; eexists; (split; [reflexivity|auto]).
Qed.
End Main.
