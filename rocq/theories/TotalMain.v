(* The whole pipelines, from the phases of TotalFacts. *)
From Verif Require Import Base PyDict PyDictFacts Graph GraphSpec GraphFacts GraphInv GraphQ PathSpec Actions ActionSpec ActionFacts Generators GenSpec GenFacts Rules IndepTests Pipeline Parallel
  PipeFacts Construct ConstructSpec Dag SkelSpec Rows Serve SkelFacts SkelStart SkelSteps SkelMatrix SkelMain ActionMain PipeMain PipeMain2 LoopFacts TotalSpec TotalFacts.
Open Scope list_scope.

Lemma wp_app fuel P H l2 : forall l1 g E (R S : graph -> Prop), wp E (execute_pipeline fuel P H l1) g R -> (forall g, R g -> wp E (execute_pipeline fuel P H l2) g S) ->
  wp E (execute_pipeline fuel P H (l1 ++ l2)) g S.
Proof.
  induction l1 as [|p l IH]; intros g E R S W K; [apply K; exact W|]. cbn [app]. unfold wp in W. cbn [execute_pipeline] in *. unfold wp, bind in *.
  destruct (run_pstep fuel P H p g) as [g1 [u|e]]; cbn [fst snd] in *; [|exact W]. exact (IH g1 E R S W K).
Qed.
Lemma wp_nil fuel P H g E (R : graph -> Prop) : R g -> wp E (execute_pipeline fuel P H []) g R.
Proof. intros X. exact X. Qed.

Lemma live_get_edge g x y e : directed_edge_exists g x y = true -> eget g x y = Some e -> get_edge g x y = Ok e.
Proof. intros _ H. unfold get_edge. unfold eget in H. rewrite H. reflexivity. Qed.
Section Main.
Variables (fuel : nat) (P : runner) (so : list id -> list id) (N : numerics) (g0 : graph).
Hypothesis CP : complete g0.
Hypothesis SO : set_order so.
Notation sk := (skel g0 [] (corr g0 N) (good_sep g0 [])).
Lemma plain_phase s A g : (s_parallel s = true -> pool_runner no_hooks P) -> good_step sk (raised N) (proposal g0 (good_sep g0 [])) A s -> sk g ->
  wp (raised N) (run_pstep fuel P no_hooks (PStep s)) g sk.
Proof. intros HP G K. apply phase_of. eapply goodstep_wp; eassumption. Qed.
Lemma serial_phase s A g : s_parallel s = false -> good_step sk (raised N) (proposal g0 (good_sep g0 [])) A s -> sk g ->
  wp (raised N) (run_pstep fuel P no_hooks (PStep s)) g sk.
Proof. intros HP. apply plain_phase. rewrite HP. discriminate. Qed.
Lemma corr_phase g : sk g /\ full g0 g -> wp (raised N) (run_pstep fuel P no_hooks (PStep (correlation_step N))) g sk.
Proof.
  intros [K L]. apply phase_of. eapply tri_wp; [apply (corr_total g0 N false P g K L sk K (fun _ => t_act g0 N))|]. auto.
Qed.
Lemma skel_total sks l : pc_algorithm P so N sks l -> wp (raised N) (execute_pipeline fuel P no_hooks sks) g0 sk.
Proof.
  intros A. assert (PP := pearson_phase g0 N CP fuel P). destruct A as [| | |sh sh' coin H1 H2 HP]; (eapply wp_cons; [exact PP|]; intros g1 K1).
  - eapply wp_cons; [apply corr_phase; exact K1|intros g2 K2]. eapply wp_cons; [apply (serial_phase (partial_step false N) _ _ eq_refl (partial_goodstep g0 N false) K2)|intros g3 K3].
    eapply wp_cons; [apply (serial_phase (matrix_step so 4 N) _ _ eq_refl (matrix_goodstep g0 N so SO 4 ltac:(lia)) K3)|]. intros g4 K4. exact K4.
  - eapply wp_cons; [apply corr_phase; exact K1|intros g2 K2].
    eapply wp_cons; [apply (serial_phase (matrix_step so 3 N) _ _ eq_refl (matrix_goodstep g0 N so SO 3 ltac:(lia)) K2)|]. intros g4 K4. exact K4.
  - eapply wp_cons; [apply (stable_total g0 N so SO fuel P g1 (proj1 K1) (proj2 K1))|]. intros g4 K4. exact K4.
  - eapply wp_cons; [apply corr_phase; exact K1|intros g2 K2]. eapply wp_cons; [apply (plain_phase _ _ _ (fun _ => HP) (partial_goodstep g0 N true) K2)|intros g3 K3].
    eapply wp_cons; [apply (plain_phase _ _ _ (fun _ => HP) (sampled_goodstep g0 N so SO sh coin H1) K3)|intros g4 K4].
    eapply wp_cons; [apply (plain_phase _ _ _ (fun _ => HP) (parallel_goodstep g0 N so SO sh' H2) K4)|]. intros g5 K5. exact K5.
Qed.
Lemma run_total sks l : pc_algorithm P so N sks l -> List.length (nodes g0) * List.length (nodes g0) + 2 <= fuel ->
  wp (raised N) (execute_pipeline fuel P no_hooks l) g0 (fun _ => True).
Proof.
  intros A Fu. assert (El : l = sks ++ orientation_rules so ++ [PStep (effect_step N)]) by (destruct A; reflexivity). subst l.
  eapply wp_app; [apply skel_total with (1 := A)|]. intros g K. apply (tail_total g0 N so SO fuel P g Fu K).
Qed.

(* the numbers the correlation step stores *)
Lemma ord_before x y : ord g0 x y -> before (dkeys (nodes g0)) x y.
Proof.
  intros O. apply all_combinations_In in O. destruct O as [S _]. revert S. generalize (dkeys (nodes g0)) as l.
  assert (H1 : forall l, subseq [y] l -> exists b c, l = b ++ y :: c).
  { induction l as [|a l IH]; intros S; [inversion S|]. inversion S as [|? ? ? T|? ? ? T]; subst; [exists [], l; reflexivity|]. destruct (IH T) as (b & c & ->). exists (a :: b), c; reflexivity. }
  induction l as [|a l IH]; intros S; [inversion S|]. inversion S as [|? ? ? T|? ? ? T]; subst.
  - destruct (H1 l T) as (b & c & ->). exists [], b, c; reflexivity.
  - destruct (IH T) as (a' & b & c & ->). exists (a :: a'), b, c; reflexivity.
Qed.
Lemma corr_coeff x y : (forall a b, ord g0 a b -> n_pearson N (values_of g0 a) (values_of g0 b) = Ok (corr g0 N a b)) ->
  SkelFacts.node g0 x -> SkelFacts.node g0 y -> x <> y -> coefficient N g0 x y (corr g0 N x y).
Proof.
  intros H Hx Hy Ne. destruct (pairs_In g0 g0 x y (cp_wf _ CP) eq_refl Hx Hy Ne) as [O|O].
  - left. split; [apply ord_before; exact O|apply H; exact O].
  - right. split; [apply ord_before; exact O|]. rewrite (corr_sym g0 N CP x y). apply H; exact O.
Qed.
Lemma pearson_done : wp (raised N) (run_pstep fuel P no_hooks (PStep (calculate_pearson N))) g0 (fun g =>
  (forall x y, SkelFacts.node g0 x -> SkelFacts.node g0 y -> x <> y -> directed_edge_exists g x y = true /\ exists e, eget g x y = Some e /\ e_meta e = Some (cmeta (corr g0 N) x y)) /\
  (forall a b, ord g0 a b -> n_pearson N (values_of g0 a) (values_of g0 b) = Ok (corr g0 N a b))).
Proof.
  set (PF := forall a b, ord g0 a b -> n_pearson N (values_of g0 a) (values_of g0 b) = Ok (corr g0 N a b)).
  set (R := fun g => (WF g /\ forall x y, SkelFacts.node g0 x -> SkelFacts.node g0 y -> x <> y -> directed_edge_exists g x y = true /\ exists e, eget g x y = Some e /\ e_meta e = Some (cmeta (corr g0 N) x y)) /\ PF).
  apply wp_pstep with (R := R).
  - eapply tri_wp; [apply (pearson_total g0 N CP P)|]. intros a g K [T H]. split; [|exact H]. split; [exact (ps_wf _ _ K)|]. intros x y Hx Hy Ne. split; [exact (ps_live g0 g x y K Hx Hy Ne)|exact (proj1 (T x y Hx Hy Ne))].
  - intros g h [[W T] H]. split; [|exact H]. split; [apply WF_ahist; exact W|exact T].
  - intros g [[W T] H]. destruct (LoopFacts.after_purge g W) as [A Ok1]. unfold wp. rewrite Ok1. split; [|exact H]. intros x y Hx Hy Ne. destruct (T x y Hx Hy Ne) as (L & e & E1 & E2).
    assert (L' : directed_edge_exists (fst (purge_soft_deleted_edges g)) x y = true) by (apply (LoopFacts.af_live _ _ _ A); split; [exact L|exact (fun f => f)]).
    split; [exact L'|]. assert (M := LoopFacts.af_meta _ _ _ A x y L'). rewrite E1 in M. destruct (eget (fst (purge_soft_deleted_edges g)) x y) as [e'|]; [|discriminate]. cbn in M. injection M as M. exists e'. split; [reflexivity|congruence].
Qed.
Lemma skel_pearson sks l g : pc_algorithm P so N sks l -> execute_pipeline fuel P no_hooks sks g0 = (g, Ok tt) ->
  forall a b, ord g0 a b -> n_pearson N (values_of g0 a) (values_of g0 b) = Ok (corr g0 N a b).
Proof.
  intros A R. assert (X : exists r, sks = PStep (calculate_pearson N) :: r) by (destruct A; eexists; reflexivity). destruct X as (r & ->). cbn [execute_pipeline] in R. unfold bind in R.
  assert (D := pearson_done). unfold wp in D. destruct (run_pstep fuel P no_hooks (PStep (calculate_pearson N)) g0) as [g1 [u|e]]; [|discriminate]. exact (proj2 D).
Qed.
End Main.
