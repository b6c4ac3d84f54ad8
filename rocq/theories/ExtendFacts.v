(* The orientation loop respects every consistent extension of the graph it starts with. *)
From Verif Require Import Base PyDict PyDictFacts Graph GraphSpec GraphFacts GraphInv GraphQ Actions ActionSpec ActionFacts ActionMain Generators GenSpec GenFacts
  Rules RuleFacts IndepTests Pipeline PipeFacts Dag DagFacts DagSep PathSpec SkelSpec SkelFacts SkelStart OrientSpec OrientGraph LoopFacts OrientMain.
Open Scope string_scope.
Open Scope list_scope.
Open Scope nat_scope.

Section Ext.
Variable E : id -> id -> Prop.
Variable so : list id -> list id.
Hypothesis SO : set_order so.

Definition agrees (i : tresult) : Prop := t_act i = DO_NOTHING \/ (t_act i = REMOVE_EDGE_DIRECTED /\ E (t_v i) (t_u i)).
Definition respects (s : step) : Prop := forall g ns o, WF g -> consistent_extension g E -> In ns (pairs_of g) -> call s g ns None = Ok o -> Forall agrees (items_of o).

Lemma ce_one g x y : consistent_extension g E -> only_directed_edge_exists g x y = true -> E x y.
Proof.
  intros C O. unfold only_directed_edge_exists in O. apply andb_true_iff in O. destruct O as [L N]. apply negb_true_iff in N.
  assert (A : adjacent E x y) by (apply (ce_adj _ _ C); rewrite edge_exists_or, L; reflexivity). destruct A as [A|A]; [exact A|].
  apply (ce_live _ _ C) in A. congruence.
Qed.
Lemma ce_und g x y : consistent_extension g E -> undirected_edge_exists g x y = true -> adjacent E x y.
Proof. intros C U. apply (ce_adj _ _ C). rewrite edge_exists_or, (und_l _ _ _ U). reflexivity. Qed.
Lemma ce_novs g x z y : consistent_extension g E -> E x z -> E y z -> x <> y -> edge_exists g x y = false -> undirected_edge_exists g z y = true -> False.
Proof.
  intros C A B Ne Ap U. destruct (ce_vs _ _ C x z y A B Ne Ap) as [_ O]. unfold one_way, only_directed_edge_exists in O. rewrite (und_l _ _ _ U), andb_false_r in O. discriminate.
Qed.
Lemma ce_after K g g' : consistent_extension g E -> after K g g' -> (forall a b, K a b -> E b a) -> consistent_extension g' E.
Proof.
  intros C A HK. assert (Ac := ce_acyclic _ _ C).
  assert (EE : forall x y, edge_exists g' x y = true <-> adjacent E x y).
  { intros x y. split.
    - intros H. apply (ce_adj _ _ C). rewrite edge_exists_or in *. apply orb_true_iff in H. apply orb_true_iff.
      destruct H as [H|H]; apply (af_live _ _ _ A) in H; tauto.
    - intros H. rewrite edge_exists_or. apply orb_true_iff.
      assert (Q : forall a b, E a b -> directed_edge_exists g' a b = true).
      { intros a b X. apply (af_live _ _ _ A). split; [apply (ce_live _ _ C); exact X|]. intros Y. apply HK in Y. exact (no_two E Ac _ _ X Y). }
      destruct H as [H|H]; apply Q in H; auto. }
  split; [exact Ac|exact EE| |].
  - intros x y X. apply (af_live _ _ _ A). split; [apply (ce_live _ _ C); exact X|]. intros Y. apply HK in Y. exact (no_two E Ac _ _ X Y).
  - intros x z y A1 A2 Ne Ap. assert (Ap' : edge_exists g x y = false).
    { destruct (edge_exists g x y) eqn:X; [|reflexivity]. apply (ce_adj _ _ C) in X. apply EE in X. unfold apart in Ap. congruence. }
    destruct (ce_vs _ _ C x z y A1 A2 Ne Ap') as [O1 O2]. unfold one_way, only_directed_edge_exists in *.
    assert (Q : forall a, directed_edge_exists g a z && negb (directed_edge_exists g z a) = true -> E a z -> directed_edge_exists g' a z && negb (directed_edge_exists g' z a) = true).
    { intros a H X. apply andb_true_iff in H. destruct H as [H1 H2]. apply negb_true_iff in H2. apply andb_true_iff. split.
      - apply (af_live _ _ _ A). split; [exact H1|]. intros Y. apply HK in Y. exact (no_two E Ac _ _ X Y).
      - apply negb_true_iff. destruct (directed_edge_exists g' z a) eqn:Y; [|reflexivity]. apply (af_live _ _ _ A) in Y. destruct Y; congruence. }
    split; apply Q; assumption.
Qed.

Lemma step_extends s P g g' r : rule_step s -> respects s -> WF g -> consistent_extension g E ->
  execute_step P no_hooks s false g = (g', r) -> WF g' /\ consistent_extension g' E.
Proof.
  intros RS RE W C R. rewrite (rule_unfold s P false g RS) in R. destruct (rmap _ (pairs_of g)) as [os|e] eqn:M; [|injection R as <- <-; auto].
  destruct (rmap_each _ _ _ M) as [_ M2].
  assert (F : Forall (fun o => Forall agrees (items_of o)) os).
  { apply Forall_forall. intros o Ho. destruct (M2 o Ho) as (ns & Hns & Co). exact (RE g ns o W C Hns Co). }
  assert (F' : Forall (fun o => Forall orient_item (items_of o)) os).
  { eapply Forall_impl; [|exact F]. intros o H. eapply Forall_impl; [|exact H]. intros i [A|[A _]]; [left|right]; exact A. }
  assert (A := after_take os g W F'). rewrite R in A. cbn [fst] in A. split; [exact (af_wf _ _ _ A)|]. apply (ce_after _ _ _ C A).
  intros a b (o & i & Ho & Hi & K1 & K2 & K3). rewrite Forall_forall in F. specialize (F o Ho). rewrite Forall_forall in F.
  destruct (F i Hi) as [B|[_ B]]; [congruence|]. rewrite K2, K3 in B. exact B.
Qed.
Lemma inner_extends P : forall l g g' r, Forall rule_step l -> Forall respects l -> WF g -> consistent_extension g E ->
  run_inner P no_hooks false l g = (g', r) -> WF g' /\ consistent_extension g' E.
Proof.
  induction l as [|s l IH]; intros g g' r F1 F2 W C R; cbn [run_inner] in R; [unfold ret in R; injection R as <- <-; auto|].
  inversion F1; inversion F2; subst. unfold bind at 1 in R. destruct (execute_step P no_hooks s false g) as [g1 r1] eqn:R1.
  destruct (step_extends s P g g1 r1) as [W1 C1]; auto. destruct r1 as [a|e]; [|injection R as <- <-; auto].
  unfold bind at 1 in R. destruct (run_inner P no_hooks false l g1) as [g2 r2] eqn:R2. destruct (IH g1 g2 r2) as [W2 C2]; auto.
  destruct r2; unfold ret in R; injection R as <- <-; auto.
Qed.
Lemma loop_extends P l : Forall rule_step l -> Forall respects l -> forall fuel n last g g' r, WF g -> consistent_extension g E ->
  run_loop fuel P no_hooks exit_on_no_actions l n last g = (g', r) -> WF g' /\ consistent_extension g' E.
Proof.
  intros F1 F2. induction fuel as [|f IH]; intros n last g g' r W C R; cbn [run_loop] in R; [unfold raise in R; injection R as <- <-; auto|].
  unfold bind at 1 in R. destruct (exit_on_no_actions n last) as [stop|e]; cbn [liftr] in R; unfold ret, raise in R; [|injection R as <- <-; auto].
  destruct stop; [injection R as <- <-; auto|]. unfold bind at 1 in R. destruct (run_inner P no_hooks false l g) as [g1 r1] eqn:R1.
  destruct (inner_extends P l g g1 r1) as [W1 C1]; auto. destruct r1 as [a|e]; [|injection R as <- <-; auto].
  unfold bind at 1 in R. destruct (run_loop f P no_hooks exit_on_no_actions l (S n) (Some (snd a)) g1) as [g2 r2] eqn:R2.
  destruct (IH (S n) (Some (snd a)) g1 g2 r2 W1 C1 R2) as [W2 C2]. destruct r2; injection R as <- <-; auto.
Qed.

(* ---- the four rules ---- *)
Lemma agree_if (b : bool) u v d : (b = true -> E v u) -> Forall agrees (if b then [remove_directed u v d] else []).
Proof. intros H. destruct b; [|constructor]. constructor; [|constructor]. right. split; [reflexivity|exact (H eq_refl)]. Qed.
Lemma agree_flat {A} (f : A -> list tresult) l : (forall a, In a l -> Forall agrees (f a)) -> Forall agrees (flat_map f l).
Proof. intros H. apply Forall_forall. intros i Hi. apply in_flat_map in Hi. destruct Hi as (a & Ha & Hi). specialize (H a Ha). rewrite Forall_forall in H. auto. Qed.
Lemma pair_nodes g ns : WF g -> In ns (pairs_of g) -> exists x y, ns = [x; y] /\ x <> y /\ dmem (nodes g) x = true /\ dmem (nodes g) y = true.
Proof. intros W H. destruct (pairs_ok g g W eq_refl ns H) as (x & y & -> & A & B & C). exists x, y. auto. Qed.
Ltac args Hn C := destruct Hn as (x & y & -> & Ne & Hx & Hy); unfold call in C; cbn -[node_at combos] in C.

Lemma rule1 g x z y : consistent_extension g E -> only_directed_edge_exists g x z = true -> undirected_edge_exists g z y = true -> x <> y -> edge_exists g x y = false -> E z y.
Proof.
  intros C O U Ne Ap. destruct (ce_und g z y C U) as [A|A]; [exact A|]. exfalso. exact (ce_novs g x z y C (ce_one g x z C O) A Ne Ap U).
Qed.
Lemma nc_respects : respects (non_collider_step so).
Proof.
  intros g ns o W C Hn Co. apply pair_nodes in Hn; [|exact W]. args Hn Co. unfold non_collider_test in Co. unfold node_at in Co. cbn [nth_error] in Co. rewrite Hx, Hy in Co. cbn [rbind] in Co.
  destruct (edge_exists g x y) eqn:EE; [injection Co as <-; constructor|]. apply rbind_ok in Co. destruct Co as (zs & _ & Co).
  revert Co. induction zs as [|z zs IH]; cbn [non_collider_loop]; intros Co; [injection Co as <-; constructor|].
  destruct (negb (dmem (nodes g) z)); [discriminate|].
  destruct (only_directed_edge_exists g x z && undirected_edge_exists g z y) eqn:B1.
  { apply andb_true_iff in B1. injection Co as <-. constructor; [|constructor]. destruct (would_collide g y z); [left; reflexivity|right]. split; [reflexivity|].
    cbn. eapply rule1; [exact C|apply B1|apply B1|exact Ne|exact EE]. }
  destruct (only_directed_edge_exists g y z && undirected_edge_exists g z x) eqn:B2; [|exact (IH Co)].
  apply andb_true_iff in B2. injection Co as <-. constructor; [|constructor]. destruct (would_collide g x z); [left; reflexivity|right]. split; [reflexivity|].
  cbn. eapply rule1; [exact C|apply B2|apply B2|congruence|rewrite edge_exists_sym; exact EE].
Qed.
Lemma rule2 g x z y : consistent_extension g E -> only_directed_edge_exists g x z = true -> only_directed_edge_exists g z y = true -> adjacent E x y -> E x y.
Proof.
  intros C O1 O2 [A|A]; [exact A|]. exfalso. apply (no_cycle E (ce_acyclic _ _ C) y x A). apply (reach_step _ E x z); [exact (ce_one g _ _ C O1)|].
  apply (reach_step _ E z y); [exact (ce_one g _ _ C O2)|constructor].
Qed.
Ltac splitb B := rewrite ?andb_true_iff in B; repeat match goal with H : _ /\ _ |- _ => destruct H end.
Lemma triple_respects : respects triple_step.
Proof.
  intros g ns o W C Hn Co. apply pair_nodes in Hn; [|exact W]. args Hn Co. unfold triple_test in Co. unfold node_at in Co. cbn [nth_error] in Co. rewrite Hx, Hy in Co. cbn [rbind] in Co.
  injection Co as <-. cbn [items_of]. apply agree_flat. intros z _. unfold triple_body. destruct (negb _); [constructor|]. apply Forall_app. split; apply agree_if; intros B; splitb B.
  - eapply rule2; [exact C|eassumption|eassumption|]. apply (ce_und g); assumption.
  - eapply rule2; [exact C|eassumption|eassumption|]. apply adjacent_sym, (ce_und g); assumption.
Qed.
Lemma rule3 g x y w z : consistent_extension g E -> negb (edge_exists g y w) = true -> only_directed_edge_exists g y z = true -> only_directed_edge_exists g w z = true ->
  undirected_edge_exists g x y = true -> undirected_edge_exists g x w = true -> undirected_edge_exists g x z = true -> y <> w -> E x z.
Proof.
  intros C Ap O1 O2 U1 U2 U3 Ne. apply negb_true_iff in Ap. destruct (ce_und g x z C U3) as [A|A]; [exact A|]. exfalso. assert (Ac := ce_acyclic _ _ C).
  assert (Q : forall a, only_directed_edge_exists g a z = true -> undirected_edge_exists g x a = true -> E a x).
  { intros a O U. destruct (ce_und g x a C U) as [X|X]; [|exact X]. exfalso. apply (no_cycle E Ac z x A). apply (reach_step _ E x a); [exact X|]. apply (reach_step _ E a z); [exact (ce_one g _ _ C O)|constructor]. }
  exact (ce_novs g y x w C (Q y O1 U1) (Q w O2 U2) Ne Ap U2).
Qed.
Lemma rule4 g x y w z : consistent_extension g E -> negb (edge_exists g y z) = true -> only_directed_edge_exists g y w = true -> only_directed_edge_exists g w z = true ->
  undirected_edge_exists g x y = true -> undirected_edge_exists g x w = true -> undirected_edge_exists g x z = true -> y <> z -> E x z.
Proof.
  intros C Ap O1 O2 U1 U2 U3 Ne. apply negb_true_iff in Ap. destruct (ce_und g x z C U3) as [A|A]; [exact A|]. exfalso. assert (Ac := ce_acyclic _ _ C).
  assert (Y : E y x).
  { destruct (ce_und g x y C U1) as [X|X]; [|exact X]. exfalso. apply (no_cycle E Ac z x A). apply (reach_step _ E x y); [exact X|]. apply (reach_step _ E y w); [exact (ce_one g _ _ C O1)|].
    apply (reach_step _ E w z); [exact (ce_one g _ _ C O2)|constructor]. }
  apply (ce_novs g y x z C Y A Ne Ap U3).
Qed.
Lemma quad_respects : respects (quadruple_step so).
Proof.
  intros g ns o W C Hn Co. apply pair_nodes in Hn; [|exact W]. args Hn Co. unfold quadruple_test in Co. unfold node_at in Co. cbn [nth_error] in Co. rewrite Hx, Hy in Co. cbn [rbind] in Co.
  injection Co as <-. cbn [items_of]. apply agree_flat. intros p _. unfold quadruple_body. destruct p as [|a [|b [|? ?]]]; try constructor.
  apply Forall_app. split; apply agree_if; intros B; splitb B.
  - eapply (rule3 g a x y b C); assumption.
  - apply (rule3 g b x y a C); try assumption; rewrite und_sym; assumption.
Qed.
Lemma fquad_respects : respects (further_quadruple_step so).
Proof.
  intros g ns o W C Hn Co. apply pair_nodes in Hn; [|exact W]. args Hn Co. unfold further_quadruple_test in Co. unfold node_at in Co. cbn [nth_error] in Co. rewrite Hx, Hy in Co. cbn [rbind] in Co.
  injection Co as <-. cbn [items_of]. apply agree_flat. intros p Hp. destruct (combos_two _ _ (proj1 (SO _)) Hp) as (a & b & -> & Nab & _). unfold further_quadruple_body.
  assert (J : forall u v, E v u -> Forall agrees [remove_directed u v []]) by (intros u v H; constructor; [right; split; [reflexivity|exact H]|constructor]).
  assert (Nba : b <> a) by congruence.
  match goal with |- Forall _ (if ?b then _ else _) => destruct b eqn:B1 end; [apply J; splitb B1; eapply (rule4 g x a y b C); assumption|].
  match goal with |- Forall _ (if ?b then _ else _) => destruct b eqn:B2 end; [apply J; splitb B2; eapply (rule4 g x b y a C); assumption|].
  match goal with |- Forall _ (if ?b then _ else _) => destruct b eqn:B3 end; [apply J; splitb B3; eapply (rule4 g y a x b C); try assumption; rewrite und_sym; assumption|].
  match goal with |- Forall _ (if ?b then _ else _) => destruct b eqn:B4 end; [apply J; splitb B4; eapply (rule4 g y b x a C); try assumption; rewrite und_sym; assumption|]. constructor.
Qed.
Lemma rules_respect : Forall respects (orientation_steps so).
Proof. apply Forall_cons; [apply nc_respects|]. apply Forall_cons; [apply triple_respects|]. apply Forall_cons; [apply quad_respects|]. apply Forall_cons; [apply fquad_respects|]. apply Forall_nil. Qed.
End Ext.

Theorem loop_keeps_extension E so fuel P g g' r : set_order so -> WF g -> consistent_extension g E ->
  run_loop fuel P no_hooks exit_on_no_actions (orientation_steps so) 0 None g = (g', r) -> consistent_extension g' E.
Proof. intros SO W C R. eapply (loop_extends E P _ (orientation_rules_ok so) (rules_respect E so SO)); eassumption. Qed.
