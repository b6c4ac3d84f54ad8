(* What the shipped steps propose. *)
From Verif Require Import Base PyDict PyDictFacts Graph GraphSpec Actions ActionSpec Generators Rules IndepTests Pipeline PipeSpec.

Lemma rbind_ok {A B} (r : res A) (f : A -> res B) b : rbind r f = Ok b -> exists a, r = Ok a /\ f a = Ok b.
Proof. destruct r as [a|e]; cbn; [eauto|discriminate]. Qed.

Lemma rflat_In {A B} (f : A -> res (list B)) l out b : rflat f l = Ok out -> In b out -> exists a x, In a l /\ f a = Ok x /\ In b x.
Proof.
  revert out; induction l as [|a l IH]; intros out E Hb; cbn in E; [injection E as <-; destruct Hb|].
  apply rbind_ok in E. destruct E as (x & E1 & E). apply rbind_ok in E. destruct E as (y & E2 & E). injection E as <-.
  apply in_app_iff in Hb. destruct Hb as [Hb|Hb]; [exists a, x; cbn; auto|]. destruct (IH _ E2 Hb) as (a' & x' & H1 & H2 & H3).
  exists a', x'; cbn; auto.
Qed.
Lemma rflat_In' {A B} (f : A -> res (list B)) l out a : rflat f l = Ok out -> In a l -> exists x, f a = Ok x /\ forall b, In b x -> In b out.
Proof.
  revert out; induction l as [|a' l IH]; intros out E Ha; [destruct Ha|]. cbn in E.
  apply rbind_ok in E. destruct E as (x & E1 & E). apply rbind_ok in E. destruct E as (y & E2 & E). injection E as <-.
  destruct Ha as [->|Ha].
  - exists x; split; [exact E1|]. intros b Hb; apply in_app_iff; auto.
  - destruct (IH _ E2 Ha) as (x' & H1 & H2). exists x'; split; [exact H1|]. intros b Hb; apply in_app_iff; auto.
Qed.

Definition act_in (l : list taction) (s : step) : Prop :=
  forall g ns us o i, s_proc s g ns us = Ok o -> In i (items_of o) -> In (t_act i) l.

Ltac inv_ok E :=
  repeat match type of E with
  | rbind _ _ = Ok _ => let a := fresh "a" in let E1 := fresh "E" in apply rbind_ok in E; destruct E as (a & E1 & E)
  | (if ?b then _ else _) = Ok _ => let B := fresh "B" in destruct b eqn:B
  | Err _ = Ok _ => discriminate E
  end.

Lemma pearson_acts N : act_in [UPDATE_EDGE] (calculate_pearson N).
Proof.
  intros g ns us o i E Hi. cbn in E. unfold pearson_process in E. inv_ok E. destruct a1; [|discriminate]. injection E as <-.
  cbn in Hi. destruct Hi as [<-|[]]. cbn; auto.
Qed.

(* an independence test removes an undirected edge or does nothing *)
Definition test_result (i : tresult) : Prop := exists x y zs, i = separated x y zs \/ i = not_separated x y zs.
Lemma corr_results N g ns us o i : correlation_test N g ns us = Ok o -> In i (items_of o) -> test_result i.
Proof.
  unfold correlation_test; intros E Hi. inv_ok E. injection E as <-. cbn in Hi. destruct Hi as [<-|[]]. do 3 eexists. destruct a3; [left|right]; reflexivity.
Qed.
Lemma partial_loop_results N g ns : forall l del acc o, Forall test_result acc -> partial_loop N g ns l del acc = Ok o -> Forall test_result (items_of o).
Proof.
  induction l as [|z l IH]; intros del acc o F E; cbn [partial_loop] in E; [injection E as <-; exact F|].
  destruct (filter _ ns) as [|x [|y r]]; [discriminate..|]. destruct (negb _ || _); [eapply IH; eassumption|].
  destruct (rbind _ _) as [[[a b] c]|[]]; try discriminate; try (injection E as <-; constructor). inv_ok E.
  destruct a3 as [[]|]; [| |injection E as <-; constructor].
  - eapply IH; [|exact E]. apply Forall_app; split; [exact F|]. constructor; [|constructor]. do 3 eexists; left; reflexivity.
  - eapply IH; [|exact E]. apply Forall_app; split; [exact F|]. constructor; [|constructor]. do 3 eexists; right; reflexivity.
Qed.
Lemma partial_results N g ns us o i : partial_test N g ns us = Ok o -> In i (items_of o) -> test_result i.
Proof.
  unfold partial_test; intros E Hi. destruct (forallb _ ns); [|discriminate]. apply partial_loop_results in E; [|constructor].
  rewrite Forall_forall in E; auto.
Qed.
Lemma matrix_results so N g ns us o i : matrix_test so N g ns us = Ok o -> In i (items_of o) -> test_result i.
Proof.
  unfold matrix_test; intros E Hi. inv_ok E; try (injection E as <-; destruct Hi; fail). destruct a2 as [b|]; [|injection E as <-; destruct Hi].
  injection E as <-. cbn in Hi. destruct Hi as [<-|[]]. do 3 eexists. destruct b; [left|right]; reflexivity.
Qed.
Lemma regression_results so N g ns us o i : regression_test so N g ns us = Ok o -> In i (items_of o) -> test_result i.
Proof.
  unfold regression_test; intros E Hi. inv_ok E; try (injection E as <-; destruct Hi; fail).
  injection E as <-. cbn in Hi. destruct Hi as [<-|[]]. do 3 eexists. destruct a2; [left|right]; reflexivity.
Qed.
Lemma test_result_act i : test_result i -> In (t_act i) [REMOVE_EDGE_UNDIRECTED; DO_NOTHING].
Proof. intros (x & y & zs & [->| ->]); cbn; auto. Qed.

Lemma correlation_acts N : act_in [REMOVE_EDGE_UNDIRECTED; DO_NOTHING] (correlation_step N).
Proof. intros g ns us o i E Hi. exact (test_result_act _ (corr_results N g ns us o i E Hi)). Qed.
Lemma partial_acts par N : act_in [REMOVE_EDGE_UNDIRECTED; DO_NOTHING] (partial_step par N).
Proof. intros g ns us o i E Hi. exact (test_result_act _ (partial_results N g ns us o i E Hi)). Qed.
Lemma matrix_acts so min N : act_in [REMOVE_EDGE_UNDIRECTED; DO_NOTHING] (matrix_step so min N).
Proof. intros g ns us o i E Hi. exact (test_result_act _ (matrix_results so N g ns us o i E Hi)). Qed.
Lemma matrix_par_acts so sh N : act_in [REMOVE_EDGE_UNDIRECTED; DO_NOTHING] (matrix_step_parallel so sh N).
Proof. intros g ns us o i E Hi. exact (test_result_act _ (matrix_results so N g ns us o i E Hi)). Qed.
Lemma matrix_sampled_acts so sh coin N : act_in [REMOVE_EDGE_UNDIRECTED; DO_NOTHING] (matrix_step_sampled so sh coin N).
Proof. intros g ns us o i E Hi. exact (test_result_act _ (matrix_results so N g ns us o i E Hi)). Qed.

(* ---- orientation rules ---- *)
Definition orient (i : tresult) : Prop := t_act i = REMOVE_EDGE_DIRECTED \/ t_act i = DO_NOTHING.

(* ColliderTest proposes to remove z -> x and z -> y *)
Lemma collider_inv st so g ns us o : collider_test st so g ns us = Ok o ->
  exists x y, node_at g ns 0 = Ok x /\ node_at g ns 1 = Ok y /\
    ((undirected_edge_exists g x y = true /\ o = None) \/
     (undirected_edge_exists g x y = false /\ exists zs acts rs, o = Some rs /\ common_keys so g x y = Ok zs /\
        retrieve_edge_history g x y (Some REMOVE_EDGE_UNDIRECTED) = Ok acts /\ rflat (collider_body st us acts g x y) zs = Ok rs)).
Proof.
  unfold collider_test; intros E. inv_ok E; exists a, a0; split; try assumption; split; try assumption.
  - left. injection E as <-; auto.
  - right. split; [exact B|]. injection E as <-. eauto 8.
Qed.

Lemma collider_body_inv st us acts g x y z rs : collider_body st us acts g x y z = Ok rs ->
  exists seps, separators acts = Ok seps /\ dmem (nodes g) z = true /\
  ((In z seps /\ rs = []) \/
   (~ In z seps /\ exists ux uy, filter_unapplied_actions us x z = Ok ux /\ filter_unapplied_actions us y z = Ok uy /\
      let both := [remove_directed z x (between x y z); remove_directed z y (between x y z)] in
      ((ux = [] /\ uy = [] /\ rs = both) \/
       ((ux <> [] \/ uy <> []) /\
        rs = match st with
             | KEEP_FIRST => (match uy with [] => [] | _ => [mkT z y DO_NOTHING (Some (conflict x y z))] end) ++
                             (match ux with [] => [] | _ => [mkT z x DO_NOTHING (Some (conflict x y z))] end)
             | KEEP_LAST => generate_restores ux ++ generate_restores uy ++ both
             | OtherStrategy => []
             end)))).
Proof.
  unfold collider_body; intros E. destruct (dmem (nodes g) z) eqn:D; cbn [negb] in E; [|discriminate].
  apply rbind_ok in E. destruct E as (seps & E1 & E). exists seps. split; [exact E1|]. split; [reflexivity|].
  destruct (mem z seps) eqn:M; [left; split; [apply mem_In; exact M|congruence]|]. right. split; [apply mem_not_In; exact M|].
  apply rbind_ok in E. destruct E as (ux & E2 & E). apply rbind_ok in E. destruct E as (uy & E3 & E). exists ux, uy.
  split; [exact E2|]. split; [exact E3|]. cbn zeta. destruct uy as [|b uy], ux as [|a ux].
  - left. injection E as <-. auto.
  - right. split; [left; discriminate|]. destruct st; injection E as <-; reflexivity.
  - right. split; [right; discriminate|]. destruct st; injection E as <-; reflexivity.
  - right. split; [right; discriminate|]. destruct st; injection E as <-; reflexivity.
Qed.

Lemma collider_acts st so : st <> KEEP_LAST -> act_in [REMOVE_EDGE_DIRECTED; DO_NOTHING] (collider_step st so).
Proof.
  intros NK g ns us o i E Hi. cbn in E. apply collider_inv in E. destruct E as (x & y & _ & _ & [[_ ->]|(_ & zs & acts & rs & -> & _ & _ & F)]); [destruct Hi|].
  cbn in Hi. destruct (rflat_In _ _ _ _ F Hi) as (z & l & _ & B & Hl). apply collider_body_inv in B.
  destruct B as (seps & _ & _ & [[_ ->]|(_ & ux & uy & _ & _ & [(_ & _ & ->)|(_ & ->)])]); [destruct Hl| |].
  - destruct Hl as [<-|[<-|[]]]; cbn; auto.
  - destruct st; [|congruence|destruct Hl]. apply in_app_iff in Hl. destruct Hl as [Hl|Hl].
    + destruct uy; [destruct Hl|]. destruct Hl as [<-|[]]; cbn; auto.
    + destruct ux; [destruct Hl|]. destruct Hl as [<-|[]]; cbn; auto.
Qed.

Lemma non_collider_loop_inv g x y : forall zs o, non_collider_loop g x y zs = Ok o ->
  o = None \/ exists z, In z zs /\
    ((only_directed_edge_exists g x z = true /\ undirected_edge_exists g z y = true /\
      o = Some [if would_collide g y z then mkT y z DO_NOTHING (Some (conflict x y z)) else remove_directed y z (between x y z)]) \/
     (only_directed_edge_exists g y z = true /\ undirected_edge_exists g z x = true /\
      o = Some [if would_collide g x z then mkT x z DO_NOTHING (Some (conflict x y z)) else remove_directed x z (between x y z)])).
Proof.
  induction zs as [|z zs IH]; intros o E; cbn [non_collider_loop] in E; [left; congruence|].
  destruct (negb (dmem (nodes g) z)); [discriminate|]. destruct (only_directed_edge_exists g x z && undirected_edge_exists g z y) eqn:B1.
  - right; exists z; split; [left; reflexivity|]. left. apply andb_true_iff in B1. destruct B1; injection E as <-; auto.
  - destruct (only_directed_edge_exists g y z && undirected_edge_exists g z x) eqn:B2.
    + right; exists z; split; [left; reflexivity|]. right. apply andb_true_iff in B2. destruct B2; injection E as <-; auto.
    + destruct (IH _ E) as [->|(z' & Hz & Hc)]; [left; reflexivity|]. right; exists z'; split; [right; exact Hz|exact Hc].
Qed.
Lemma non_collider_inv so g ns us o : non_collider_test so g ns us = Ok o ->
  exists x y, node_at g ns 0 = Ok x /\ node_at g ns 1 = Ok y /\
    ((edge_exists g x y = true /\ o = None) \/
     (edge_exists g x y = false /\ exists zs, common_keys so g x y = Ok zs /\ non_collider_loop g x y zs = Ok o)).
Proof.
  unfold non_collider_test; intros E. inv_ok E; exists a, a0; split; try assumption; split; try assumption.
  - left. injection E as <-; auto.
  - right. eauto.
Qed.
Lemma non_collider_acts so : act_in [REMOVE_EDGE_DIRECTED; DO_NOTHING] (non_collider_step so).
Proof.
  intros g ns us o i E Hi. cbn in E. apply non_collider_inv in E. destruct E as (x & y & _ & _ & [[_ ->]|(_ & zs & _ & L)]); [destruct Hi|].
  apply non_collider_loop_inv in L. destruct L as [->|(z & _ & [(_ & _ & ->)|(_ & _ & ->)])]; [destruct Hi|..];
    cbn in Hi; destruct Hi as [<-|[]]; destruct (would_collide _ _ _); cbn; auto.
Qed.

Lemma triple_inv g ns us o i : triple_test g ns us = Ok o -> In i (items_of o) ->
  exists x y z, node_at g ns 0 = Ok x /\ node_at g ns 1 = Ok y /\ In z (dkeys (nodes g)) /\ undirected_edge_exists g x y = true /\
    ((only_directed_edge_exists g x z = true /\ only_directed_edge_exists g z y = true /\ i = remove_directed y x (between x y z)) \/
     (only_directed_edge_exists g y z = true /\ only_directed_edge_exists g z x = true /\ i = remove_directed x y (between x y z))).
Proof.
  unfold triple_test; intros E Hi. inv_ok E. injection E as <-. cbn in Hi. apply in_flat_map in Hi. destruct Hi as (z & Hz & Hi).
  exists a, a0, z. split; [assumption|]. split; [assumption|]. split; [exact Hz|]. unfold triple_body in Hi.
  destruct (negb _); [destruct Hi|]. apply in_app_iff in Hi. destruct Hi as [Hi|Hi].
  - destruct (undirected_edge_exists g a a0 && only_directed_edge_exists g a z && only_directed_edge_exists g z a0) eqn:B; [|destruct Hi].
    destruct Hi as [<-|[]]. rewrite !andb_true_iff in B. split; [tauto|left; tauto].
  - destruct (undirected_edge_exists g a a0 && only_directed_edge_exists g a0 z && only_directed_edge_exists g z a) eqn:B; [|destruct Hi].
    destruct Hi as [<-|[]]. rewrite !andb_true_iff in B. split; [tauto|right; tauto].
Qed.
Lemma triple_acts : act_in [REMOVE_EDGE_DIRECTED; DO_NOTHING] triple_step.
Proof.
  intros g ns us o i E Hi. destruct (triple_inv g ns us o i E Hi) as (x & y & z & _ & _ & _ & _ & [(_ & _ & ->)|(_ & _ & ->)]); cbn; auto.
Qed.

Lemma quadruple_inv so g ns us o i : quadruple_test so g ns us = Ok o -> In i (items_of o) ->
  exists y w x z, node_at g ns 0 = Ok y /\ node_at g ns 1 = Ok w /\ (In [x; z] (combos 2 (shared_adjacent so g y w)) \/ In [z; x] (combos 2 (shared_adjacent so g y w))) /\
    edge_exists g y w = false /\ only_directed_edge_exists g y z = true /\ only_directed_edge_exists g w z = true /\
    undirected_edge_exists g x y = true /\ undirected_edge_exists g x w = true /\ undirected_edge_exists g x z = true /\ i = remove_directed z x [].
Proof.
  unfold quadruple_test; intros E Hi. inv_ok E. injection E as <-. cbn in Hi. apply in_flat_map in Hi. destruct Hi as (p & Hp & Hi).
  exists a, a0. destruct p as [|x [|z [|]]]; try destruct Hi. unfold quadruple_body in Hi. apply in_app_iff in Hi. destruct Hi as [Hi|Hi].
  - exists x, z. destruct (negb (edge_exists g a a0) && _ && _ && _ && _ && _) eqn:B; [|destruct Hi]. destruct Hi as [<-|[]].
    rewrite !andb_true_iff, negb_true_iff in B. tauto.
  - exists z, x. destruct (negb (edge_exists g a a0) && _ && _ && _ && _ && _) eqn:B; [|destruct Hi]. destruct Hi as [<-|[]].
    rewrite !andb_true_iff, negb_true_iff in B. 
    assert (S : forall u v, undirected_edge_exists g u v = undirected_edge_exists g v u) by (intros; apply andb_comm).
    rewrite (S z a), (S z a0), (S z x). tauto.
Qed.
Lemma quadruple_acts so : act_in [REMOVE_EDGE_DIRECTED; DO_NOTHING] (quadruple_step so).
Proof.
  intros g ns us o i E Hi. destruct (quadruple_inv so g ns us o i E Hi) as (y & w & x & z & H). decompose [and] H; subst i; cbn; auto.
Qed.

(* a - c undirected edges from a to b, c, d; b and d not adjacent; b -> c -> d: remove d -> a.
   Here (a, c) = (x, w) or (w, x) *)
Lemma further_quadruple_inv so g ns us o i : further_quadruple_test so g ns us = Ok o -> In i (items_of o) ->
  exists x w a c b d, node_at g ns 0 = Ok x /\ node_at g ns 1 = Ok w /\
    ((a = x /\ c = w) \/ (a = w /\ c = x)) /\
    (In [b; d] (combos 2 (shared_adjacent so g x w)) \/ In [d; b] (combos 2 (shared_adjacent so g x w))) /\
    edge_exists g b d = false /\ undirected_edge_exists g a d = true /\ undirected_edge_exists g a c = true /\
    undirected_edge_exists g a b = true /\ only_directed_edge_exists g b c = true /\ only_directed_edge_exists g c d = true /\
    i = remove_directed d a [].
Proof.
  unfold further_quadruple_test; intros E Hi. inv_ok E. injection E as <-. cbn in Hi. apply in_flat_map in Hi. destruct Hi as (p & Hp & Hi).
  destruct p as [|y [|z [|]]]; try destruct Hi.
  assert (S : forall u v, undirected_edge_exists g u v = undirected_edge_exists g v u) by (intros; apply andb_comm).
  assert (NE : forall u v, edge_exists g u v = edge_exists g v u).
  { intros u v. unfold edge_exists. destruct (dmem (nodes g) u), (dmem (nodes g) v); cbn [negb]; try reflexivity. 
    destruct (dmem2 (edges g) u v && _), (dmem2 (edges g) v u && _); reflexivity. }
  unfold further_quadruple_body in Hi. exists a, a0. 
  destruct (negb (edge_exists g y z) && undirected_edge_exists g a z && _ && _ && _ && _) eqn:B1.
  - destruct Hi as [<-|[]]. rewrite !andb_true_iff, negb_true_iff in B1. exists a, a0, y, z. tauto.
  - destruct (negb (edge_exists g z y) && undirected_edge_exists g a y && _ && _ && _ && _) eqn:B2.
    + destruct Hi as [<-|[]]. rewrite !andb_true_iff, negb_true_iff in B2. exists a, a0, z, y. tauto.
    + destruct (negb (edge_exists g y z) && undirected_edge_exists g a0 z && _ && _ && _ && _) eqn:B3.
      * destruct Hi as [<-|[]]. rewrite !andb_true_iff, negb_true_iff in B3. exists a0, a, y, z. rewrite (S a0 a). tauto.
      * destruct (negb (edge_exists g z y) && undirected_edge_exists g a0 y && _ && _ && _ && _) eqn:B4; [|destruct Hi].
        destruct Hi as [<-|[]]. rewrite !andb_true_iff, negb_true_iff in B4. exists a0, a, z, y. rewrite (S a0 a). tauto.
Qed.
Lemma further_quadruple_acts so : act_in [REMOVE_EDGE_DIRECTED; DO_NOTHING] (further_quadruple_step so).
Proof.
  intros g ns us o i E Hi. destruct (further_quadruple_inv so g ns us o i E Hi) as (x & w & a & c & b & d & H). decompose [and] H; subst i; cbn; auto.
Qed.

Lemma effect_acts N : act_in [UPDATE_EDGE_DIRECTED] (effect_step N).
Proof.
  intros g ns us o i E Hi. cbn in E. unfold effect_process in E. inv_ok E; [injection E as <-; destruct Hi|]. destruct a1; [|discriminate]. injection E as <-.
  cbn in Hi. destruct Hi as [<-|[]]. cbn; auto.
Qed.

Lemma act_in_never l s : act_in l s -> ~ In RESTORE_EDGE l -> ~ In RESTORE_EDGE_DIRECTED l -> never_restores s.
Proof. intros A N1 N2 g ns us o i E Hi [X|X]; specialize (A _ _ _ _ _ E Hi); rewrite X in A; contradiction. Qed.

Ltac never H := eapply act_in_never; [apply H|cbn; intuition discriminate|cbn; intuition discriminate].
Lemma orientation_never so p s : In p (orientation_rules so) -> In s (steps_of p) -> never_restores s.
Proof.
  intros [<-|[<-|[]]] Hs; cbn in Hs.
  - destruct Hs as [<-|[]]. never (collider_acts KEEP_FIRST so ltac:(discriminate)).
  - destruct Hs as [<-|[<-|[<-|[<-|[]]]]]; [never (non_collider_acts so)|never triple_acts|never (quadruple_acts so)|never (further_quadruple_acts so)].
Qed.
Lemma effect_never N : never_restores (effect_step N). Proof. never (effect_acts N). Qed.
Lemma pearson_never N : never_restores (calculate_pearson N). Proof. never (pearson_acts N). Qed.
Lemma correlation_never N : never_restores (correlation_step N). Proof. never (correlation_acts N). Qed.
Lemma partial_never par N : never_restores (partial_step par N). Proof. never (partial_acts par N). Qed.
Lemma matrix_never so min N : never_restores (matrix_step so min N). Proof. never (matrix_acts so min N). Qed.
Lemma matrix_par_never so sh N : never_restores (matrix_step_parallel so sh N). Proof. never (matrix_par_acts so sh N). Qed.
Lemma matrix_sampled_never so sh coin N : never_restores (matrix_step_sampled so sh coin N). Proof. never (matrix_sampled_acts so sh coin N). Qed.

Lemma tail_never so N sk p s : (forall p s, In p sk -> In s (steps_of p) -> never_restores s) ->
  In p (sk ++ orientation_rules so ++ [PStep (effect_step N)]) -> In s (steps_of p) -> never_restores s.
Proof.
  intros K Hp Hs. apply in_app_iff in Hp. destruct Hp as [Hp|Hp]; [eapply K; eassumption|]. apply in_app_iff in Hp. destruct Hp as [Hp|[<-|[]]].
  - eapply orientation_never; eassumption.
  - destruct Hs as [<-|[]]. apply effect_never.
Qed.
Lemma pc_never so N p s : In p (pc so N) -> In s (steps_of p) -> never_restores s.
Proof.
  apply tail_never. intros q t Hq Ht. repeat (destruct Hq as [<-|Hq]); cbn in Ht; try destruct Hq; destruct Ht as [<-|[]];
    first [apply pearson_never|apply correlation_never|apply partial_never|apply matrix_never].
Qed.
Lemma pc_classic_never so N p s : In p (pc_classic so N) -> In s (steps_of p) -> never_restores s.
Proof.
  apply tail_never. intros q t Hq Ht. repeat (destruct Hq as [<-|Hq]); cbn in Ht; try destruct Hq; destruct Ht as [<-|[]];
    first [apply pearson_never|apply correlation_never|apply partial_never|apply matrix_never].
Qed.
Lemma pc_stable_never so N p s : In p (pc_stable so N) -> In s (steps_of p) -> never_restores s.
Proof.
  apply tail_never. intros q t [<-|[<-|[]]] Ht; cbn in Ht.
  - destruct Ht as [<-|[]]; apply pearson_never.
  - destruct Ht as [<-|[<-|[<-|[]]]]; [apply correlation_never|apply partial_never|apply matrix_never].
Qed.
Lemma pc_parallel_never so sh sh' coin N p s : In p (pc_parallel so sh sh' coin N) -> In s (steps_of p) -> never_restores s.
Proof.
  apply tail_never. intros q t Hq Ht. repeat (destruct Hq as [<-|Hq]); cbn in Ht; try destruct Hq; destruct Ht as [<-|[]];
    first [apply pearson_never|apply correlation_never|apply partial_never|apply matrix_par_never|apply matrix_sampled_never].
Qed.
