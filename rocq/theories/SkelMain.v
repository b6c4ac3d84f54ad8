(* The skeleton phase of the PC pipelines under perfect tests. *)
From Verif Require Import Base PyDict PyDictFacts Graph GraphSpec GraphFacts GraphInv GraphInv2 GraphInv3 GraphQ GraphMain
  GraphPaths PathSpec Actions ActionSpec ActionFacts ActionMain Generators GenSpec GenFacts Rules IndepTests Pipeline Parallel PipeFacts RuleFacts
  Construct ConstructSpec ConstructFacts Dag DagFacts DagSep SkelSpec Rows Serve SkelFacts SkelStart SkelSteps SkelMatrix.
Open Scope string_scope.
Open Scope list_scope.

(* one ordinary pipeline step *)
Lemma run_pstep_ok fuel P s g (Inv Post : graph -> Prop) :
  tri Inv noE (execute_step P no_hooks s false) g (fun _ g => Post g) ->
  (forall g h, Inv g -> Inv (with_ahist g h)) -> keeps Inv noE purge_soft_deleted_edges (fun _ _ => True) ->
  (forall g h, Post g -> Post (with_ahist g h)) -> (forall g, Inv g -> Post g -> Post (fst (purge_soft_deleted_edges g))) ->
  exists g', run_pstep fuel P no_hooks (PStep s) g = (g', Ok tt) /\ Inv g' /\ Post g'.
Proof.
  intros [I1 R1] IL IP PL PP. cbn [run_pstep]. unfold bind. destruct (execute_step P no_hooks s false g) as [g1 [a|e]]; cbn [fst snd] in *; [|destruct R1].
  unfold log_step. set (g2 := with_ahist g1 _). assert (I2 : Inv g2) by (apply IL; exact I1). assert (P2 : Post g2) by (apply PL; exact R1).
  assert (P3 := PP g2 I2 P2). destruct (IP g2 I2) as [I3 R3]. destruct (purge_soft_deleted_edges g2) as [g3 [[]|e]]; cbn [fst snd] in *; [|destruct R3].
  exists g3. auto.
Qed.
Lemma pipeline_cons fuel P H p l g g1 : run_pstep fuel P H p g = (g1, Ok tt) -> execute_pipeline fuel P H (p :: l) g = execute_pipeline fuel P H l g1.
Proof. intros R. cbn [execute_pipeline]. unfold bind. rewrite R. reflexivity. Qed.

(* weaker invariants for generators and calls *)
Lemma block_wins_mono (I1 I2 T : graph -> Prop) win s ch f : (forall g, I2 g -> I1 g) -> block_wins I1 T win s ch f -> block_wins I2 T win s ch f.
Proof.
  intros H B g I. destruct (B g (H g I)) as [t|W]; [left; exact t|]. right. intros es Es. destruct (W es Es) as (e & ns & A1 & A2 & A3).
  exists e, ns. split; [exact A1|]. split; [exact A2|]. intros g' us I'. exact (A3 g' us (H g' I')).
Qed.
Lemma good_block_mono (I1 I2 : graph -> Prop) Er A ch f : (forall g, I2 g -> I1 g) -> good_block I1 Er A ch f -> good_block I2 Er A ch f.
Proof. intros H B g I. exact (B g (H g I)). Qed.
Lemma good_calls_mono (I1 I2 : graph -> Prop) Er Q A s : (forall g, I2 g -> I1 g) -> good_calls I1 Er Q A s -> good_calls I2 Er Q A s.
Proof. intros H B g ns us I. exact (B g ns us (H g I)). Qed.

Section Main.
Variable g0 : graph.
Variable D : list (id * id).
Variable N : numerics.
Variable c : id -> id -> Z.
Variable so : list id -> list id.
Hypothesis CP : complete g0.
Hypothesis DG : dag_over (dkeys (nodes g0)) D.
Hypothesis PT : perfect_tests N (values_of g0) (dkeys (nodes g0)) D c.
Hypothesis SO : set_order so.
Notation node := (SkelFacts.node g0).
Notation E := (edge_in D).
Notation good_sep := (good_sep g0 D).
Notation sk := (skel g0 D c good_sep).
Notation Q := (proposal g0 good_sep).

Definition pars (x : id) : list id := nodup string_dec (map fst (filter (fun e => eqb (snd e) x) D)).
Lemma pars_In x z : In z (pars x) <-> E z x.
Proof.
  unfold pars, edge_in. rewrite nodup_In, in_map_iff. split.
  - intros ([a b] & <- & H). apply filter_In in H. destruct H as [H B]. cbn in *. apply eqb_true in B. subst. exact H.
  - intros H. exists (z, x). split; [reflexivity|]. apply filter_In. split; [exact H|apply eqb_refl].
Qed.
Definition hard (x y : id) : Prop := node x /\ node y /\ x <> y /\ ~ adjacent E x y /\ ~ reach E x y.
Lemma pars_sep x y : hard x y -> dsep D x y (pars x).
Proof. intros (_ & _ & Ne & NA & NR). apply (parents_separate E (do_acyclic _ _ DG) x y); [exact Ne|exact NA|exact NR|apply pars_In]. Qed.
Lemma pars_NoDup x y : hard x y -> NoDup (x :: y :: pars x).
Proof.
  intros (_ & _ & Ne & NA & NR). constructor; [|constructor; [|apply NoDup_nodup]].
  - intros [->|H]; [congruence|]. apply pars_In in H. exact (edge_loop g0 D DG x H).
  - intros H. apply pars_In in H. apply NA. right; exact H.
Qed.
Lemma pars_nodes x y z : hard x y -> In z (x :: y :: pars x) -> node z.
Proof. intros (Hx & Hy & _) [<-|[<-|H]]; [exact Hx|exact Hy|]. apply pars_In in H. apply (edge_nodes g0 D DG z x H). Qed.

Definition upto (B : nat -> Prop) (g : graph) : Prop := forall x y, hard x y -> B (List.length (pars x)) -> gone x y g.
Lemma upto_log B g h : upto B g -> upto B (with_ahist g h).
Proof. intros U x y Hh HB. exact (U x y Hh HB). Qed.
Lemma upto_purge B s g : skel g0 D c s g -> upto B g -> upto B (fst (purge_soft_deleted_edges g)).
Proof. intros K U x y Hh HB. eapply gone_purge; [exact K|exact (U x y Hh HB)]. Qed.

Definition act_sk := act_skel g0 D c good_sep (good_sym g0 D) (good_nadj g0 D DG).
Definition act_go := act_gone g0 D c good_sep (good_sym g0 D) (good_nadj g0 D DG).
Definition act_rm := act_removes g0 D c good_sep (good_sym g0 D) (good_nadj g0 D DG).

(* a step that proposes only removals of separated pairs keeps what is gone *)
Lemma step_keeps_gone P s A : (s_parallel s = true -> pool_runner no_hooks P) -> good_step sk noE Q A s ->
  forall g, sk g -> tri sk noE (execute_step P no_hooks s false) g (fun a g' => good2 Q a /\ forall x y, gone x y g -> gone x y g').
Proof.
  intros HP [C G] g K. apply tri_and; [exact (keeps_step sk noE Q no_hooks (no_hooks_good _ _ _) false (fun _ => act_sk) A P s HP (conj C G) g K)|].
  assert (X := tri_all (K := id * id) sk noE (execute_step P no_hooks s false) g (fun p => gone (fst p) (snd p) g) (fun p _ g' => gone (fst p) (snd p) g')).
  destruct X as [X1 X2].
  - eapply tri_weaken; [exact (keeps_step sk noE Q no_hooks (no_hooks_good _ _ _) false (fun _ => act_sk) A P s HP (conj C G) g K)|auto].
  - intros [x y] Gx. cbn [fst snd] in *. 
    assert (GI : good_step (InvT sk (gone x y)) noE Q A s).
    { split; [intros g1 ns us [K1 _]; exact (C g1 ns us K1)|]. intros g1 [K1 _]. eapply Forall_impl; [|exact (G g1 K1)]. intros f Hf g2 [K2 _]. exact (Hf g2 K2). }
    destruct (keeps_step (InvT sk (gone x y)) noE Q no_hooks (no_hooks_good _ _ _) false (fun _ => act_go x y) A P s HP GI g (conj K Gx)) as [[Y1 Y2] Y3].
    split; [exact Y1|]. destruct (snd _); [exact Y2|exact Y3].
  - split; [exact X1|]. destruct (snd _); [|exact X2]. intros x y Gx. exact (X2 (x, y) Gx).
Qed.

(* ---- the matrix step, not parallel ---- *)
Section Seq.
Variable P : runner.
Lemma mlike min : matrix_like N so (matrix_step so min N). Proof. split; reflexivity. Qed.
Lemma matrix_goodstep min : 3 <= min -> good_step sk noE Q (test_ok g0) (matrix_step so min N).
Proof.
  intros Hm. split; [apply (matrix_calls g0 D N c so PT SO); apply mlike|]. intros g K.
  exact (neigh_good g0 D c so SO None Logic.I true min g Hm K).
Qed.
(* any invariant between the graph and sk, dry or not *)
Section Any.
Variable dry : bool.
Variable Inv : graph -> Prop.
Hypothesis Isk : forall g, Inv g -> sk g.
Hypothesis HI : dry = false -> forall i, Q i -> keeps Inv noE (apply_action i) (fun _ _ => True).
Hypothesis HT : dry = false -> forall u v i, Q i -> keeps (InvT Inv (gone u v)) noE (apply_action i) (fun _ _ => True).
Hypothesis HW : dry = false -> forall u v i g, Q i -> removes u v i -> Inv g -> gone u v (fst (apply_action i g)).
Lemma matrix_serve min g : 3 <= min -> Inv g -> tri Inv noE (execute_step P no_hooks (matrix_step so min N) dry) g
  (fun a g => good2 Q a /\ forall x y, hard x y -> min <= List.length (pars x) + 2 -> served (gone x y) (removes x y) dry a g).
Proof.
  intros Hm I. assert (K := Isk g I). destruct (matrix_goodstep min Hm) as [C G]. assert (Gg := G g K). cbn in Gg.
  assert (C' : good_calls Inv noE Q (test_ok g0) (matrix_step so min N)) by exact (good_calls_mono sk Inv noE Q _ _ Isk C).
  assert (G' : Forall (good_block Inv noE (test_ok g0) true) (s_gen (matrix_step so min N) g)).
  { eapply Forall_impl; [|exact Gg]. intros f Hf. exact (good_block_mono sk Inv noE _ _ f Isk Hf). }
  assert (ST : tri Inv noE (execute_step P no_hooks (matrix_step so min N) dry) g (fun a _ => good2 Q a)).
  { unfold execute_step. cbn [matrix_step s_parallel s_chunked]. apply tri_gget.
    exact (keeps_blocks Inv noE Q no_hooks (no_hooks_good _ _ _) dry HI (test_ok g0) (matrix_step so min N) _ C' G' g I). }
  apply tri_and; [exact ST|].
  assert (X := tri_all (K := id * id) Inv noE (execute_step P no_hooks (matrix_step so min N) dry) g
    (fun p => hard (fst p) (snd p) /\ min <= List.length (pars (fst p)) + 2) (fun p a g => served (gone (fst p) (snd p)) (removes (fst p) (snd p)) dry a g)).
  destruct X as [X1 X2]; [eapply tri_weaken; [exact ST|auto]| |].
  - intros [x y] [Hh Hk]. cbn [fst snd] in *. unfold execute_step. cbn [matrix_step s_parallel s_chunked]. apply tri_gget.
    destruct (directed_edge_exists g x y) eqn:L.
    + destruct (neigh_serves g0 D N c so PT SO None Logic.I (matrix_step so min N) true min g x y (pars x) (mlike min) Hm K L
        (pars_NoDup x y Hh) (fun z => pars_nodes x y z Hh) Hk (fun z => proj1 (pars_In x z)) (pars_sep x y Hh)) as (f & Hf & Wf).
      eapply tri_weaken; [apply (blocks_serve Inv (gone x y) noE Q (removes x y) dry (test_ok g0) HI (fun h => HT h x y) (fun h => HW h x y) (matrix_step so min N) C' _ f G' Hf)|].
      * exact (block_wins_mono sk Inv _ _ _ _ f Isk Wf).
      * exact I.
      * intros a g' _ [S _]; exact S.
    + eapply tri_weaken; [apply (blocks_T Inv (gone x y) noE Q dry (test_ok g0) (fun h => HT h x y) (matrix_step so min N) C' _ g G' I L)|].
      intros a g' _ [_ T]. left; exact T.
  - split; [exact X1|]. destruct (snd _); [|exact X2]. intros x y Hh Hk. exact (X2 (x, y) (conj Hh Hk)).
Qed.
End Any.

Lemma matrix_seq fuel min g B : 3 <= min -> sk g -> upto B g ->
  exists g', run_pstep fuel P no_hooks (PStep (matrix_step so min N)) g = (g', Ok tt) /\ sk g' /\ upto (fun k => B k \/ min <= k + 2) g'.
Proof.
  intros Hm K U. destruct (run_pstep_ok fuel P (matrix_step so min N) g sk (upto (fun k => B k \/ min <= k + 2))) as (g' & R & K' & U').
  - eapply tri_weaken; [apply tri_and; [exact (matrix_serve false sk (fun _ h => h) (fun _ => act_sk) (fun _ => act_go) (fun _ u v i g q w k => act_rm u v i g q w k) min g Hm K)|
      exact (step_keeps_gone P (matrix_step so min N) (test_ok g0) ltac:(discriminate) (matrix_goodstep min Hm) g K)]|].
    intros a g' _ [[_ S] [_ KB]] x y Hh [HB|HB]; [apply KB; exact (U x y Hh HB)|]. destruct (S x y Hh HB) as [T|[F _]]; [exact T|discriminate].
  - intros; apply skel_log; assumption.
  - apply skel_purge.
  - intros; apply upto_log; assumption.
  - intros g1 K1. apply (upto_purge _ good_sep); exact K1.
  - exists g'. auto.
Qed.

(* ---- first two steps ---- *)
Lemma c_sym : forall x y, c x y = c y x. Proof. apply (pt_sym _ _ _ _ _ PT). Qed.
Lemma c_pearson x y : node x -> node y -> x <> y -> n_pearson N (values_of g0 x) (values_of g0 y) = Ok (c x y).
Proof. intros Hx Hy Ne. apply (pt_pearson _ _ _ _ _ PT); [apply node_In; exact Hx|apply node_In; exact Hy|exact Ne]. Qed.

Definition all_live_nodes (g : graph) : Prop := forall u v, node u -> node v -> u <> v -> directed_edge_exists g u v = true.
Lemma pearson_run fuel sepok : exists g1, run_pstep fuel P no_hooks (PStep (calculate_pearson N)) g0 = (g1, Ok tt) /\ skel g0 D c sepok g1 /\ all_live_nodes g1.
Proof.
  destruct (pearson_skel g0 CP N c c_sym c_pearson D sepok P (edge_nodes g0 D DG) (edge_loop g0 D DG)) as (g1 & a & R & K & L).
  apply (run_pstep_ok fuel P (calculate_pearson N) g0 (skel g0 D c sepok) all_live_nodes).
  - unfold tri. rewrite R. cbn. auto.
  - intros; apply skel_log; assumption.
  - apply skel_purge.
  - intros g h H u v. exact (H u v).
  - intros g Kg H u v Hu Hv Ne. destruct (purge_ok g (sk_wf _ _ _ _ _ Kg)) as (g' & Rp & _). rewrite Rp. cbn.
    rewrite (purge_dee g g' (sk_wf _ _ _ _ _ Kg) Rp). apply H; assumption.
Qed.

(* after the correlation step: exactly the unconditionally separated pairs are gone *)
Definition corr_done (g : graph) : Prop := forall u v, node u -> node v -> u <> v -> (gone u v g <-> dsep D u v []).
Lemma corr_run fuel g : skel g0 D c (empty_sep D) g -> all_live_nodes g ->
  exists g', run_pstep fuel P no_hooks (PStep (correlation_step N)) g = (g', Ok tt) /\ sk g' /\ corr_done g'.
Proof.
  intros K L. destruct (run_pstep_ok fuel P (correlation_step N) g (skel g0 D c (empty_sep D)) (fun g => forall u v, node u -> node v -> u <> v -> dsep D u v [] -> gone u v g)) as (g' & R & K' & U').
  - eapply tri_weaken; [apply (corr_step g0 D N c PT (empty_sep D) (fun x y h => conj eq_refl h) false P g K L (skel g0 D c (empty_sep D)) K)|].
    + intros _. apply act_skel; [apply empty_sym|apply (empty_nadj g0 D DG)].
    + intros _. apply act_gone; [apply empty_sym|apply (empty_nadj g0 D DG)].
    + intros _. apply act_removes; [apply empty_sym|apply (empty_nadj g0 D DG)].
    + intros a g' _ [_ S] u v Hu Hv Ne Ds. destruct (S u v (conj Hu (conj Hv (conj Ne Ds)))) as [T|[F _]]; [exact T|discriminate].
  - intros; apply skel_log; assumption.
  - apply skel_purge.
  - intros g1 h H u v. exact (H u v).
  - intros g1 K1 H u v Hu Hv Ne Ds. eapply gone_purge; [exact K1|]. apply H; assumption.
  - exists g'. split; [exact R|]. split; [eapply skel_weaken; [|exact K']; apply (empty_good g0 D)|].
    intros u v Hu Hv Ne. split; [|apply U'; assumption]. intros G. destruct (sk_gone _ _ _ _ _ K' u v Hu Hv Ne G) as (a & b & S & _ & _ & (_ & Ds)). exact Ds.
Qed.

Lemma dsep_nil_iff x y : dsep D x y [] <-> d_separated E x y (fun _ => False).
Proof. split; apply d_separated_ext; try reflexivity. Qed.
Lemma corr_upto g : corr_done g -> upto (fun k => k = 0) g.
Proof.
  intros C x y Hh Hk. destruct Hh as (Hx & Hy & Ne & NA & NR). apply C; auto. apply length_zero_iff_nil in Hk.
  assert (X := pars_sep x y (conj Hx (conj Hy (conj Ne (conj NA NR))))). rewrite Hk in X. exact X.
Qed.
(* in the partial correlation step a single parent is always available *)
Lemma one_parent g x y : sk g -> (forall u v, node u -> node v -> u <> v -> gone u v g -> dsep D u v []) -> hard x y -> List.length (pars x) = 1 ->
  (dsep D x y [] ) \/ exists z, node z /\ NoDup [x; y; z] /\ live3 g x y z /\ dsep D x y [z].
Proof.
  intros K C Hh Hk. destruct (pars x) as [|z [|? ?]] eqn:Pz; try discriminate. assert (Hh' := Hh). destruct Hh' as (Hx & Hy & Ne & NA & NR).
  assert (Ez : E z x) by (apply pars_In; rewrite Pz; left; reflexivity).
  assert (Hz : node z) by apply (edge_nodes g0 D DG z x Ez). assert (ND := pars_NoDup x y Hh). rewrite Pz in ND.
  assert (Ds := pars_sep x y Hh). rewrite Pz in Ds. destruct (three x y z ND) as (_ & Nxz & Nyz).
  assert (Lxz : directed_edge_exists g x z = true) by (apply (sk_adj _ _ _ _ _ K); right; exact Ez).
  destruct (directed_edge_exists g x y) eqn:Lxy; [|left; apply C; assumption].
  destruct (directed_edge_exists g y z) eqn:Lyz; [right; exists z; repeat (split; [assumption|]); repeat split; assumption|].
  left. apply dsep_nil_iff. apply (single_parent E x y z Ne NA NR).
  - intros w. rewrite <- pars_In, Pz. cbn. split; [intros [->|[]]; reflexivity|auto].
  - apply dsep_nil_iff. apply d_separated_sym. apply C; assumption.
Qed.

Lemma partial_run fuel g : sk g -> corr_done g ->
  exists g', run_pstep fuel P no_hooks (PStep (partial_step false N)) g = (g', Ok tt) /\ sk g' /\ upto (fun k => k <= 1) g'.
Proof.
  intros K C. destruct (run_pstep_ok fuel P (partial_step false N) g sk (upto (fun k => k <= 1))) as (g' & R & K' & U').
  - assert (GS : good_step sk noE Q (triple_ok g0) (partial_step false N)).
    { split; [apply (partial_calls g0 D N c PT)|]. intros g1 K1. constructor; [|constructor]. intros g2 _.
      apply Forall_forall. intros e H. apply in_map_iff in H. destruct H as (ns & <- & H). cbn. exact (triples_ok g0 D c g1 K1 ns H). }
    eapply tri_weaken; [apply tri_and; [exact (partial_step_spec g0 D N c PT false P g K sk K (fun _ => act_sk) (fun _ => act_go) (fun _ u v i g q w k => act_rm u v i g q w k) false eq_refl)|
      exact (step_keeps_gone P (partial_step false N) (triple_ok g0) ltac:(discriminate) GS g K)]|].
    intros a g' _ [[_ S] [_ KB]] x y Hh Hk.
    assert (Hk' : List.length (pars x) = 0 \/ List.length (pars x) = 1) by lia. destruct Hk' as [H0|H1]; [apply KB; exact (corr_upto g C x y Hh H0)|].
    assert (Hh' := Hh). destruct Hh' as (Hx & Hy & Ne & NA & NR).
    destruct (one_parent g x y K (fun u v Hu Hv Huv => proj1 (C u v Hu Hv Huv)) Hh H1) as [Ds|(z & Hz & ND & L3 & Ds)].
    + apply KB. apply C; assumption.
    + destruct (S x y z Hx Hy Hz ND L3 Ds) as [T|[F _]]; [exact T|discriminate].
  - intros; apply skel_log; assumption.
  - apply skel_purge.
  - intros; apply upto_log; assumption.
  - intros g1 K1. apply (upto_purge _ good_sep); exact K1.
  - exists g'. auto.
Qed.
End Seq.
End Main.
