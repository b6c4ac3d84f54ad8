(* Runs of the PC pipelines whatever the tests answer. *)
From Verif Require Import Base PyDict PyDictFacts Graph GraphSpec GraphFacts GraphInv GraphInv2 GraphInv3 GraphQ GraphMain
  GraphPaths PathSpec Actions ActionSpec ActionFacts ActionMain Generators GenSpec GenFacts Rules IndepTests Pipeline Parallel PipeFacts RuleFacts
  Construct ConstructSpec ConstructFacts Dag DagFacts DagSep SkelSpec Rows Serve SkelFacts SkelStart SkelSteps SkelMatrix SkelMain
  OrientSpec OrientGraph LoopFacts OrientMain TotalSpec.
Open Scope string_scope.
Open Scope list_scope.

Lemma keeps_E {A} Inv (E1 E2 : exn -> Prop) (m : ST A) P : (forall e, E1 e -> E2 e) -> keeps Inv E1 m P -> keeps Inv E2 m P.
Proof. intros H K g I. destruct (K g I) as [A1 A2]. split; [exact A1|]. destruct (snd (m g)); auto. Qed.
Lemma block_E Inv (E1 E2 : exn -> Prop) A ch f : (forall e, E1 e -> E2 e) -> good_block Inv E1 A ch f -> good_block Inv E2 A ch f.
Proof.
  intros H B g I. specialize (B g I). destruct (f g) as [es|e]; [|auto]. eapply Forall_impl; [|exact B]. intros em G. unfold good_em in *. destruct ch; [exact G|].
  destruct (as_args em); auto.
Qed.
(* only the outcome *)
Definition wp {A} (E : exn -> Prop) (m : ST A) (g : graph) (P : graph -> Prop) : Prop :=
  match snd (m g) with Ok _ => P (fst (m g)) | Err e => E e end.
Lemma tri_wp {A} Inv E (m : ST A) g P (R : graph -> Prop) : tri Inv E m g P -> (forall a g, Inv g -> P a g -> R g) -> wp E m g R.
Proof. intros [I T] H. unfold wp. destruct (snd (m g)); eauto. Qed.
Lemma wp_weaken {A} E (m : ST A) g (P R : graph -> Prop) : wp E m g P -> (forall g, P g -> R g) -> wp E m g R.
Proof. unfold wp. intros W H. destruct (snd (m g)); auto. Qed.
Lemma wp_cons fuel P H p l g E (R S : graph -> Prop) : wp E (run_pstep fuel P H p) g R -> (forall g, R g -> wp E (execute_pipeline fuel P H l) g S) ->
  wp E (execute_pipeline fuel P H (p :: l)) g S.
Proof. unfold wp. intros W K. cbn [execute_pipeline]. unfold bind. destruct (run_pstep fuel P H p g) as [g1 [[]|e]]; cbn [fst snd] in *; [apply K; exact W|exact W]. Qed.
Lemma wp_pstep fuel P s g E (R S : graph -> Prop) : wp E (execute_step P no_hooks s false) g R -> (forall g h, R g -> R (with_ahist g h)) ->
  (forall g, R g -> wp E purge_soft_deleted_edges g S) -> wp E (run_pstep fuel P no_hooks (PStep s)) g S.
Proof.
  unfold wp. intros W L K.
  assert (R1 : run_pstep fuel P no_hooks (PStep s) g = match execute_step P no_hooks s false g with
    | (g1, Ok a) => purge_soft_deleted_edges (with_ahist g1 (ahist g1 ++ [HStep (s_name s) (fst a) (snd a) []])) | (g1, Err e) => (g1, Err e) end).
  { cbn [run_pstep]. unfold bind, log_step. destruct (execute_step P no_hooks s false g) as [g1 [a|e]]; reflexivity. }
  rewrite R1. clear R1. destruct (execute_step P no_hooks s false g) as [g1 [a|e]]; cbn [fst snd] in *; [|exact W]. exact (K _ (L g1 _ W)).
Qed.

Lemma subseq_pair {A} (l : list A) x y : NoDup l -> subseq [x; y] l -> subseq [y; x] l -> False.
Proof.
  induction l as [|a l IH]; intros ND S1 S2; [inversion S1|]. inversion ND as [|? ? Na Nl]; subst.
  assert (I1 := subseq_In _ _ S1). assert (I2 := subseq_In _ _ S2). inversion S1 as [|? ? ? T1|? ? ? T1]; subst.
  - inversion S2 as [|? ? ? T2|? ? ? T2]; subst.
    + apply Na. apply (subseq_In _ _ T1). left; reflexivity.
    + apply Na. apply (subseq_In _ _ T2). right; left; reflexivity.
  - inversion S2 as [|? ? ? T2|? ? ? T2]; subst.
    + apply Na. apply (subseq_In _ _ T1). right; left; reflexivity.
    + exact (IH Nl T1 T2).
Qed.

Section Total.
Variable g0 : graph.
Variable N : numerics.
Variable so : list id -> list id.
Hypothesis CP : complete g0.
Hypothesis SO : set_order so.
Notation node := (SkelFacts.node g0).
Notation E := (raised N).

(* ---- correlations ---- *)
Definition ord (x y : id) : Prop := In [x; y] (all_combinations (mkCS 2 2) g0).
Lemma ord_dec x y : {ord x y} + {~ ord x y}.
Proof. apply (in_dec (list_eq_dec string_dec)). Qed.
Lemma ord_asym x y : ord x y -> ord y x -> False.
Proof. intros A B. apply all_combinations_In in A, B. exact (subseq_pair _ x y (wf_nodes _ (cp_wf _ CP)) (proj1 A) (proj1 B)). Qed.
Definition num (r : res Z) : Z := match r with Ok z => z | Err _ => 0%Z end.
Definition pc_corr (x y : id) : Z := num (n_pearson N (values_of g0 x) (values_of g0 y)).
Definition corr (x y : id) : Z := if ord_dec x y then pc_corr x y else if ord_dec y x then pc_corr y x else 0%Z.
Lemma corr_sym x y : corr x y = corr y x.
Proof. unfold corr. destruct (ord_dec x y) as [A|A], (ord_dec y x) as [B|B]; try reflexivity. destruct (ord_asym x y A B). Qed.
Lemma corr_ord x y : ord x y -> corr x y = pc_corr x y.
Proof. intros A. unfold corr. destruct (ord_dec x y); [reflexivity|contradiction]. Qed.
Definition ordered (ns : list id) : Prop := exists x y, ns = [x; y] /\ ord x y.
Lemma ord_ok x y : ord x y -> node x /\ node y /\ x <> y.
Proof. intros A. destruct (pairs_ok g0 g0 (cp_wf _ CP) eq_refl _ A) as (a & b & H & Ha & Hb & Ne). injection H as -> ->. auto. Qed.

Lemma pearson_call x y us : ord x y -> (exists e, n_pearson N (values_of g0 x) (values_of g0 y) = Err e /\ call (calculate_pearson N) g0 [x; y] us = Err e) \/
  (n_pearson N (values_of g0 x) (values_of g0 y) = Ok (corr x y) /\ call (calculate_pearson N) g0 [x; y] us = Ok (Some [mkT x y UPDATE_EDGE (Some (cmeta corr x y))])).
Proof.
  intros O. destruct (ord_ok x y O) as (Hx & Hy & Ne). unfold call. cbn [calculate_pearson s_proc s_unapplied]. unfold pearson_process, node_at. cbn [nth_error].
  assert (Hx' := Hx). assert (Hy' := Hy). unfold SkelFacts.node in Hx', Hy'. rewrite Hx', Hy'. cbn [rbind].
  unfold edge_value. rewrite edge_exists_or, (ps_live g0 g0 x y (p0 g0 CP) Hx Hy Ne). cbn [orb negb].
  assert (G := cp_eget _ CP x y Hx Hy Ne). unfold eget in G. rewrite G. cbn [rbind]. unfold cmeta. rewrite (corr_ord x y O). unfold pc_corr.
  destruct (n_pearson N _ _) as [z|e]; cbn; [right; split; reflexivity|left; exists e; split; reflexivity].
Qed.

Lemma pearson_total P : tri (pstate g0) E (execute_step P no_hooks (calculate_pearson N) false) g0
  (fun _ g => (forall x y, node x -> node y -> x <> y -> pset corr x y g) /\
              (forall x y, ord x y -> n_pearson N (values_of g0 x) (values_of g0 y) = Ok (corr x y))).
Proof.
  assert (Gen : gen_run (s_gen (calculate_pearson N) g0) g0 = Ok (map Generators.One (all_combinations (mkCS 2 2) g0) ++ [])) by reflexivity.
  assert (GE : Forall (good_em E ordered false) (map Generators.One (all_combinations (mkCS 2 2) g0) ++ [])).
  { rewrite app_nil_r. apply Forall_forall. intros e H. apply in_map_iff in H. destruct H as (ns & <- & H). cbn.
    destruct (pairs_ok g0 g0 (cp_wf _ CP) eq_refl ns H) as (x & y & -> & _). exists x, y. auto. }
  assert (C : good_calls (fun g' => g' = g0) E (pQ g0 corr) ordered (calculate_pearson N)).
  { intros g ns us -> (x & y & -> & O) _. destruct (ord_ok x y O) as (Hx & Hy & Ne). destruct (pearson_call x y us O) as [(e & Ee & ->)|(_ & ->)].
    - eapply raised_pearson; exact Ee.
    - constructor; [|constructor]. exists x, y. auto. }
  assert (HE : forall e, noE e -> E e) by (intros e []).
  assert (HI : false = false -> forall i, pQ g0 corr i -> keeps (pstate g0) E (apply_action i) (fun _ _ => True)) by (intros _ i Hi; eapply keeps_E; [exact HE|apply (pact_I g0 corr i Hi)]).
  assert (Pl : plain_step (calculate_pearson N)) by (repeat split).
  assert (ST := collect_tri (pstate g0) E (pQ g0 corr) false ordered HI (calculate_pearson N) Pl P g0 _ Gen GE C (p0 g0 CP)).
  assert (SV : forall u v, ord u v -> tri (pstate g0) E (execute_step P no_hooks (calculate_pearson N) false) g0
    (fun _ g => pset corr u v g /\ n_pearson N (values_of g0 u) (values_of g0 v) = Ok (corr u v))).
  { intros u v O. destruct (pearson_call u v None O) as [(e & Ee & Ce)|(Eo & _)].
    - (* the exception stops the run *)
      split; [exact (proj1 ST)|]. destruct ST as [_ ST]. destruct (snd (execute_step P no_hooks (calculate_pearson N) false g0)) as [a|e'] eqn:R; [|exact ST]. exfalso.
      rewrite (plain_unfold false (calculate_pearson N) Pl P g0 _ Gen) in R. unfold bind in R.
      destruct (collect (calculate_pearson N) g0 (map Generators.One (all_combinations (mkCS 2 2) g0) ++ []) []) as [rs|e'] eqn:Co; [|discriminate].
      destruct (collect_In _ g0 _ [] rs (Generators.One [u; v]) [u; v] Co) as (us & o & Cu & _); [apply in_app_iff; left; apply in_map; exact O|reflexivity|].
      destruct (pearson_call u v (Some us) O) as [(e2 & _ & C2)|(Eo & _)]; congruence.
    - apply tri_and; [|split; [exact (proj1 ST)|destruct ST as [_ ST]; destruct (snd (execute_step P no_hooks (calculate_pearson N) false g0)); [exact Eo|exact ST]]].
      eapply tri_weaken; [apply (collect_serve (pstate g0) (pset corr u v) E (pQ g0 corr) (pwin corr u v) false ordered HI (calculate_pearson N) Pl P g0 _ Gen GE C (p0 g0 CP)
        (fun _ i Hi => keeps_E _ _ _ _ _ HE (pact_T g0 corr corr_sym u v i Hi)) (fun _ => pact_W g0 corr u v) (Generators.One [u; v]) [u; v])|].
      + apply in_app_iff; left. apply in_map; exact O.
      + reflexivity.
      + intros us o Co. destruct (pearson_call u v us O) as [(e2 & _ & C2)|(_ & C2)]; [congruence|]. rewrite C2 in Co. injection Co as <-. eexists; split; [left; reflexivity|reflexivity].
      + intros a g _ [[T|(F & _)] _]; [exact T|discriminate]. }
  assert (X := tri_all (K := id * id) (pstate g0) E (execute_step P no_hooks (calculate_pearson N) false) g0
    (fun p => ord (fst p) (snd p)) (fun p _ g => pset corr (fst p) (snd p) g /\ n_pearson N (values_of g0 (fst p)) (values_of g0 (snd p)) = Ok (corr (fst p) (snd p)))).
  destruct X as [X1 X2]; [eapply tri_weaken; [exact ST|auto]|intros [x y] O; apply SV; exact O|].
  split; [exact X1|]. destruct (snd _); [|exact X2]. split.
  - intros x y Hx Hy Ne. destruct (pairs_In g0 g0 x y (cp_wf _ CP) eq_refl Hx Hy Ne) as [H|H]; [exact (proj1 (X2 (x, y) H))|].
    destruct (proj1 (X2 (y, x) H)) as [A B]. cbn [fst snd] in A, B. unfold pset, cmeta in *. rewrite (corr_sym x y). split; assumption.
  - intros x y O. exact (proj2 (X2 (x, y) O)).
Qed.

(* ---- the invariant of the tests: any conditioning set may have separated a pair ---- *)
Notation sep := (good_sep g0 []).
Notation sk := (skel g0 [] corr sep).
Notation Q := (proposal g0 sep).
Lemma any_dsep x y S : x <> y -> dsep [] x y S.
Proof.
  intros Ne p Sp _. destruct (path_start (edge_in []) x y p Ne Sp) as (a & r & _ & [[]|[]] & _).
Qed.
Lemma any_sep x y S : x <> y -> (forall z, In z S -> node z) -> ~ In x S -> ~ In y S -> sep x y S.
Proof. intros Ne A B C. split; [exact A|]. split; [exact B|]. split; [exact C|apply any_dsep; exact Ne]. Qed.
Lemma no_adj x y S : sep x y S -> ~ adjacent (edge_in []) x y.
Proof. intros _ [[]|[]]. Qed.
Lemma HE : forall e, noE e -> E e. Proof. intros e []. Qed.
Lemma t_act i : Q i -> keeps sk E (apply_action i) (fun _ _ => True).
Proof. intros Hi. eapply keeps_E; [exact HE|]. exact (act_skel g0 [] corr sep (good_sym g0 []) no_adj i Hi). Qed.

Definition full (g : graph) : Prop := forall u v, node u -> node v -> u <> v -> directed_edge_exists g u v = true.
Lemma pearson_sk g : pstate g0 g -> (forall x y, node x -> node y -> x <> y -> pset corr x y g) -> sk g /\ full g.
Proof.
  intros K T. assert (L := ps_live g0 g). split; [|intros u v Hu Hv Ne; apply (L u v K Hu Hv Ne)].
  assert (NN : forall u v, directed_edge_exists g u v = true -> node u /\ node v /\ u <> v).
  { intros u v A. destruct (live_entry _ _ _ (ps_wf _ _ K) A) as (e & _ & _ & H1 & H2 & H3). rewrite (ps_nodes _ _ K) in H1, H2. auto. }
  constructor.
  - exact (ps_wf _ _ K).
  - exact (ps_nodes _ _ K).
  - exact (ps_rows _ _ K).
  - intros u v A. destruct (NN u v A) as (Hu & Hv & Ne). apply (L v u K Hv Hu). congruence.
  - intros u v A. destruct (NN u v A) as (Hu & Hv & Ne). destruct (T u v Hu Hv Ne) as [(e & E1 & E2) _]. exists e, (cmeta corr u v). auto.
  - intros u v [[]|[]].
  - intros u v _. apply (ps_hist _ _ K).
  - intros u v Hu Hv Ne A. rewrite (L u v K Hu Hv Ne) in A. discriminate.
Qed.
Lemma live_log g h : sk g /\ full g -> sk (with_ahist g h) /\ full (with_ahist g h).
Proof. intros [K L]. split; [apply skel_log; exact K|exact L]. Qed.
Lemma wp_purge g (R : graph -> Prop) : sk g -> (forall g', purge_soft_deleted_edges g = (g', Ok tt) -> sk g' -> R g') -> wp E purge_soft_deleted_edges g R.
Proof.
  intros K H. destruct (skel_purge g0 [] corr sep g K) as [K' _]. unfold wp. destruct (purge_ok g (sk_wf _ _ _ _ _ K)) as (g' & R' & _). rewrite R' in *. cbn in *. auto.
Qed.
Lemma pearson_phase fuel P : wp E (run_pstep fuel P no_hooks (PStep (calculate_pearson N))) g0 (fun g => sk g /\ full g).
Proof.
  apply wp_pstep with (R := fun g => sk g /\ full g).
  - eapply tri_wp; [apply pearson_total|]. intros a g K [T _]. apply pearson_sk; assumption.
  - apply live_log.
  - intros g [K L]. apply wp_purge; [exact K|]. intros g' R K'. split; [exact K'|]. intros u v Hu Hv Ne. rewrite (purge_dee g g' (sk_wf _ _ _ _ _ K) R). apply L; assumption.
Qed.
Lemma phase_of fuel P s g : wp E (execute_step P no_hooks s false) g sk -> wp E (run_pstep fuel P no_hooks (PStep s)) g sk.
Proof.
  intros W. apply wp_pstep with (R := sk); [exact W|intros; apply skel_log; assumption|]. intros g1 K. apply wp_purge; auto.
Qed.

(* ---- correlation test: on the graph with all edges ---- *)
Section Corr.
Variables (dry : bool) (P : runner) (g : graph).
Hypothesis K : sk g.
Hypothesis AL : full g.
Variable Inv : graph -> Prop.
Hypothesis IInv : Inv g.
Hypothesis HI : dry = false -> forall i, Q i -> keeps Inv E (apply_action i) (fun _ _ => True).
Lemma corr_total : tri Inv E (execute_step P no_hooks (correlation_step N) dry) g (fun a g => good2 Q a).
Proof.
  assert (Gen : gen_run (s_gen (correlation_step N) g) g = Ok (map Generators.One (all_combinations (mkCS 2 2) g) ++ [])) by reflexivity.
  assert (GE : Forall (good_em E (pair_ok g0) false) (map Generators.One (all_combinations (mkCS 2 2) g) ++ [])).
  { rewrite app_nil_r. apply Forall_forall. intros e H. apply in_map_iff in H. destruct H as (ns & <- & H). cbn.
    apply (pairs_ok g0 g (sk_wf _ _ _ _ _ K) (sk_nodes _ _ _ _ _ K) ns H). }
  assert (C : good_calls (fun g' => g' = g) E Q (pair_ok g0) (correlation_step N)).
  { intros g' ns us -> (x & y & -> & Hx & Hy & Ne) _. unfold call. cbn [correlation_step s_proc s_unapplied]. unfold correlation_test.
    rewrite (node_at_ok g0 [] corr sep g [x; y] 0 x K eq_refl Hx), (node_at_ok g0 [] corr sep g [x; y] 1 y K eq_refl Hy). cbn [rbind].
    rewrite (get_corr_live g0 [] corr sep g x y K (AL x y Hx Hy Ne)). cbn [rbind as_num]. destruct (n_corr_test N _ _) as [b|e] eqn:T; cbn [rbind].
    - constructor; [|constructor]. destruct b; [|left; reflexivity]. right. exists x, y, []. split; [reflexivity|]. split; [exact Hx|]. split; [exact Hy|]. split; [exact Ne|].
      apply any_sep; [exact Ne|intros z []|intros []|intros []].
    - eapply raised_corr; exact T. }
  assert (Pl : plain_step (correlation_step N)) by (repeat split).
  exact (collect_tri Inv E Q dry (pair_ok g0) HI (correlation_step N) Pl P g _ Gen GE C IInv).
Qed.
End Corr.

(* ---- partial correlation test ---- *)
Lemma partial_total g ns : sk g -> List.length ns = 3 -> forall l deleted acc, Forall Q acc ->
  (forall z, In z l -> exists x y rest, filter (fun n => negb (eqb n z)) ns = x :: y :: rest /\ node x /\ node y /\ node z /\ NoDup [x; y; z]) ->
  match partial_loop N g ns l deleted acc with Ok o => goodo Q o | Err e => E e end.
Proof.
  intros K Ln. induction l as [|z l IH]; intros deleted acc Fa Hl; [exact Fa|].
  destruct (Hl z (or_introl eq_refl)) as (x & y & rest & F & Hx & Hy & Hz & ND). rewrite (partial_round g0 [] N corr g ns z x y rest l deleted acc K Ln Hx Hy Hz ND F).
  assert (Hl' : forall z, In z l -> exists x y rest, filter (fun n => negb (eqb n z)) ns = x :: y :: rest /\ node x /\ node y /\ node z /\ NoDup [x; y; z]) by (intros w Hw; apply Hl; right; exact Hw).
  destruct (negb (directed_edge_exists g x y) || mem (y, x) deleted); [apply IH; assumption|].
  destruct (negb (_ && _)); [constructor|]. destruct (n_partial N _ _ _ _ _) as [[[|]|]|e] eqn:T; [| |constructor|eapply raised_partial; exact T]; apply IH; try exact Hl'.
  - destruct (three x y z ND) as (N1 & N2 & N3). apply Forall_app; split; [exact Fa|constructor; [|constructor]]. right. exists x, y, [z]. split; [reflexivity|]. split; [exact Hx|]. split; [exact Hy|].
    split; [exact N1|]. apply any_sep; [exact N1|intros w [<-|[]]; exact Hz|intros [->|[]]; congruence|intros [->|[]]; congruence].
  - apply Forall_app; split; [exact Fa|constructor; [left; reflexivity|constructor]].
Qed.
Lemma partial_goodstep par : good_step sk E Q (triple_ok g0) (partial_step par N).
Proof.
  split.
  - intros g ns us K (p & q & r & -> & Hp & Hq & Hr & ND) _. rewrite (partial_call g0 [] N corr par g p q r us K Hp Hq Hr).
    apply (partial_total g [p; q; r] K eq_refl [p; q; r] [] [] (Forall_nil _)). apply partial_rounds; assumption.
  - intros g1 K1. constructor; [|constructor]. intros g2 _. apply Forall_forall. intros e H. apply in_map_iff in H. destruct H as (ns & <- & H).
    assert (T := triples_ok g0 [] corr g1 K1 ns H). destruct par; exact T.
Qed.

(* ---- matrix test ---- *)
Lemma matrix_total s : matrix_like N so s -> good_calls sk E Q (test_ok g0) s.
Proof.
  intros [M1 M2] g ns us K (x & y & S & -> & ND & Hn & Ne) _. unfold call. rewrite M1, M2. unfold matrix_test.
  rewrite (node_at_ok g0 [] corr sep g (x :: y :: S) 0 x K eq_refl (Hn x (or_introl eq_refl))), (node_at_ok g0 [] corr sep g (x :: y :: S) 1 y K eq_refl (Hn y (or_intror (or_introl eq_refl)))).
  cbn [rbind]. rewrite (skel_ee g0 [] corr sep g x y K). destruct (directed_edge_exists g x y) eqn:L; cbn [negb]; [|constructor].
  assert (Nxy : x <> y) by (inversion ND as [|? ? N1 _]; subst; intros ->; apply N1; left; reflexivity).
  assert (R := sk_rows _ _ _ _ _ K x y (Hn x (or_introl eq_refl)) (Hn y (or_intror (or_introl eq_refl))) Nxy).
  unfold row_of. unfold dmem in R. destruct (dget (edges g) x) as [row|] eqn:Rw; [|discriminate]. cbn [rbind].
  assert (NB : mem y (filter (fun k => directed_edge_exists g k x) (dkeys row)) = true).
  { assert (Lz := sk_sym _ _ _ _ _ K x y L). apply mem_In, filter_In. split; [|exact Lz].
    destruct (live_entry _ _ _ (sk_wf _ _ _ _ _ K) L) as (e & Eg & _). unfold eget, dget2 in Eg. rewrite Rw in Eg. eapply dmem_In. unfold dmem. rewrite Eg. reflexivity. }
  rewrite NB. cbn [negb]. destruct (forallb _ (skipn 2 (x :: y :: S))); cbn [negb]; [|constructor].
  assert (NF : forallb (dmem (nodes g)) (x :: y :: S) = true).
  { apply forallb_forall. intros z Hz. rewrite (sk_nodes _ _ _ _ _ K). apply (Hn z Hz). }
  rewrite NF. cbn [negb]. destruct (n_matrix N _) as [[b|]|e] eqn:T; cbn [rbind]; [|constructor|eapply raised_matrix; exact T].
  constructor; [|constructor]. destruct b; [|left; reflexivity]. right. eexists x, y, _. split; [reflexivity|].
  split; [apply Hn; left; reflexivity|]. split; [apply Hn; right; left; reflexivity|]. split; [exact Nxy|].
  assert (ZS := zs_same so SO x y S ND). inversion ND as [|? ? N1 ND2]; subst. inversion ND2 as [|? ? N2 _]; subst.
  apply any_sep; [exact Nxy|intros z Hz; apply ZS in Hz; apply Hn; right; right; exact Hz|rewrite ZS; intros H; apply N1; right; exact H|rewrite ZS; exact N2].
Qed.
Lemma matrix_goodstep min : 3 <= min -> good_step sk E Q (test_ok g0) (matrix_step so min N).
Proof.
  intros Hm. split; [apply matrix_total; split; reflexivity|]. intros g K. cbn. eapply Forall_impl; [|exact (neigh_good g0 [] corr so SO None Logic.I true min g Hm K)].
  intros f. apply block_E; exact HE.
Qed.
Lemma sampled_goodstep sh coin : is_shuffle (Some sh) -> good_step sk E Q (test_ok g0) (matrix_step_sampled so sh coin N).
Proof.
  intros SH. split; [apply matrix_total; split; reflexivity|]. intros g K. cbn. eapply Forall_impl; [intros f; apply block_E; exact HE|].
  apply (sample_good g0 [] corr). exact (neigh_good g0 [] corr so SO (Some sh) SH false 4 g ltac:(lia) K).
Qed.
Lemma parallel_goodstep sh : is_shuffle (Some sh) -> good_step sk E Q (test_ok g0) (matrix_step_parallel so sh N).
Proof.
  intros SH. split; [apply matrix_total; split; reflexivity|]. intros g K. cbn. eapply Forall_impl; [intros f; apply block_E; exact HE|].
  exact (neigh_good g0 [] corr so SO (Some sh) SH false 4 g ltac:(lia) K).
Qed.
Lemma goodstep_wp P s A g : (s_parallel s = true -> pool_runner no_hooks P) -> good_step sk E Q A s -> sk g -> wp E (execute_step P no_hooks s false) g sk.
Proof.
  intros HP G K. eapply tri_wp; [exact (keeps_step sk E Q no_hooks (no_hooks_good _ _ _) false (fun _ => t_act) A P s HP G g K)|]. auto.
Qed.

(* ---- PCStable: tests first, actions later ---- *)
Lemma stable_total fuel P g : sk g -> full g ->
  wp E (run_pstep fuel P no_hooks (PTogether "ApplyActionsTogether" [correlation_step N; partial_step false N; matrix_step so 4 N])) g sk.
Proof.
  intros K L. set (Inv1 := fun g' : graph => g' = g).
  assert (SI : keeps Inv1 E (run_inner P no_hooks true [correlation_step N; partial_step false N; matrix_step so 4 N]) (fun a _ => Forall Q (snd a))).
  { apply (keeps_inner Inv1 E P no_hooks Q true). constructor; [|constructor; [|constructor; [|constructor]]].
    - intros g1 ->. apply (corr_total true P g K L Inv1 eq_refl); discriminate.
    - intros g1 ->. destruct (partial_goodstep false) as [C G]. apply (keeps_step Inv1 E Q no_hooks (no_hooks_good _ _ _) true ltac:(discriminate) (triple_ok g0) P); [discriminate| |reflexivity].
      split; [intros g2 ns us ->; exact (C g ns us K)|]. intros g2 ->. eapply Forall_impl; [|exact (G g K)]. intros f Hf g2 ->. exact (Hf g K).
    - intros g1 ->. destruct (matrix_goodstep 4 ltac:(lia)) as [C G]. apply (keeps_step Inv1 E Q no_hooks (no_hooks_good _ _ _) true ltac:(discriminate) (test_ok g0) P); [discriminate| |reflexivity].
      split; [intros g2 ns us ->; exact (C g ns us K)|]. intros g2 ->. eapply Forall_impl; [|exact (G g K)]. intros f Hf g2 ->. exact (Hf g K). }
  destruct (SI g eq_refl) as [S1 S2]. unfold wp. cbn [run_pstep]. unfold run_together, bind.
  destruct (run_inner P no_hooks true [correlation_step N; partial_step false N; matrix_step so 4 N] g) as [g1 [a|e]]; cbn [fst snd] in *; [|exact S2]. red in S1. subst g1.
  assert (F : Forall (goodo Q) (map (fun i => Some [i]) (snd a))).
  { apply Forall_forall. intros o H. apply in_map_iff in H. destruct H as (i & <- & Hi). rewrite Forall_forall in S2. constructor; [auto|constructor]. }
  destruct (keeps_take sk E Q no_hooks (no_hooks_good _ _ _) false (fun _ => t_act) _ F g K) as [K2 T2].
  destruct (take_action no_hooks false (map (fun i => Some [i]) (snd a)) g) as [g2 [b|e]]; cbn [fst snd] in *; [|exact T2]. unfold ret, log_step. cbn. apply skel_log; exact K2.
Qed.

(* ---- orientation ---- *)
Record oriented_graph (g : graph) : Prop := {
  o_wf : WF g;
  o_nodes : nodes g = nodes g0;
  o_rows : forall u v, node u -> node v -> u <> v -> dmem (edges g) u = true;
  o_meta : forall u v, directed_edge_exists g u v = true -> exists e m, eget g u v = Some e /\ e_meta e = Some m }.
Lemma sk_o g : sk g -> oriented_graph g.
Proof.
  intros K. split; [exact (sk_wf _ _ _ _ _ K)|exact (sk_nodes _ _ _ _ _ K)|exact (sk_rows _ _ _ _ _ K)|]. intros u v L. destruct (sk_corr _ _ _ _ _ K u v L) as (e & m & A & B & _). eauto.
Qed.
Lemma o_after X g g' : oriented_graph g -> after X g g' -> oriented_graph g'.
Proof.
  intros [P1 P2 P3 P6] [A1 A2 A3 A4 A5]. split; auto.
  - congruence.
  - intros u v Hu Hv Ne. apply A5. eapply P3; eassumption.
  - intros u v L. assert (M := A4 u v L). destruct (P6 u v) as (e & m & Ee & Em); [apply A3 in L; tauto|]. rewrite Ee in M. destruct (eget g' u v) as [e'|]; [|discriminate].
    cbn in M. injection M as M. exists e', m. split; [reflexivity|congruence].
Qed.
Lemma o_log g h : oriented_graph g -> oriented_graph (with_ahist g h).
Proof. intros [P1 P2 P3 P6]. split; auto. apply WF_ahist; exact P1. Qed.
Lemma o_purge g : oriented_graph g -> wp E purge_soft_deleted_edges g oriented_graph.
Proof. intros O. destruct (after_purge g (o_wf _ O)) as [A Ok1]. unfold wp. rewrite Ok1. eapply o_after; eassumption. Qed.

Section Read.
Variable g : graph.
Hypothesis O : oriented_graph g.
Lemma o_at ns k x : nth_error ns k = Some x -> node x -> node_at g ns k = Ok x.
Proof. intros H Nx. unfold node_at. rewrite H, (o_nodes _ O). unfold SkelFacts.node in Nx. rewrite Nx. reflexivity. Qed.
Lemma o_row x y : node x -> node y -> x <> y -> exists r, dget (edges g) x = Some r /\ row_of g x = Ok (dkeys r).
Proof.
  intros Hx Hy Ne. assert (R := o_rows _ O x y Hx Hy Ne). unfold dmem in R. destruct (dget (edges g) x) as [r|] eqn:G; [|discriminate]. exists r. split; [reflexivity|].
  unfold row_of. rewrite G. reflexivity.
Qed.
Lemma o_key x r z : dget (edges g) x = Some r -> In z (dkeys r) -> node z.
Proof. intros G H. apply (row_keys _ _ _ z G) in H. destruct H as [e H]. destruct (wf_fwd _ (o_wf _ O) _ _ _ H) as (_ & B & _). rewrite (o_nodes _ O) in B. exact B. Qed.
Lemma o_common x y : node x -> node y -> x <> y -> exists zs, common_keys so g x y = Ok zs /\ (forall z, In z zs -> node z).
Proof.
  intros Hx Hy Ne. destruct (o_row x y Hx Hy Ne) as (rx & Gx & Rx). destruct (o_row y x Hy Hx (fun h => Ne (eq_sym h))) as (ry & Gy & Ry).
  unfold common_keys. rewrite Rx, Ry. cbn [rbind]. eexists. split; [reflexivity|]. intros z Hz. rewrite (proj2 (SO _)) in Hz. apply filter_In in Hz. exact (o_key x rx z Gx (proj1 Hz)).
Qed.
Lemma nc_loop x y : forall zs, (forall z, In z zs -> node z) -> exists o, non_collider_loop g x y zs = Ok o.
Proof.
  induction zs as [|z zs IH]; intros H; cbn [non_collider_loop]; [eauto|]. assert (Hz := H z (or_introl eq_refl)). unfold SkelFacts.node in Hz. rewrite (o_nodes _ O), Hz. cbn [negb].
  destruct (_ && _); [eauto|]. destruct (_ && _); [eauto|]. apply IH. intros z' Hz'. apply H; right; exact Hz'.
Qed.
Lemma rule_call s x y : In s (orientation_steps so) -> node x -> node y -> x <> y -> exists o, call s g [x; y] None = Ok o.
Proof.
  intros Hs Hx Hy Ne. destruct Hs as [<-|[<-|[<-|[<-|[]]]]]; unfold call; cbn -[node_at non_collider_test triple_test quadruple_test further_quadruple_test].
  - unfold non_collider_test. rewrite (o_at [x; y] 0 x eq_refl Hx), (o_at [x; y] 1 y eq_refl Hy). cbn [rbind]. destruct (edge_exists g x y); [eauto|].
    destruct (o_common x y Hx Hy Ne) as (zs & -> & Hz). cbn [rbind]. apply nc_loop; exact Hz.
  - unfold triple_test. rewrite (o_at [x; y] 0 x eq_refl Hx), (o_at [x; y] 1 y eq_refl Hy). cbn [rbind]. eauto.
  - unfold quadruple_test. rewrite (o_at [x; y] 0 x eq_refl Hx), (o_at [x; y] 1 y eq_refl Hy). cbn [rbind]. eauto.
  - unfold further_quadruple_test. rewrite (o_at [x; y] 0 x eq_refl Hx), (o_at [x; y] 1 y eq_refl Hy). cbn [rbind]. eauto.
Qed.
End Read.

Lemma take_total rs g : oriented_graph g -> Forall (fun o => Forall orient_item (items_of o)) rs -> exists g' a, take_action no_hooks false rs g = (g', Ok a) /\ oriented_graph g'.
Proof.
  intros O F. assert (A := after_take rs g (o_wf _ O) F). destruct (take_orient_ok rs g (o_wf _ O) F) as [a Ea]. destruct (take_action no_hooks false rs g) as [g' r]. cbn [fst snd] in *. subst r.
  exists g', a. split; [reflexivity|]. eapply o_after; eassumption.
Qed.

(* collider detection on what the tests left *)
Lemma sep_hist g x y : sk g -> node x -> node y -> x <> y -> exists acts S, retrieve_edge_history g x y (Some REMOVE_EDGE_UNDIRECTED) = Ok acts /\ separators acts = Ok S.
Proof.
  intros K Hx Hy Ne. assert (R : retrieve_edge_history g x y (Some REMOVE_EDGE_UNDIRECTED) = Ok (removals (history g (x, y)))).
  { unfold retrieve_edge_history, history, removals. destruct (dget (ehist g) (x, y)); reflexivity. }
  rewrite R. destruct (directed_edge_exists g x y) eqn:L.
  - rewrite (sk_live _ _ _ _ _ K x y L). exists [], []. split; reflexivity.
  - destruct (sk_gone _ _ _ _ _ K x y Hx Hy Ne L) as (a & b & S & -> & _). eexists _, _. split; reflexivity.
Qed.
Lemma coll_body us acts S g x y z : node z -> nodes g = nodes g0 -> separators acts = Ok S -> exists rs, collider_body KEEP_FIRST (Some us) acts g x y z = Ok rs.
Proof.
  intros Hz Nn Es. unfold collider_body. unfold SkelFacts.node in Hz. rewrite Nn, Hz, Es. cbn [negb rbind filter_unapplied_actions]. destruct (mem z S); [eauto|].
  match goal with |- context [match ?a with [] => _ | _ => _ end] => destruct a end; match goal with |- context [match ?a with [] => _ | _ => _ end] => destruct a end; eauto.
Qed.
Lemma coll_total g us x y : sk g -> node x -> node y -> x <> y -> exists o, call (collider_step KEEP_FIRST so) g [x; y] (Some us) = Ok o.
Proof.
  intros K Hx Hy Ne. assert (O := sk_o g K). unfold call. cbn -[node_at collider_test]. unfold collider_test. rewrite (o_at g O [x; y] 0 x eq_refl Hx), (o_at g O [x; y] 1 y eq_refl Hy). cbn [rbind].
  destruct (undirected_edge_exists g x y); [eauto|]. destruct (o_common g O x y Hx Hy Ne) as (zs & -> & Hz). cbn [rbind].
  destruct (sep_hist g x y K Hx Hy Ne) as (acts & S & -> & Es). cbn [rbind].
  assert (R : exists rs, rflat (collider_body KEEP_FIRST (Some us) acts g x y) zs = Ok rs).
  { clear - Hz Es O. induction zs as [|z zs IH]; cbn [rflat]; [eauto|]. destruct (coll_body us acts S g x y z (Hz z (or_introl eq_refl)) (o_nodes _ O) Es) as (rs & ->).
    destruct (IH (fun z' h => Hz z' (or_intror h))) as (rs' & ->). cbn. eauto. }
  destruct R as (rs & ->). cbn. eauto.
Qed.
Lemma coll_collect_total g : sk g -> forall l local, (forall ns, In ns l -> pair_ok g0 ns) -> Forall (fun o => Forall orient_item (items_of o)) local ->
  exists os, collect (collider_step KEEP_FIRST so) g (map Generators.One l) local = Ok os /\ Forall (fun o => Forall orient_item (items_of o)) os.
Proof.
  intros K. induction l as [|ns l IH]; intros local Hl Fl; cbn [map collect as_args rbind]; [eauto|].
  destruct (Hl ns (or_introl eq_refl)) as (x & y & -> & Hx & Hy & Ne). destruct (coll_total g local x y K Hx Hy Ne) as (o & Co). rewrite Co. cbn [rbind].
  apply IH; [intros n h; apply Hl; right; exact h|]. apply Forall_app. split; [exact Fl|]. constructor; [|constructor]. apply Forall_forall. intros i Hi.
  destruct (collider_acts KEEP_FIRST so ltac:(discriminate) g [x; y] (Some local) o i Co Hi) as [A|[A|[]]]; [right|left]; symmetry; exact A.
Qed.
Lemma collider_phase fuel P g : sk g -> wp E (run_pstep fuel P no_hooks (PStep (collider_step KEEP_FIRST so))) g oriented_graph.
Proof.
  intros K. apply wp_pstep with (R := oriented_graph); [|intros; apply o_log; assumption|apply o_purge].
  assert (Pl : plain_step (collider_step KEEP_FIRST so)) by (repeat split).
  assert (Gen : gen_run (s_gen (collider_step KEEP_FIRST so) g) g = Ok (map Generators.One (all_combinations (mkCS 2 2) g))) by (cbn; rewrite app_nil_r; reflexivity).
  unfold wp. rewrite (plain_unfold false _ Pl P g _ Gen).
  destruct (coll_collect_total g K (all_combinations (mkCS 2 2) g) []) as (os & -> & F); [intros ns H; apply (pairs_ok g0 g (sk_wf _ _ _ _ _ K) (sk_nodes _ _ _ _ _ K) ns H)|constructor|].
  unfold bind. cbn [liftr ret]. destruct (take_total os g (sk_o g K) F) as (g' & a & -> & O). exact O.
Qed.

(* the loop *)
Lemma rule_total s P g : In s (orientation_steps so) -> oriented_graph g -> exists g' a, execute_step P no_hooks s false g = (g', Ok a) /\ oriented_graph g'.
Proof.
  intros Hs O. assert (RS := orientation_rules_ok so). rewrite Forall_forall in RS. specialize (RS s Hs). rewrite (rule_unfold s P false g RS).
  destruct (rmap_ok (fun ns => call s g ns None) (fun o => Forall orient_item (items_of o)) (pairs_of g)) as (os & Eo & Fo).
  { intros ns Hns. destruct (pairs_ok g0 g (o_wf _ O) (o_nodes _ O) ns Hns) as (x & y & -> & Hx & Hy & Ne). destruct (rule_call g O s x y Hs Hx Hy Ne) as (o & Co). exists o. split; [exact Co|].
    apply Forall_forall. intros i Hi. destruct (rs_items _ RS g [x; y] o i Co Hi) as [A|[A _]]; [left|right]; exact A. }
  rewrite Eo. apply take_total; assumption.
Qed.
Lemma inner_total P : forall l g, (forall s, In s l -> In s (orientation_steps so)) -> oriented_graph g -> exists g' a, run_inner P no_hooks false l g = (g', Ok a) /\ oriented_graph g'.
Proof.
  induction l as [|s l IH]; intros g F O; cbn [run_inner].
  - eexists _, _. split; [reflexivity|exact O].
  - destruct (rule_total s P g (F s (or_introl eq_refl)) O) as (g1 & a & R1 & O1). destruct (IH g1 (fun s' h => F s' (or_intror h)) O1) as (g2 & b & R2 & O2).
    unfold bind. rewrite R1, R2. eexists _, _. split; [reflexivity|exact O2].
Qed.
Lemma loop_total P : forall fuel n last g, oriented_graph g -> (0 < n -> exists t, last = Some t) ->
  exists g' r, run_loop fuel P no_hooks exit_on_no_actions (orientation_steps so) n last g = (g', r) /\ oriented_graph g' /\ (r = Err OutOfFuel \/ exists hs, r = Ok hs).
Proof.
  induction fuel as [|f IH]; intros n last g O Hn; cbn [run_loop].
  - exists g, (Err OutOfFuel). split; [reflexivity|auto].
  - unfold bind at 1. assert (X : exists stop, exit_on_no_actions n last = Ok stop).
    { unfold exit_on_no_actions. destruct n; cbn; [eauto|]. destruct (Hn ltac:(lia)) as (t & ->). eauto. }
    destruct X as (stop & ->). cbn [liftr]. unfold ret at 1. destruct stop.
    + exists g, (Ok []). split; [reflexivity|]. split; [exact O|right; eauto].
    + destruct (inner_total P (orientation_steps so) g (fun s h => h) O) as (g1 & a & R1 & O1). unfold bind at 1. rewrite R1. destruct (IH (S n) (Some (snd a)) g1 O1 ltac:(eauto)) as (g2 & r & R2 & O2 & Hr).
      unfold bind at 1. rewrite R2. destruct Hr as [->|[hs ->]].
      * exists g2, (Err OutOfFuel). split; [reflexivity|auto].
      * eexists g2, (Ok _). split; [reflexivity|]. split; [exact O2|right; eauto].
Qed.
Lemma loop_phase fuel P g : List.length (nodes g0) * List.length (nodes g0) + 2 <= fuel -> oriented_graph g ->
  wp E (run_pstep fuel P no_hooks (PLoop "Loop" exit_on_no_actions (orientation_steps so))) g oriented_graph.
Proof.
  intros Fu O. destruct (loop_total P fuel 0 None g O ltac:(lia)) as (g3 & r3 & R3 & O3 & H3).
  destruct (loop_run P _ (orientation_rules_ok so) fuel 0 None g g3 r3 (o_wf _ O) ltac:(lia) R3) as [_ L3]. unfold wp. cbn [run_pstep]. unfold bind. rewrite R3.
  destruct H3 as [->|[hs ->]].
  - exfalso. apply L3; [|reflexivity]. unfold need. assert (B := live_count_bound g). rewrite (o_nodes _ O) in B. lia.
  - cbn. apply o_log; exact O3.
Qed.

(* effect estimation *)
Lemma effect_phase fuel P g : oriented_graph g -> wp E (run_pstep fuel P no_hooks (PStep (effect_step N))) g (fun _ => True).
Proof.
  intros O.
  assert (Kp : keeps (eff_inv g0 g) (eff_exn N) (run_pstep fuel P no_hooks (PStep (effect_step N))) (fun _ _ => True)).
  { eapply keeps_pstep_plain; [|apply eff_step_keeps|].
    - intros g1 h (W & Nn & L & M). split; [apply WF_ahist; exact W|]. split; [exact Nn|]. split; [exact L|exact M].
    - intros g1 (W & Nn & L & M). destruct (after_purge g1 W) as [[A1 A2 A3 A4 _] Ok1]. destruct (purge_soft_deleted_edges g1) as [g2 r]. cbn [fst snd] in *. subst r. split; [|exact I].
      assert (L' : forall a b, directed_edge_exists g2 a b = directed_edge_exists g1 a b) by (intros a b; apply eq_true_iff_eq; rewrite A3; tauto).
      split; [exact A1|]. split; [congruence|]. split; [intros a b; rewrite L'; apply L|]. intros u v Lv. assert (Me := A4 u v Lv). rewrite L' in Lv. destruct (M u v Lv) as (e & m & E1 & E2).
      rewrite E1 in Me. destruct (eget g2 u v) as [e2|]; [|discriminate]. cbn in Me. injection Me as Me. exists e2, m. split; [reflexivity|congruence]. }
  destruct (Kp g) as [_ H2]; [split; [exact (o_wf _ O)|split; [exact (o_nodes _ O)|split; [reflexivity|exact (o_meta _ O)]]]|].
  unfold wp. destruct (snd _); [exact I|]. destruct H2 as (xs & zs & ys & H2). eapply raised_effect; exact H2.
Qed.

Lemma tail_total fuel P g : List.length (nodes g0) * List.length (nodes g0) + 2 <= fuel -> sk g ->
  wp E (execute_pipeline fuel P no_hooks (orientation_rules so ++ [PStep (effect_step N)])) g (fun _ => True).
Proof.
  intros Fu K. unfold orientation_rules. cbn [app]. eapply wp_cons; [apply collider_phase; exact K|]. intros g1 O1. eapply wp_cons; [apply loop_phase; eassumption|]. intros g2 O2.
  eapply wp_cons; [apply effect_phase; exact O2|]. intros g3 _. exact I.
Qed.
End Total.
