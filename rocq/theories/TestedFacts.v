(* The skeleton phase whatever the tests answer: every removal is the answer of a test, and every test that
   was bound to be asked has taken effect. *)
From Verif Require Import Base PyDict PyDictFacts Graph GraphSpec GraphFacts GraphInv GraphInv2 GraphInv3 GraphQ GraphMain
  GraphPaths PathSpec Actions ActionSpec ActionFacts ActionMain Generators GenSpec GenFacts Rules IndepTests Pipeline Parallel PipeFacts RuleFacts
  Construct ConstructSpec ConstructFacts Dag DagFacts DagSep SkelSpec Rows Serve SkelFacts SkelStart SkelSteps SkelMatrix SkelMain
  LoopFacts TotalSpec TotalFacts TotalMain.
Open Scope string_scope.
Open Scope list_scope.

(* some pair of the list is no longer connected *)
Definition some_gone (l : list (id * id)) (g : graph) : Prop := exists p, In p l /\ gone (fst p) (snd p) g.
Lemma some_gone_dec l g : some_gone l g \/ forall p, In p l -> directed_edge_exists g (fst p) (snd p) = true.
Proof.
  induction l as [|p l [IH|IH]].
  - right; intros p [].
  - left. destruct IH as (q & Hq & G). exists q. split; [right; exact Hq|exact G].
  - destruct (directed_edge_exists g (fst p) (snd p)) eqn:L; [|left; exists p; split; [left; reflexivity|exact L]].
    right. intros q [<-|Hq]; auto.
Qed.

Section Tested.
Variable g0 : graph.
Variable N : numerics.
Variable so : list id -> list id.
Hypothesis CP : complete g0.
Hypothesis SO : set_order so.
Notation node := (SkelFacts.node g0).
Notation E := (raised N).
Notation cor := (corr g0 N).
Notation ord := (ord g0).
Notation any := (good_sep g0 []).
(* what justifies a removal *)
Variable Sep : id -> id -> list id -> Prop.
Hypothesis Ssym : forall x y S, Sep x y S -> Sep y x S.
Hypothesis Sany : forall x y S, Sep x y S -> any x y S.
Notation sk := (skel g0 [] cor Sep).
Notation ska := (skel g0 [] cor any).
Notation Q := (proposal g0 Sep).
Lemma Snadj x y S : Sep x y S -> ~ adjacent (edge_in []) x y. Proof. intros _ [[]|[]]. Qed.
Lemma weak g : sk g -> ska g. Proof. apply skel_weaken. exact Sany. Qed.
Lemma q_act i : Q i -> keeps sk E (apply_action i) (fun _ _ => True).
Proof. intros Hi. eapply keeps_E; [apply HE|]. exact (act_skel g0 [] cor Sep Ssym Snadj i Hi). Qed.
Lemma q_gone l i : Q i -> keeps (InvT sk (some_gone l)) E (apply_action i) (fun _ _ => True).
Proof.
  intros Hi g [K (p & Hp & G)]. assert (X := act_gone g0 [] cor Sep Ssym Snadj (fst p) (snd p) i Hi g (conj K G)). destruct X as [[X1 X2] X3].
  split; [split; [exact X1|exists p; auto]|]. destruct (snd (apply_action i g)); [exact Logic.I|destruct X3].
Qed.
(* the pair at the head of the list is removed *)
Definition wins (l : list (id * id)) (i : tresult) : Prop := exists p r, l = p :: r /\ removes (fst p) (snd p) i.
Lemma q_wins l i g : Q i -> wins l i -> sk g -> some_gone l (fst (apply_action i g)).
Proof. intros Hi (p & r & -> & W) K. exists p. split; [left; reflexivity|]. exact (act_removes g0 [] cor Sep Ssym Snadj _ _ i g Hi W K). Qed.

(* ---- a list of removals that are bound to have happened ---- *)
Definition Done (K : list (id * id) -> Prop) (g : graph) : Prop := forall l, K l -> some_gone l g.
Lemma done_log K g h : Done K g -> Done K (with_ahist g h).
Proof. intros D l Kl. destruct (D l Kl) as (p & Hp & G). exists p. split; [exact Hp|exact G]. Qed.
Lemma gone_purge_all K g g' : sk g -> purge_soft_deleted_edges g = (g', Ok tt) -> Done K g -> Done K g'.
Proof.
  intros S R D l Kl. destruct (D l Kl) as (p & Hp & G). exists p. split; [exact Hp|]. assert (X := gone_purge g0 [] cor Sep (fst p) (snd p) g S G). rewrite R in X. exact X.
Qed.
Lemma s_purge g (R : graph -> Prop) : sk g -> (forall g', purge_soft_deleted_edges g = (g', Ok tt) -> sk g' -> R g') -> wp E purge_soft_deleted_edges g R.
Proof.
  intros K H. destruct (skel_purge g0 [] cor Sep g K) as [K' _]. unfold wp. destruct (purge_ok g (sk_wf _ _ _ _ _ K)) as (g' & R' & _). rewrite R' in *. cbn in *. auto.
Qed.
Lemma keeps_some_gone P s A l : (s_parallel s = true -> pool_runner no_hooks P) -> good_step sk E Q A s -> forall g, sk g -> some_gone l g ->
  tri sk E (execute_step P no_hooks s false) g (fun _ g' => some_gone l g').
Proof.
  intros HP [C G] g K Gl.
  assert (GI : good_step (InvT sk (some_gone l)) E Q A s).
  { split; [intros g1 ns us [K1 _]; exact (C g1 ns us K1)|]. intros g1 [K1 _]. eapply Forall_impl; [|exact (G g1 K1)]. intros f Hf g2 [K2 _]. exact (Hf g2 K2). }
  destruct (keeps_step (InvT sk (some_gone l)) E Q no_hooks (no_hooks_good _ _ _) false (fun _ => q_gone l) A P s HP GI g (conj K Gl)) as [[Y1 Y2] Y3].
  split; [exact Y1|]. destruct (snd _); [exact Y2|exact Y3].
Qed.
(* one ordinary step *)
Lemma phase fuel P s A (K K' : list (id * id) -> Prop) g : (s_parallel s = true -> pool_runner no_hooks P) -> good_step sk E Q A s -> sk g -> Done K g ->
  (forall l, K' l -> tri sk E (execute_step P no_hooks s false) g (fun _ g' => some_gone l g')) ->
  wp E (run_pstep fuel P no_hooks (PStep s)) g (fun g' => sk g' /\ Done (fun l => K l \/ K' l) g').
Proof.
  intros HP GS Kg D S. apply wp_pstep with (R := fun g' => sk g' /\ Done (fun l => K l \/ K' l) g').
  - assert (X := tri_all (K := list (id * id)) sk E (execute_step P no_hooks s false) g (fun l => K l \/ K' l) (fun l _ g' => some_gone l g')).
    eapply tri_wp; [apply X|].
    + eapply tri_weaken; [exact (keeps_step sk E Q no_hooks (no_hooks_good _ _ _) false (fun _ => q_act) A P s HP GS g Kg)|auto].
    + intros l [H|H]; [apply (keeps_some_gone P s A l HP GS g Kg (D l H))|apply S; exact H].
    + intros a g' K1 H. split; [exact K1|exact H].
  - intros g1 h [K1 D1]. split; [apply skel_log; exact K1|apply done_log; exact D1].
  - intros g1 [K1 D1]. apply s_purge; [exact K1|]. intros g2 R2 K2. split; [exact K2|]. exact (gone_purge_all _ g1 g2 K1 R2 D1).
Qed.

(* ---- correlation test: on the graph with all edges ---- *)
Hypothesis Hcorr : forall x y, ord x y -> n_corr_test N (List.length (values_of g0 x)) (cor x y) = Ok true -> Sep x y [].
Definition Kcorr (l : list (id * id)) : Prop := exists x y, l = [(x, y)] /\ ord x y /\ n_corr_test N (List.length (values_of g0 x)) (cor x y) = Ok true.
Lemma same_combs cs g : nodes g = nodes g0 -> all_combinations cs g = all_combinations cs g0.
Proof. intros H. unfold all_combinations. rewrite H. reflexivity. Qed.
Section Corr.
Variables (dry : bool) (P : runner) (g : graph).
Hypothesis K : sk g.
Hypothesis AL : full g0 g.
Variable Inv : graph -> Prop.
Hypothesis IInv : Inv g.
Hypothesis HI : dry = false -> forall i, Q i -> keeps Inv E (apply_action i) (fun _ _ => True).
Hypothesis HT : dry = false -> forall l i, Q i -> keeps (InvT Inv (some_gone l)) E (apply_action i) (fun _ _ => True).
Hypothesis HW : dry = false -> forall l i g, Q i -> wins l i -> Inv g -> some_gone l (fst (apply_action i g)).
Lemma corr_call x y us : ord x y -> call (correlation_step N) g [x; y] us =
  match n_corr_test N (List.length (values_of g0 x)) (cor x y) with Ok b => Ok (Some [if b then separated x y [] else not_separated x y []]) | Err e => Err e end.
Proof.
  intros O. destruct (ord_ok g0 CP x y O) as (Hx & Hy & Ne). unfold call. cbn [correlation_step s_proc s_unapplied]. unfold correlation_test.
  rewrite (node_at_ok g0 [] cor Sep g [x; y] 0 x K eq_refl Hx), (node_at_ok g0 [] cor Sep g [x; y] 1 y K eq_refl Hy). cbn [rbind].
  rewrite (get_corr_live g0 [] cor Sep g x y K (AL x y Hx Hy Ne)). cbn [rbind as_num]. rewrite (values_same g0 [] cor Sep g x K). destruct (n_corr_test N _ _) as [b|e]; reflexivity.
Qed.
Lemma corr_gen : gen_run (s_gen (correlation_step N) g) g = Ok (map Generators.One (all_combinations (mkCS 2 2) g0) ++ []).
Proof. rewrite <- (same_combs (mkCS 2 2) g (sk_nodes _ _ _ _ _ K)). reflexivity. Qed.
Lemma corr_ems : Forall (good_em E (ordered g0) false) (map Generators.One (all_combinations (mkCS 2 2) g0) ++ []).
Proof.
  rewrite app_nil_r. apply Forall_forall. intros e H. apply in_map_iff in H. destruct H as (ns & <- & H). cbn.
  destruct (pairs_ok g0 g0 (cp_wf _ CP) eq_refl ns H) as (x & y & -> & _). exists x, y. auto.
Qed.
Lemma corr_calls : good_calls (fun g' => g' = g) E Q (ordered g0) (correlation_step N).
Proof.
  intros g' ns us -> (x & y & -> & O) _. rewrite (corr_call x y us O). destruct (n_corr_test N _ _) as [b|e] eqn:T; [|eapply raised_corr; exact T].
  constructor; [|constructor]. destruct b; [|left; reflexivity]. destruct (ord_ok g0 CP x y O) as (Hx & Hy & Ne). right. exists x, y, []. split; [reflexivity|]. split; [exact Hx|].
  split; [exact Hy|]. split; [exact Ne|]. apply Hcorr; assumption.
Qed.
Lemma corr_plain : plain_step (correlation_step N). Proof. repeat split. Qed.
Lemma corr_tri : tri Inv E (execute_step P no_hooks (correlation_step N) dry) g (fun a _ => good2 Q a).
Proof. exact (collect_tri Inv E Q dry (ordered g0) HI (correlation_step N) corr_plain P g _ corr_gen corr_ems corr_calls IInv). Qed.
Lemma corr_serve l : Kcorr l -> tri Inv E (execute_step P no_hooks (correlation_step N) dry) g (fun a g => served (some_gone l) (wins l) dry a g).
Proof.
  intros (x & y & -> & O & T). eapply tri_weaken; [apply (collect_serve Inv (some_gone [(x, y)]) E Q (wins [(x, y)]) dry (ordered g0) HI (correlation_step N) corr_plain P g _ corr_gen corr_ems corr_calls IInv
    (fun h => HT h _) (fun h => HW h _) (Generators.One [x; y]) [x; y])|].
  - apply in_app_iff; left. apply in_map; exact O.
  - reflexivity.
  - intros us o Co. rewrite (corr_call x y us O), T in Co. injection Co as <-. eexists. split; [left; reflexivity|]. exists (x, y), []. split; [reflexivity|]. exists []. left; reflexivity.
  - intros a g' _ [S _]; exact S.
Qed.
End Corr.
Lemma corr_phase_done fuel P g : sk g -> full g0 g -> wp E (run_pstep fuel P no_hooks (PStep (correlation_step N))) g (fun g' => sk g' /\ Done Kcorr g').
Proof.
  intros K L. assert (CT := corr_tri false P g K L sk K (fun _ => q_act)).
  apply wp_pstep with (R := fun g' => sk g' /\ Done Kcorr g').
  - assert (X := tri_all (K := list (id * id)) sk E (execute_step P no_hooks (correlation_step N) false) g Kcorr (fun l _ g' => some_gone l g')).
    eapply tri_wp; [apply X|].
    + eapply tri_weaken; [exact CT|auto].
    + intros l Kl. eapply tri_weaken; [apply (corr_serve false P g K L sk K (fun _ => q_act) (fun _ => q_gone) (fun _ => q_wins) l Kl)|].
      intros a g' _ [T|[F _]]; [exact T|discriminate].
    + intros a g' K1 H. split; [exact K1|exact H].
  - intros g1 h [K1 D1]. split; [apply skel_log; exact K1|apply done_log; exact D1].
  - intros g1 [K1 D1]. apply s_purge; [exact K1|]. intros g2 R2 K2. split; [exact K2|]. exact (gone_purge_all _ g1 g2 K1 R2 D1).
Qed.

(* ---- partial correlation test ---- *)
Hypothesis Hpart : forall x y z, ord x y -> node z -> NoDup [x; y; z] ->
  n_partial N (List.length (values_of g0 x)) 1 (cor x y) (cor x z) (cor y z) = Ok (Some true) -> Sep x y [z].
Notation pans x y z := (n_partial N (List.length (values_of g0 x)) 1 (cor x y) (cor x z) (cor y z)).
Definition triple_ord (ns : list id) : Prop := exists p q r, ns = [p; q; r] /\ ord p q /\ ord p r /\ ord q r.
Lemma triple_nd p q r : ord p q -> ord p r -> ord q r -> node p /\ node q /\ node r /\ NoDup [p; q; r].
Proof.
  intros A B C. destruct (ord_ok g0 CP p q A) as (H1 & H2 & H3). destruct (ord_ok g0 CP p r B) as (_ & H4 & H5). destruct (ord_ok g0 CP q r C) as (_ & _ & H6).
  repeat (split; [assumption|]). apply three'; assumption.
Qed.
Lemma ord_subseq x y : subseq [x; y] (dkeys (nodes g0)) -> ord x y.
Proof.
  intros S. apply all_combinations_In. split; [exact S|]. apply subseq_length in S. unfold size_in; cbn [cs_min cs_max List.length] in *. unfold dkeys in S. rewrite map_length in S. lia.
Qed.
Lemma triples_ord ns : In ns (all_combinations (mkCS 3 3) g0) -> triple_ord ns.
Proof.
  intros H. apply all_combinations_In in H. destruct H as [S L]. unfold size_in in L; cbn [cs_min cs_max] in L. destruct ns as [|p [|q [|r [|z ns]]]]; cbn [List.length] in L; try lia.
  exists p, q, r. split; [reflexivity|].
  assert (T : forall a b, subseq [a; b] [p; q; r] -> ord a b).
  { intros a b H. apply ord_subseq. revert H S. generalize (dkeys (nodes g0)) [p; q; r] [a; b]. clear.
    intros n m l H1 H2. revert l H1. induction H2 as [|x m n H2 IH|x m n H2 IH]; intros l H1.
    - exact H1.
    - inversion H1 as [|? ? ? T|? ? ? T]; subst; [constructor; apply IH; exact T|constructor; apply IH; exact T].
    - constructor. apply IH; exact H1. }
  split; [|split]; apply T; repeat constructor.
Qed.

(* all three pairs live *)
Lemma partial_live g p q r : sk g -> ord p q -> ord p r -> ord q r ->
  directed_edge_exists g p q = true -> directed_edge_exists g p r = true -> directed_edge_exists g q r = true ->
  partial_loop N g [p; q; r] [p; q; r] [] [] =
  match pans q r p with Err e => Err e | Ok None => Ok None | Ok (Some b1) =>
  match pans p r q with Err e => Err e | Ok None => Ok None | Ok (Some b2) =>
  match pans p q r with Err e => Err e | Ok None => Ok None | Ok (Some b3) =>
    Ok (Some [if b1 then separated q r [p] else not_separated q r [p];
              if b2 then separated p r [q] else not_separated p r [q];
              if b3 then separated p q [r] else not_separated p q [r]]) end end end.
Proof.
  intros K0 O1 O2 O3 L1 L2 L3. assert (K := weak g K0). destruct (triple_nd p q r O1 O2 O3) as (Hp & Hq & Hr & ND).
  destruct (three p q r ND) as (A & B & C). destruct (filters p q r ND) as (F1 & F2 & F3).
  assert (L1' := sk_sym _ _ _ _ _ K p q L1). assert (L2' := sk_sym _ _ _ _ _ K p r L2). assert (L3' := sk_sym _ _ _ _ _ K q r L3).
  rewrite (partial_round g0 [] N cor g [p; q; r] p q r [] [q; r] [] [] K eq_refl Hq Hr Hp ltac:(apply three'; congruence) F1). rewrite L3, L1', L2'. cbn [negb orb mem existsb andb].
  assert (X : forall (b1 : bool) dl, (dl = [] \/ dl = [(q, r)]) -> forall acc, acc = [if b1 then separated q r [p] else not_separated q r [p]] ->
    partial_loop N g [p; q; r] [q; r] dl acc =
    match pans p r q with Err e => Err e | Ok None => Ok None | Ok (Some b2) =>
    match pans p q r with Err e => Err e | Ok None => Ok None | Ok (Some b3) =>
      Ok (Some [if b1 then separated q r [p] else not_separated q r [p];
                if b2 then separated p r [q] else not_separated p r [q];
                if b3 then separated p q [r] else not_separated p q [r]]) end end).
  { intros b1 dl Hd acc ->.
    rewrite (partial_round g0 [] N cor g [p; q; r] q p r [] [r] dl _ K eq_refl Hp Hr Hq ltac:(apply three'; congruence) F2). rewrite L2, L1, L3'.
    assert (M1 : mem (r, p) dl = false) by (destruct Hd as [-> | ->]; [reflexivity|]; cbn; apply orb_false_iff; split; [apply eqb_neq; congruence|reflexivity]).
    rewrite M1. cbn [negb orb andb].
    assert (Y : forall (b2 : bool) dl', (dl' = dl \/ dl' = (p, r) :: dl) -> forall acc, 
      acc = [if b1 then separated q r [p] else not_separated q r [p]; if b2 then separated p r [q] else not_separated p r [q]] -> partial_loop N g [p; q; r] [r] dl' acc =
      match pans p q r with Err e => Err e | Ok None => Ok None | Ok (Some b3) =>
        Ok (Some [if b1 then separated q r [p] else not_separated q r [p];
                  if b2 then separated p r [q] else not_separated p r [q];
                  if b3 then separated p q [r] else not_separated p q [r]]) end).
    { intros b2 dl' Hd' acc ->. rewrite (partial_round g0 [] N cor g [p; q; r] r p q [] [] dl' _ K eq_refl Hp Hq Hr ND F3). rewrite L1, L2, L3.
      assert (M2 : mem (q, p) dl' = false).
      { assert (M3 : mem (q, p) dl = false) by (destruct Hd as [-> | ->]; [reflexivity|]; cbn; apply orb_false_iff; split; [apply eqb_neq; congruence|reflexivity]).
        destruct Hd' as [-> | ->]; [exact M3|]. unfold mem in *. cbn [existsb]. rewrite M3. rewrite (eqb_neq (q, p) (p, r)) by congruence. reflexivity. }
      rewrite M2. cbn [negb orb andb]. destruct (pans p q r) as [[[|]|]|e]; reflexivity. }
    destruct (pans p r q) as [[[|]|]|e]; [apply (Y true); auto|apply (Y false); auto|reflexivity|reflexivity]. }
  destruct (pans q r p) as [[[|]|]|e]; [apply (X true); auto|apply (X false); auto|reflexivity|reflexivity].
Qed.
(* soundness of one call *)
Lemma partial_sound g ns : sk g -> List.length ns = 3 -> forall l deleted acc, Forall Q acc ->
  (forall z, In z l -> exists x y rest, filter (fun n => negb (eqb n z)) ns = x :: y :: rest /\ ord x y /\ node z /\ NoDup [x; y; z]) ->
  match partial_loop N g ns l deleted acc with Ok o => goodo Q o | Err e => E e end.
Proof.
  intros K Ln. induction l as [|z l IH]; intros deleted acc Fa Hl; [exact Fa|].
  destruct (Hl z (or_introl eq_refl)) as (x & y & rest & F & O & Hz & ND). destruct (ord_ok g0 CP x y O) as (Hx & Hy & Ne).
  rewrite (partial_round g0 [] N cor g ns z x y rest l deleted acc (weak g K) Ln Hx Hy Hz ND F).
  assert (Hl' : forall z, In z l -> exists x y rest, filter (fun n => negb (eqb n z)) ns = x :: y :: rest /\ ord x y /\ node z /\ NoDup [x; y; z]) by (intros w Hw; apply Hl; right; exact Hw).
  destruct (negb (directed_edge_exists g x y) || mem (y, x) deleted); [apply IH; assumption|].
  destruct (negb (_ && _)); [constructor|]. destruct (n_partial N _ _ _ _ _) as [[[|]|]|e] eqn:T; [| |constructor|eapply raised_partial; exact T]; apply IH; try exact Hl'.
  - apply Forall_app; split; [exact Fa|constructor; [|constructor]]. right. exists x, y, [z]. split; [reflexivity|]. split; [exact Hx|]. split; [exact Hy|].
    split; [exact Ne|]. apply Hpart; assumption.
  - apply Forall_app; split; [exact Fa|constructor; [left; reflexivity|constructor]].
Qed.
Lemma partial_rounds_ord p q r : ord p q -> ord p r -> ord q r -> forall z, In z [p; q; r] ->
  exists x y rest, filter (fun n => negb (eqb n z)) [p; q; r] = x :: y :: rest /\ ord x y /\ node z /\ NoDup [x; y; z].
Proof.
  intros O1 O2 O3 z Hz. destruct (triple_nd p q r O1 O2 O3) as (Hp & Hq & Hr & ND). destruct (three p q r ND) as (A & B & C). destruct (filters p q r ND) as (F1 & F2 & F3).
  destruct Hz as [<-|[<-|[<-|[]]]]; [exists q, r, []|exists p, r, []|exists p, q, []];
    (split; [assumption|]; split; [assumption|]; split; [assumption|]; apply three'; congruence).
Qed.
Lemma partial_goods par : good_step sk E Q triple_ord (partial_step par N).
Proof.
  split.
  - intros g ns us K (p & q & r & -> & O1 & O2 & O3) _. destruct (triple_nd p q r O1 O2 O3) as (Hp & Hq & Hr & ND).
    rewrite (partial_call g0 [] N cor par g p q r us (weak g K) Hp Hq Hr).
    apply (partial_sound g [p; q; r] K eq_refl [p; q; r] [] [] (Forall_nil _)). apply partial_rounds_ord; assumption.
  - intros g1 K1. constructor; [|constructor]. intros g2 _. apply Forall_forall. intros e H. apply in_map_iff in H. destruct H as (ns & <- & H).
    rewrite (same_combs _ g1 (sk_nodes _ _ _ _ _ K1)) in H. assert (T := triples_ord ns H). destruct par; exact T.
Qed.
(* the triple of p, q, r in the order of the data, one of whose pairs is found independent, or the test of it raises *)
Definition Kpart (l : list (id * id)) : Prop := exists p q r x y z, In [p; q; r] (all_combinations (mkCS 3 3) g0) /\
  pans q r p <> Ok None /\ pans p r q <> Ok None /\ pans p q r <> Ok None /\
  ((x, y, z) = (q, r, p) \/ (x, y, z) = (p, r, q) \/ (x, y, z) = (p, q, r)) /\ pans x y z <> Ok (Some false) /\ l = [(x, y); (x, z); (y, z)].
Lemma part_wins par p q r x y z : In [p; q; r] (all_combinations (mkCS 3 3) g0) ->
  pans q r p <> Ok None -> pans p r q <> Ok None -> pans p q r <> Ok None ->
  ((x, y, z) = (q, r, p) \/ (x, y, z) = (p, r, q) \/ (x, y, z) = (p, q, r)) -> pans x y z <> Ok (Some false) ->
  wins_on sk (some_gone [(x, y); (x, z); (y, z)]) (wins [(x, y); (x, z); (y, z)]) (partial_step par N) [p; q; r].
Proof.
  intros Hc A1 A2 A3 Cs T g us K. destruct (some_gone_dec [(x, y); (x, z); (y, z)] g) as [G|L]; [left; exact G|]. right. intros o Co.
  destruct (triples_ord _ Hc) as (p' & q' & r' & Epqr & O1 & O2 & O3). injection Epqr as <- <- <-. destruct (triple_nd p q r O1 O2 O3) as (Hp & Hq & Hr & ND).
  assert (LL : directed_edge_exists g p q = true /\ directed_edge_exists g p r = true /\ directed_edge_exists g q r = true).
  { assert (B1 := L (x, y) (or_introl eq_refl)). assert (B2 := L (x, z) (or_intror (or_introl eq_refl))). assert (B3 := L (y, z) (or_intror (or_intror (or_introl eq_refl)))). cbn [fst snd] in *.
    destruct Cs as [Ex|[Ex|Ex]]; injection Ex as -> -> ->; repeat split; try assumption; apply (sk_sym _ _ _ _ _ K); assumption. }
  destruct LL as (L1 & L2 & L3). rewrite (partial_call g0 [] N cor par g p q r us (weak g K) Hp Hq Hr), (partial_live g p q r K O1 O2 O3 L1 L2 L3) in Co.
  assert (W : forall b a d c, (x, y, z) = (a, d, c) -> pans a d c = Ok (Some b) -> wins [(x, y); (x, z); (y, z)] (if b then separated a d [c] else not_separated a d [c])).
  { intros b a d c Ex Tb. injection Ex as <- <- <-. destruct b; [|congruence]. exists (x, y), [(x, z); (y, z)]. split; [reflexivity|]. exists [z]. left; reflexivity. }
  destruct (pans q r p) as [[b1|]|e] eqn:T1; [|congruence|discriminate]. destruct (pans p r q) as [[b2|]|e] eqn:T2; [|congruence|discriminate].
  destruct (pans p q r) as [[b3|]|e] eqn:T3; [|congruence|discriminate]. injection Co as <-. cbn [items_of].
  destruct Cs as [Ex|[Ex|Ex]]; eexists; (split; [|eapply W; [exact Ex|eassumption]]); cbn; auto.
Qed.
Section Part.
Variables (dry : bool) (P : runner) (g : graph).
Hypothesis K : sk g.
Variable Inv : graph -> Prop.
Hypothesis IInv : Inv g.
Hypothesis HI : dry = false -> forall i, Q i -> keeps Inv E (apply_action i) (fun _ _ => True).
Hypothesis HT : dry = false -> forall l i, Q i -> keeps (InvT Inv (some_gone l)) E (apply_action i) (fun _ _ => True).
Hypothesis HW : dry = false -> forall l i g, Q i -> wins l i -> Inv g -> some_gone l (fst (apply_action i g)).
Notation pstep := (partial_step false N).
Lemma part_gen : gen_run (s_gen pstep g) g = Ok (map Generators.One (all_combinations (mkCS 3 3) g0) ++ []).
Proof. rewrite <- (same_combs (mkCS 3 3) g (sk_nodes _ _ _ _ _ K)). reflexivity. Qed.
Lemma part_ems : Forall (good_em E triple_ord false) (map Generators.One (all_combinations (mkCS 3 3) g0) ++ []).
Proof. rewrite app_nil_r. apply Forall_forall. intros e H. apply in_map_iff in H. destruct H as (ns & <- & H). exact (triples_ord ns H). Qed.
Lemma part_calls : good_calls (fun g' => g' = g) E Q triple_ord pstep.
Proof. intros g' ns us ->. exact (proj1 (partial_goods false) g ns us K). Qed.
Lemma part_plain : plain_step pstep. Proof. repeat split. Qed.
Lemma part_tri : tri Inv E (execute_step P no_hooks pstep dry) g (fun a _ => good2 Q a).
Proof. exact (collect_tri Inv E Q dry triple_ord HI pstep part_plain P g _ part_gen part_ems part_calls IInv). Qed.
Lemma part_serve l : Kpart l -> (forall p, In p l -> directed_edge_exists g (fst p) (snd p) = true) ->
  tri Inv E (execute_step P no_hooks pstep dry) g (fun a g => served (some_gone l) (wins l) dry a g).
Proof.
  intros (p & q & r & x & y & z & Hc & A1 & A2 & A3 & Cs & T & ->) L.
  eapply tri_weaken; [apply (collect_serve Inv (some_gone [(x, y); (x, z); (y, z)]) E Q (wins [(x, y); (x, z); (y, z)]) dry triple_ord HI pstep part_plain P g _ part_gen part_ems part_calls IInv
    (fun h => HT h _) (fun h => HW h _) (Generators.One [p; q; r]) [p; q; r])|].
  - apply in_app_iff; left. apply in_map; exact Hc.
  - reflexivity.
  - intros us. destruct (part_wins false p q r x y z Hc A1 A2 A3 Cs T g us K) as [(w & Hw & G)|W]; [|exact W].
    exfalso. unfold gone in G. rewrite (L w Hw) in G. discriminate.
  - intros a g' _ [S _]; exact S.
Qed.
End Part.
Lemma part_serves P g l : sk g -> Kpart l -> tri sk E (execute_step P no_hooks (partial_step false N) false) g (fun _ g' => some_gone l g').
Proof.
  intros K Kl. destruct (some_gone_dec l g) as [G|L].
  - exact (keeps_some_gone P (partial_step false N) triple_ord l ltac:(discriminate) (partial_goods false) g K G).
  - eapply tri_weaken; [apply (part_serve false P g K sk K (fun _ => q_act) (fun _ => q_gone) (fun _ => q_wins) l Kl L)|].
    intros a g' _ [T|[F _]]; [exact T|discriminate].
Qed.

(* ---- matrix test ---- *)
Section Mat.
Variable min : nat.
Hypothesis Hmin : 3 <= min.
Definition cond_set (x y : id) (S : list id) : Prop := NoDup (x :: y :: S) /\ (forall z, In z (x :: y :: S) -> node z) /\ min <= List.length S + 2.
Hypothesis Hmat : forall x y S zs, cond_set x y S -> n_matrix N (map (values_of g0) (x :: y :: S)) = Ok (Some true) -> Permutation zs S -> Sep x y zs.
Definition test_min (ns : list id) : Prop := exists x y S, ns = x :: y :: S /\ cond_set x y S.

Lemma zs_perm x y S : NoDup (x :: y :: S) -> Permutation (so (filter (fun n => negb (eqb n x) && negb (eqb n y)) (x :: y :: S))) S.
Proof.
  intros ND. apply NoDup_Permutation; [apply (proj1 (SO _))|inversion ND as [|? ? _ ND2]; subst; inversion ND2; assumption|]. intros z. apply (zs_same so SO x y S ND).
Qed.
Lemma matrix_exact s g x y S us : matrix_like N so s -> sk g -> cond_set x y S ->
  let zs := so (filter (fun n => negb (eqb n x) && negb (eqb n y)) (x :: y :: S)) in
  let ans := match n_matrix N (map (values_of g0) (x :: y :: S)) with
             | Ok (Some b) => Ok (Some [if b then separated x y zs else not_separated x y zs]) | Ok None => Ok None | Err e => Err e end in
  (call s g (x :: y :: S) us = Ok None \/ call s g (x :: y :: S) us = ans) /\
  (directed_edge_exists g x y = true -> (forall z, In z S -> directed_edge_exists g x z = true) -> call s g (x :: y :: S) us = ans).
Proof.
  intros [M1 M2] K (ND & Hn & _). cbn zeta. unfold call. rewrite M1, M2. unfold matrix_test.
  rewrite (map_ext (values_of g) (values_of g0)) by (intros; apply (values_same g0 [] cor Sep g _ K)).
  rewrite (node_at_ok g0 [] cor Sep g (x :: y :: S) 0 x K eq_refl (Hn x (or_introl eq_refl))), (node_at_ok g0 [] cor Sep g (x :: y :: S) 1 y K eq_refl (Hn y (or_intror (or_introl eq_refl)))).
  cbn [rbind]. rewrite (skel_ee g0 [] cor Sep g x y K). destruct (directed_edge_exists g x y) eqn:L; cbn [negb]; [|split; [left; reflexivity|discriminate]].
  assert (Nxy : x <> y) by (inversion ND as [|? ? N1 _]; subst; intros ->; apply N1; left; reflexivity).
  assert (R := sk_rows _ _ _ _ _ K x y (Hn x (or_introl eq_refl)) (Hn y (or_intror (or_introl eq_refl))) Nxy).
  unfold row_of. unfold dmem in R. destruct (dget (edges g) x) as [row|] eqn:Rw; [|discriminate]. cbn [rbind].
  assert (NB : forall z, directed_edge_exists g x z = true -> mem z (filter (fun k => directed_edge_exists g k x) (dkeys row)) = true).
  { intros z Lz. apply mem_In, filter_In. split; [|exact (sk_sym _ _ _ _ _ K x z Lz)].
    destruct (live_entry _ _ _ (sk_wf _ _ _ _ _ K) Lz) as (e & Eg & _). unfold eget, dget2 in Eg. rewrite Rw in Eg. eapply dmem_In. unfold dmem. rewrite Eg. reflexivity. }
  rewrite (NB y L). cbn [negb].
  set (oth := filter (fun k => negb (eqb k y)) _). destruct (forallb (fun n => mem n oth) (skipn 2 (x :: y :: S))) eqn:FA; cbn [negb].
  - assert (NF : forallb (dmem (nodes g)) (x :: y :: S) = true).
    { apply forallb_forall. intros z Hz. rewrite (sk_nodes _ _ _ _ _ K). apply (Hn z Hz). }
    rewrite NF. cbn [negb]. destruct (n_matrix N _) as [[b|]|e]; cbn [rbind]; (split; [right; reflexivity|intros _ _; reflexivity]).
  - split; [left; reflexivity|]. intros _ HS. exfalso. rewrite <- not_true_iff_false in FA. apply FA. apply forallb_forall. cbn [skipn]. intros z Hz.
    apply mem_In. unfold oth. apply filter_In. split; [apply mem_In, NB, HS, Hz|]. apply negb_true_iff, eqb_neq. intros ->.
    inversion ND as [|? ? _ ND2]; subst. inversion ND2; subst; contradiction.
Qed.
Lemma matrix_callsok s : matrix_like N so s -> good_calls sk E Q test_min s.
Proof.
  intros M g ns us K (x & y & S & -> & CS) _. assert (X := proj1 (matrix_exact s g x y S us M K CS)). cbn zeta in X.
  destruct (n_matrix N (map (values_of g0) (x :: y :: S))) as [[b|]|e] eqn:T.
  - assert (Qi : Q (if b then separated x y (so (filter (fun n => negb (eqb n x) && negb (eqb n y)) (x :: y :: S))) else not_separated x y (so (filter (fun n => negb (eqb n x) && negb (eqb n y)) (x :: y :: S))))).
    { destruct b; [|left; reflexivity]. right. eexists x, y, _. split; [reflexivity|]. assert (CS' := CS). destruct CS' as (ND & Hn & _). split; [apply Hn; left; reflexivity|].
      split; [apply Hn; right; left; reflexivity|]. split; [inversion ND as [|? ? N1 _]; subst; intros ->; apply N1; left; reflexivity|].
      apply (Hmat x y S _ CS T). apply zs_perm; exact ND. }
    destruct X as [-> | ->]; [constructor|]. constructor; [exact Qi|constructor].
  - destruct X as [-> | ->]; constructor.
  - destruct X as [-> | ->]; [constructor|eapply raised_matrix; exact T].
Qed.

Section Gen.
Variable sh : option (nat * id * id -> list (list id) -> list (list id)).
Hypothesis SH : is_shuffle sh.
Lemma gslot chunked k x y g gs : min <= k -> sk gs -> In (k, x, y) (pwn_slots gs [k]) -> sk g ->
  exists es, pwn_slot so sh chunked (k, x, y) g = Ok es /\ Forall (good_em E test_min chunked) es.
Proof.
  intros Hk Ks Hs K. apply slots_In in Hs; [|exact (sk_wf _ _ _ _ _ Ks)]. destruct Hs as (_ & e & Ge).
  assert (Eg : eget gs x y = Some e) by (unfold eget; unfold get_edge in Ge; destruct (dget2 (edges gs) x y); [injection Ge as ->; reflexivity|discriminate]).
  destruct (wf_fwd _ (sk_wf _ _ _ _ _ Ks) _ _ _ Eg) as (Hx & Hy & Nxy & _). rewrite (sk_nodes _ _ _ _ _ Ks) in Hx, Hy.
  assert (R := sk_rows _ _ _ _ _ K x y Hx Hy Nxy). apply dmem_In in R.
  destruct (pwn_slot_ok so sh chunked k x y g (sk_wf _ _ _ _ _ K) R) as (es & Es). exists es. split; [exact Es|].
  destruct (slot_out_spec so sh SO SH chunked k x y g (sk_wf _ _ _ _ _ K) ltac:(lia) R) as (S1 & _).
  apply Forall_forall. intros em He.
  assert (EM := slot_em so sh chunked k x y g es ltac:(lia) Es em He).
  assert (A : forall ns, In ns (contents em) -> test_min ns).
  { intros ns Hn. destruct (S1 ns) as (S & -> & Ar & Ln & ND & HS).
    { unfold slot_out. rewrite Es. apply in_flat_map. eauto. }
    exists x, y, S. split; [reflexivity|]. split; [|split].
    - constructor; [|constructor; [|exact ND]].
      + intros [->|H]; [congruence|]. destruct (HS x H) as [[Nb _] _]. destruct (skel_dee_nodes g0 [] cor Sep g x x K Nb) as (_ & _ & F). congruence.
      + intros H. destruct (HS y H) as [_ F]. congruence.
    - intros z [<-|[<-|H]]; [exact Hx|exact Hy|]. destruct (HS z H) as [[Nb _] _]. apply (skel_dee_nodes g0 [] cor Sep g z x K Nb).
    - cbn [List.length] in Ln. lia. }
  destruct chunked; destruct EM as (l & ->); cbn in *; [apply Forall_forall; exact A|apply A; left; reflexivity].
Qed.
Lemma gblocks chunked gs f : sk gs -> In f (gen_neighbours so sh chunked (mkCS min 0) gs) ->
  exists k x y, f = pwn_slot so sh chunked (k, x, y) /\ min <= k /\ In (k, x, y) (pwn_slots gs [k]).
Proof. intros K. exact (neigh_blocks g0 [] cor so sh chunked min gs f Hmin (weak gs K)). Qed.
Lemma ggood chunked gs : sk gs -> Forall (good_block sk E test_min chunked) (gen_neighbours so sh chunked (mkCS min 0) gs).
Proof.
  intros Ks. apply Forall_forall. intros f Hf. destruct (gblocks chunked gs f Ks Hf) as (k & x & y & -> & Hk & Hs).
  intros g K. destruct (gslot chunked k x y g gs Hk Ks Hs K) as (es & -> & F). exact F.
Qed.
Lemma gsample A chunked coin : forall l i, Forall (good_block sk E A chunked) l -> Forall (good_block sk E A chunked) (gen_sample_from coin i l).
Proof.
  induction l as [|f l IH]; intros i F; cbn; [constructor|]. inversion F as [|? ? Hf Fl]; subst. constructor; [|apply IH; exact Fl].
  intros g K. specialize (Hf g K). destruct (f g) as [es|e]; cbn; [|exact Hf]. apply Forall_forall. intros em H. apply keep_In in H. rewrite Forall_forall in Hf. auto.
Qed.

(* the pair and its conditioning set *)
Definition star (x y : id) (S : list id) : list (id * id) := (x, y) :: map (fun z => (x, z)) S.
Lemma star_live g x y S : (forall p, In p (star x y S) -> directed_edge_exists g (fst p) (snd p) = true) ->
  directed_edge_exists g x y = true /\ forall z, In z S -> directed_edge_exists g x z = true.
Proof.
  intros H. split; [apply (H (x, y)); left; reflexivity|]. intros z Hz. apply (H (x, z)). right. apply in_map_iff. exists z; auto.
Qed.
Lemma star_ext g x y S S' : Permutation S' S -> some_gone (star x y S') g -> some_gone (star x y S) g.
Proof.
  intros Pm (p & Hp & G). exists p. split; [|exact G]. destruct Hp as [<-|Hp]; [left; reflexivity|]. right. apply in_map_iff in Hp. destruct Hp as (z & <- & Hz).
  apply in_map_iff. exists z. split; [reflexivity|]. eapply Permutation_in; eassumption.
Qed.
Lemma cond_perm x y S S' : Permutation S' S -> cond_set x y S -> cond_set x y S'.
Proof.
  intros Pm (ND & Hn & Hl). split; [|split].
  - eapply Permutation_NoDup; [|exact ND]. do 2 apply perm_skip. apply Permutation_sym; exact Pm.
  - intros z Hz. apply Hn. eapply Permutation_in; [|exact Hz]. do 2 apply perm_skip. exact Pm.
  - rewrite (Permutation_length Pm). exact Hl.
Qed.
Definition always (x y : id) (S : list id) : Prop := forall S', Permutation S' S -> n_matrix N (map (values_of g0) (x :: y :: S')) = Ok (Some true).
Lemma star_wins s x y S S' : matrix_like N so s -> cond_set x y S -> Permutation S' S -> always x y S ->
  wins_on sk (some_gone (star x y S)) (wins (star x y S)) s (x :: y :: S').
Proof.
  intros M CS Pm Al g us K. destruct (some_gone_dec (star x y S) g) as [G|L]; [left; exact G|]. right. intros o Co. apply star_live in L. destruct L as [L1 L2].
  rewrite (proj2 (matrix_exact s g x y S' us M K (cond_perm x y S S' Pm CS)) L1 ltac:(intros z Hz; apply L2; eapply Permutation_in; eassumption)) in Co.
  rewrite (Al S' Pm) in Co. injection Co as <-. eexists. split; [left; reflexivity|]. exists (x, y), (map (fun z => (x, z)) S). split; [reflexivity|]. eexists. left; reflexivity.
Qed.
Lemma star_block s chunked gs x y S : matrix_like N so s -> sk gs -> directed_edge_exists gs x y = true -> cond_set x y S -> always x y S ->
  exists f, In f (gen_neighbours so sh chunked (mkCS min 0) gs) /\ block_wins sk (some_gone (star x y S)) (wins (star x y S)) s chunked f.
Proof.
  intros M Ks L CS Al. assert (CS' := CS). destruct CS' as (ND & Hn & Hk). set (k := List.length S + 2). assert (Wf := sk_wf _ _ _ _ _ Ks).
  assert (LN : k <= List.length (nodes gs)).
  { assert (X := NoDup_incl_length ND (l' := dkeys (nodes g0))). unfold dkeys in X. rewrite map_length in X. rewrite (sk_nodes _ _ _ _ _ Ks). unfold k.
    cbn [List.length] in X. unfold id in *. specialize (X ltac:(intros z Hz; apply node_In, Hn, Hz)). lia. }
  exists (pwn_slot so sh chunked (k, x, y)). split.
  - unfold gen_neighbours. cbn [cs_min]. destruct (Nat.ltb_spec (List.length (nodes gs)) min); [lia|].
    assert (X := proj2 (cs_stop_spec (mkCS min 0) (List.length (nodes gs)) k)). cbn [cs_min] in X. unfold size_in in X. cbn [cs_min cs_max] in X. specialize (X ltac:(lia)).
    destruct (Nat.ltb_spec (cs_stop (mkCS min 0) (List.length (nodes gs))) min); [lia|]. destruct (Nat.ltb_spec min 2); [lia|].
    apply in_map_iff. exists (k, x, y). split; [reflexivity|]. apply slots_In; [exact Wf|]. split; [apply range_In; exact X|].
    destruct (live_entry _ _ _ Wf L) as (e & Eg & _). exists e. unfold get_edge. unfold eget in Eg. rewrite Eg. reflexivity.
  - intros g K. destruct (some_gone_dec (star x y S) g) as [G|Lg]; [left; exact G|]. right. intros es Es. apply star_live in Lg. destruct Lg as [L1 L2].
    assert (Hx := Hn x (or_introl eq_refl)). assert (Hy := Hn y (or_intror (or_introl eq_refl))).
    assert (Nxy : x <> y) by (inversion ND as [|? ? N1 _]; subst; intros ->; apply N1; left; reflexivity).
    assert (R := sk_rows _ _ _ _ _ K x y Hx Hy Nxy). apply dmem_In in R.
    destruct (slot_out_spec so sh SO SH chunked k x y g (sk_wf _ _ _ _ _ K) ltac:(lia) R) as (_ & S2 & _).
    inversion ND as [|? ? N1 ND2]; subst. inversion ND2 as [|? ? N2 ND3]; subst. cbn in N1.
    destruct (S2 S L1 ltac:(unfold k; lia) ND3) as (S' & Pm & Hin).
    { intros z Hz. split; [|intros ->; contradiction]. assert (Lz' := L2 z Hz). split; [exact (sk_sym _ _ _ _ _ K x z Lz')|].
      destruct (live_entry _ _ _ (sk_wf _ _ _ _ _ K) Lz') as (e & Eg & _). exists e. unfold get_edge. unfold eget in Eg. rewrite Eg. reflexivity. }
    unfold slot_out in Hin. rewrite Es in Hin. apply in_flat_map in Hin. destruct Hin as (em & He & Hc).
    exists em, (x :: y :: S'). split; [exact He|]. split.
    + assert (X := slot_em so sh chunked k x y g es ltac:(lia) Es em He). destruct chunked; destruct X as (l & ->); cbn in *; [exact Hc|].
      destruct Hc as [->|[]]. reflexivity.
    + apply star_wins; assumption.
Qed.
End Gen.

Definition Kmat (l : list (id * id)) : Prop := exists x y S, l = star x y S /\ cond_set x y S /\ always x y S.
Lemma seq_good : good_step sk E Q test_min (matrix_step so min N).
Proof. split; [apply matrix_callsok; split; reflexivity|]. intros g K. exact (ggood None Logic.I true g K). Qed.
Section Any.
Variables (P : runner) (dry : bool).
Variable Inv : graph -> Prop.
Hypothesis Isk : forall g, Inv g -> sk g.
Hypothesis HI : dry = false -> forall i, Q i -> keeps Inv E (apply_action i) (fun _ _ => True).
Hypothesis HT : dry = false -> forall l i, Q i -> keeps (InvT Inv (some_gone l)) E (apply_action i) (fun _ _ => True).
Hypothesis HW : dry = false -> forall l i g, Q i -> wins l i -> Inv g -> some_gone l (fst (apply_action i g)).
Lemma seq_tri g : Inv g -> tri Inv E (execute_step P no_hooks (matrix_step so min N) dry) g (fun a _ => good2 Q a) /\
  (forall l, Kmat l -> tri Inv E (execute_step P no_hooks (matrix_step so min N) dry) g (fun a g => served (some_gone l) (wins l) dry a g)).
Proof.
  intros I. assert (K := Isk g I). destruct seq_good as [C G]. assert (Gg := G g K). cbn in Gg.
  assert (C' : good_calls Inv E Q test_min (matrix_step so min N)) by exact (good_calls_mono sk Inv E Q _ _ Isk C).
  assert (G' : Forall (good_block Inv E test_min true) (s_gen (matrix_step so min N) g)).
  { eapply Forall_impl; [|exact Gg]. intros f Hf. exact (good_block_mono sk Inv E _ _ f Isk Hf). }
  split.
  - unfold execute_step. cbn [matrix_step s_parallel s_chunked]. apply tri_gget.
    exact (keeps_blocks Inv E Q no_hooks (no_hooks_good _ _ _) dry HI test_min (matrix_step so min N) _ C' G' g I).
  - intros l (x & y & S & -> & CS & Al). unfold execute_step. cbn [matrix_step s_parallel s_chunked]. apply tri_gget.
    destruct (directed_edge_exists g x y) eqn:L.
    + destruct (star_block None Logic.I (matrix_step so min N) true g x y S (conj eq_refl eq_refl) K L CS Al) as (f & Hf & Wf).
      eapply tri_weaken; [apply (blocks_serve Inv (some_gone (star x y S)) E Q (wins (star x y S)) dry test_min HI (fun h => HT h _) (fun h => HW h _) (matrix_step so min N) C' _ f G' Hf)|].
      * exact (block_wins_mono sk Inv _ _ _ _ f Isk Wf).
      * exact I.
      * intros a g' _ [T _]; exact T.
    + assert (T : some_gone (star x y S) g) by (exists (x, y); split; [left; reflexivity|exact L]).
      eapply tri_weaken; [apply (blocks_T Inv (some_gone (star x y S)) E Q dry test_min (fun h => HT h _) (matrix_step so min N) C' _ g G' I T)|].
      intros a g' _ [_ T']. left; exact T'.
Qed.
End Any.
Lemma seq_serves P g l : sk g -> Kmat l -> tri sk E (execute_step P no_hooks (matrix_step so min N) false) g (fun _ g' => some_gone l g').
Proof.
  intros K Kl. destruct (seq_tri P false sk (fun _ h => h) (fun _ => q_act) (fun _ => q_gone) (fun _ => q_wins) g K) as [_ S].
  eapply tri_weaken; [apply (S l Kl)|]. intros a g' _ [T|[F _]]; [exact T|discriminate].
Qed.

End Mat.

(* ---- in a worker pool ---- *)
Section Pool.
Variable P : runner.
Hypothesis HP : pool_runner no_hooks P.
Lemma pool_serves s A g l : s_parallel s = true -> good_step sk E Q A s -> s_chunked s = false -> sk g ->
  (some_gone l g \/ exists f, In f (s_gen s g) /\ block_wins sk (some_gone l) (wins l) s false f) ->
  tri sk E (execute_step P no_hooks s false) g (fun _ g' => some_gone l g').
Proof.
  intros Par GS Ch K Case. assert (ST := keeps_step sk E Q no_hooks (no_hooks_good _ _ _) false (fun _ => q_act) A P s (fun _ => HP) GS g K).
  destruct GS as [C G]. assert (Gg := G g K). rewrite Par, Ch in Gg. cbn [negb andb] in Gg.
  split; [exact (proj1 ST)|]. destruct ST as [_ ST]. unfold execute_step in *. rewrite Par in *.
  assert (PR := HP s false g). unfold par_exec in PR.
  assert (Y := par_serve sk (some_gone l) E Q (wins l) false A (fun _ => q_act) (fun _ => q_gone _) (fun _ => q_wins _)
    s C _ _ _ _ _ _ _ PR Gg (Forall_nil _) (Forall_nil _) (Forall_cons _ K (Forall_nil _)) K (conj (Forall_nil _) (Forall_nil _))).
  destruct (snd (P s false g)) as [a|e]; [|exact ST].
  assert (Z : served (some_gone l) (wins l) false a (fst (P s false g))).
  { apply Y; [intros p [<-|[]]; auto|]. destruct Case as [T|F]; [left; exact T|right; left; exact F]. }
  destruct Z as [T|[F _]]; [exact T|discriminate].
Qed.
Lemma pool_part_serves g l : sk g -> Kpart l -> tri sk E (execute_step P no_hooks (partial_step true N) false) g (fun _ g' => some_gone l g').
Proof.
  intros K Kl. apply (pool_serves (partial_step true N) triple_ord g l eq_refl (partial_goods true) eq_refl K). right.
  destruct Kl as (p & q & r & x & y & z & Hc & A1 & A2 & A3 & Cs & T & ->).
  eexists. split; [left; reflexivity|]. intros g' K'. right. intros es Es. injection Es as <-.
  exists (Generators.One [p; q; r]), [p; q; r]. split.
  - apply in_map. rewrite (same_combs _ g (sk_nodes _ _ _ _ _ K)). exact Hc.
  - split; [reflexivity|]. apply part_wins; assumption.
Qed.
Variables sh sh' : nat * id * id -> list (list id) -> list (list id).
Variable coin : nat -> nat -> bool.
Hypothesis SH : is_shuffle (Some sh).
Hypothesis SH' : is_shuffle (Some sh').
Hypothesis Hmat4 : forall x y S zs, cond_set 4 x y S -> n_matrix N (map (values_of g0) (x :: y :: S)) = Ok (Some true) -> Permutation zs S -> Sep x y zs.
Lemma psampled_good : good_step sk E Q (test_min 4) (matrix_step_sampled so sh coin N).
Proof.
  split; [apply (matrix_callsok 4 Hmat4); split; reflexivity|]. intros g K. cbn. apply gsample. exact (ggood 4 ltac:(lia) (Some sh) SH false g K).
Qed.
Lemma pparallel_good : good_step sk E Q (test_min 4) (matrix_step_parallel so sh' N).
Proof. split; [apply (matrix_callsok 4 Hmat4); split; reflexivity|]. intros g K. cbn. exact (ggood 4 ltac:(lia) (Some sh') SH' false g K). Qed.
Lemma pparallel_serves g l : sk g -> Kmat 4 l -> tri sk E (execute_step P no_hooks (matrix_step_parallel so sh' N) false) g (fun _ g' => some_gone l g').
Proof.
  intros K (x & y & S & -> & CS & Al). apply (pool_serves (matrix_step_parallel so sh' N) (test_min 4) g _ eq_refl pparallel_good eq_refl K).
  destruct (directed_edge_exists g x y) eqn:L; [right|left; exists (x, y); split; [left; reflexivity|exact L]].
  exact (star_block 4 ltac:(lia) (Some sh') SH' (matrix_step_parallel so sh' N) false g x y S (conj eq_refl eq_refl) K L CS Al).
Qed.
End Pool.

End Tested.
