(* What each step of the skeleton phase does under perfect tests. *)
From Verif Require Import Base PyDict PyDictFacts Graph GraphSpec GraphFacts GraphInv GraphInv2 GraphInv3 GraphQ GraphMain
  GraphPaths PathSpec Actions ActionSpec ActionFacts ActionMain Generators GenSpec GenFacts Rules IndepTests Pipeline Parallel PipeFacts RuleFacts
  Construct ConstructSpec ConstructFacts Dag DagFacts DagSep SkelSpec Rows Serve SkelFacts SkelStart.
Open Scope string_scope.
Open Scope list_scope.

Lemma tri_all {X K} Inv E (m : ST X) g (P : K -> Prop) (Q : K -> X -> graph -> Prop) :
  tri Inv E m g (fun _ _ => True) -> (forall k, P k -> tri Inv E m g (Q k)) -> tri Inv E m g (fun a g => forall k, P k -> Q k a g).
Proof.
  intros [I T] H. split; [exact I|]. destruct (snd (m g)) as [a|e] eqn:S; [|exact T]. intros k Pk. destruct (H k Pk) as [_ Y]. rewrite S in Y. exact Y.
Qed.
Lemma tri_and {X} Inv E (m : ST X) g (P P' : X -> graph -> Prop) : tri Inv E m g P -> tri Inv E m g P' -> tri Inv E m g (fun a g => P a g /\ P' a g).
Proof. intros [I T] [_ T']. split; [exact I|]. destruct (snd (m g)); auto. Qed.

Section Steps.
Variable g0 : graph.
Variable D : list (id * id).
Variable N : numerics.
Variable c : id -> id -> Z.
Variable so : list id -> list id.
Hypothesis DG : dag_over (dkeys (nodes g0)) D.
Hypothesis PT : perfect_tests N (values_of g0) (dkeys (nodes g0)) D c.
Hypothesis SO : set_order so.
Notation node := (SkelFacts.node g0).
Notation E := (edge_in D).

Definition good_sep (x y : id) (S : list id) : Prop := (forall z, In z S -> node z) /\ ~ In x S /\ ~ In y S /\ dsep D x y S.
Definition empty_sep (x y : id) (S : list id) : Prop := S = [] /\ dsep D x y [].

Lemma node_In x : node x <-> In x (dkeys (nodes g0)).
Proof. apply dmem_In. Qed.
Lemma good_sym x y S : good_sep x y S -> good_sep y x S.
Proof. intros (A & B & C & H). split; [exact A|split; [exact C|split; [exact B|apply d_separated_sym; exact H]]]. Qed.
Lemma empty_sym x y S : empty_sep x y S -> empty_sep y x S.
Proof. intros (A & H). split; [exact A|apply d_separated_sym; exact H]. Qed.
Lemma dsep_nadj x y S : dsep D x y S -> ~ adjacent E x y.
Proof.
  intros H A. assert (Ac := do_acyclic _ _ DG). destruct (string_dec x y) as [->|Ne].
  - destruct A as [A|A]; exact (no_loop E Ac y A).
  - exact (adjacent_connected E x y _ Ne A H).
Qed.
Lemma good_nadj x y S : good_sep x y S -> ~ adjacent E x y.
Proof. intros (_ & _ & _ & H). exact (dsep_nadj x y S H). Qed.
Lemma empty_nadj x y S : empty_sep x y S -> ~ adjacent E x y.
Proof. intros (_ & H). exact (dsep_nadj x y [] H). Qed.
Lemma empty_good x y S : empty_sep x y S -> good_sep x y S.
Proof. intros (-> & H). split; [intros z []|split; [intros []|split; [intros []|exact H]]]. Qed.

Lemma edge_nodes x y : E x y -> node x /\ node y.
Proof. intros A. destruct (do_nodes _ _ DG x y A) as [H1 H2]. split; apply node_In; assumption. Qed.
Lemma edge_loop x : ~ E x x.
Proof. apply (no_loop E (do_acyclic _ _ DG)). Qed.

Notation sk := (skel g0 D c).
Notation Q s := (proposal g0 s).
Lemma nothing_Q s x y zs : Q s (not_separated x y zs).
Proof. left; reflexivity. Qed.

(* ---- correlation step: all pairs live ---- *)
Section Corr.
Variable sepok : id -> id -> list id -> Prop.
Hypothesis S0 : forall x y, dsep D x y [] -> sepok x y [].
Hypothesis Ssym : forall x y S, sepok x y S -> sepok y x S.
Hypothesis Snadj : forall x y S, sepok x y S -> ~ adjacent E x y.
Lemma corr_call s g x y us : sk s g -> node x -> node y -> x <> y -> directed_edge_exists g x y = true ->
  exists b : bool, call (correlation_step N) g [x; y] us = Ok (Some [if b then separated x y [] else not_separated x y []]) /\ says b (dsep D x y []).
Proof.
  intros K Hx Hy Ne L. destruct (pt_corr _ _ _ _ _ PT x y (proj1 (node_In x) Hx) (proj1 (node_In y) Hy) Ne) as (b & T & Sa). exists b. split; [|exact Sa].
  unfold call. cbn [correlation_step s_proc s_unapplied]. unfold correlation_test.
  rewrite (node_at_ok g0 D c s g [x; y] 0 x K eq_refl Hx), (node_at_ok g0 D c s g [x; y] 1 y K eq_refl Hy). cbn [rbind].
  rewrite (get_corr_live g0 D c s g x y K L). cbn [rbind as_num]. rewrite (values_same g0 D c s g x K), T. reflexivity.
Qed.

Variable dry : bool.
Variable P : runner.
Variable g : graph.
Hypothesis K : sk sepok g.
Hypothesis AL : forall u v, node u -> node v -> u <> v -> directed_edge_exists g u v = true.
Variable Inv : graph -> Prop.
Hypothesis IInv : Inv g.
Hypothesis HI : dry = false -> forall i, Q sepok i -> keeps Inv noE (apply_action i) (fun _ _ => True).
Hypothesis HT : dry = false -> forall u v i, Q sepok i -> keeps (InvT Inv (gone u v)) noE (apply_action i) (fun _ _ => True).
Hypothesis HW : dry = false -> forall u v i g, Q sepok i -> removes u v i -> Inv g -> gone u v (fst (apply_action i g)).

Lemma corr_step : tri Inv noE (execute_step P no_hooks (correlation_step N) dry) g (fun a g => good2 (Q sepok) a /\
  forall u v, node u /\ node v /\ u <> v /\ dsep D u v [] -> served (gone u v) (removes u v) dry a g).
Proof.
  assert (Gen : gen_run (s_gen (correlation_step N) g) g = Ok (map One (all_combinations (mkCS 2 2) g) ++ [])) by reflexivity.
  assert (GE : Forall (good_em noE (pair_ok g0) false) (map One (all_combinations (mkCS 2 2) g) ++ [])).
  { rewrite app_nil_r. apply Forall_forall. intros e H. apply in_map_iff in H. destruct H as (ns & <- & H). cbn.
    apply (pairs_ok g0 g (sk_wf _ _ _ _ _ K) (sk_nodes _ _ _ _ _ K) ns H). }
  assert (C : good_calls (fun g' => g' = g) noE (Q sepok) (pair_ok g0) (correlation_step N)).
  { intros g' ns us -> (x & y & -> & Hx & Hy & Ne) _. destruct (corr_call sepok g x y us K Hx Hy Ne (AL x y Hx Hy Ne)) as (b & -> & Sa).
    constructor; [|constructor]. destruct b; [|apply nothing_Q]. right. exists x, y, []. split; [reflexivity|]. repeat (split; [assumption|]). apply S0, Sa; reflexivity. }
  assert (Pl : plain_step (correlation_step N)) by (repeat split).
  assert (ST := collect_tri Inv noE (Q sepok) dry (pair_ok g0) HI (correlation_step N) Pl P g _ Gen GE C IInv).
  apply tri_and; [exact ST|].
  assert (SV : forall x y, node x -> node y -> x <> y -> dsep D x y [] -> In [x; y] (all_combinations (mkCS 2 2) g) ->
      tri Inv noE (execute_step P no_hooks (correlation_step N) dry) g (fun a g => served (gone x y) (removes x y) dry a g)).
  { intros x y Hx Hy Ne Ds H. eapply tri_weaken; [apply (collect_serve Inv (gone x y) noE (Q sepok) (removes x y) dry (pair_ok g0) HI (correlation_step N) Pl P g _ Gen GE C IInv
        (fun h => HT h x y) (fun h => HW h x y) (One [x; y]) [x; y])|].
    - apply in_app_iff; left. apply in_map; exact H.
    - reflexivity.
    - intros us o Co. destruct (corr_call sepok g x y us K Hx Hy Ne (AL x y Hx Hy Ne)) as (b & F & Sa). rewrite F in Co. injection Co as <-.
      eexists; split; [left; reflexivity|]. destruct b; [exists []; left; reflexivity|]. destruct Sa as [_ Sa]. specialize (Sa Ds). discriminate.
    - intros a g' _ [T _]; exact T. }
  assert (X := tri_all (K := id * id) Inv noE (execute_step P no_hooks (correlation_step N) dry) g
    (fun p => node (fst p) /\ node (snd p) /\ fst p <> snd p /\ dsep D (fst p) (snd p) []) (fun p a g => served (gone (fst p) (snd p)) (removes (fst p) (snd p)) dry a g)).
  destruct X as [X1 X2]; [eapply tri_weaken; [exact ST|auto]| |].
  - intros [x y] (Hx & Hy & Ne & Ds). cbn [fst snd] in *.
    destruct (pairs_In g0 g x y (sk_wf _ _ _ _ _ K) (sk_nodes _ _ _ _ _ K) Hx Hy Ne) as [H|H]; [apply SV; assumption|].
    (* same pair in the other order *)
    assert (Ne' : y <> x) by congruence. assert (Ds' : dsep D y x []) by (apply d_separated_sym; exact Ds).
    eapply tri_weaken; [apply (collect_serve Inv (gone x y) noE (Q sepok) (removes x y) dry (pair_ok g0) HI (correlation_step N) Pl P g _ Gen GE C IInv
        (fun h => HT h x y) (fun h => HW h x y) (One [y; x]) [y; x])|].
    + apply in_app_iff; left. apply in_map; exact H.
    + reflexivity.
    + intros us o Co. destruct (corr_call sepok g y x us K Hy Hx Ne' (AL y x Hy Hx Ne')) as (b & F & Sa). rewrite F in Co. injection Co as <-.
      eexists; split; [left; reflexivity|]. destruct b; [exists []; right; reflexivity|]. destruct Sa as [_ Sa]. specialize (Sa Ds'). discriminate.
    + intros a g' _ [T _]; exact T.
  - split; [exact X1|]. destruct (snd (execute_step P no_hooks (correlation_step N) dry g)); [|exact X2]. intros u v H. exact (X2 (u, v) H).
Qed.
End Corr.

(* ---- partial correlation step ---- *)
Definition triple_ok (ns : list id) : Prop := exists p q r, ns = [p; q; r] /\ node p /\ node q /\ node r /\ NoDup [p; q; r].

Lemma get_corr_cases s g x y : sk s g -> get_corr g x y = Ok (MNum (c x y)) \/ get_corr g x y = Err TypeError.
Proof.
  intros K. destruct (directed_edge_exists g x y) eqn:L; [left; apply (get_corr_live g0 D c s g x y K L)|right; apply (get_corr_gone g0 D c s g x y K L)].
Qed.

(* one round of the loop *)
Lemma partial_round g ns z x y rest r deleted acc : sk good_sep g -> List.length ns = 3 -> node x -> node y -> node z -> NoDup [x; y; z] ->
  filter (fun n => negb (eqb n z)) ns = x :: y :: rest ->
  partial_loop N g ns (z :: r) deleted acc =
    if negb (directed_edge_exists g x y) || mem (y, x) deleted then partial_loop N g ns r deleted acc
    else if negb (directed_edge_exists g x z && directed_edge_exists g y z) then Ok None
    else match n_partial N (List.length (values_of g0 x)) 1 (c x y) (c x z) (c y z) with
         | Ok (Some true) => partial_loop N g ns r ((x, y) :: deleted) (acc ++ [separated x y [z]])
         | Ok (Some false) => partial_loop N g ns r deleted (acc ++ [not_separated x y [z]])
         | Ok None => Ok None
         | Err e => Err e
         end.
Proof.
  intros K Ln Hx Hy Hz ND F. cbn [partial_loop]. rewrite F. rewrite (skel_ee g0 D c good_sep g x y K).
  destruct (directed_edge_exists g x y) eqn:Lxy; [|reflexivity]. cbn [negb orb]. destruct (mem (y, x) deleted); [reflexivity|].
  rewrite (get_corr_live g0 D c good_sep g x y K Lxy). cbn [rbind].
  destruct (directed_edge_exists g x z) eqn:Lxz; [|rewrite (get_corr_gone g0 D c good_sep g x z K Lxz); reflexivity].
  rewrite (get_corr_live g0 D c good_sep g x z K Lxz). cbn [rbind andb].
  destruct (directed_edge_exists g y z) eqn:Lyz; [|rewrite (get_corr_gone g0 D c good_sep g y z K Lyz); reflexivity].
  rewrite (get_corr_live g0 D c good_sep g y z K Lyz). cbn [rbind as_num negb]. rewrite (values_same g0 D c good_sep g x K). unfold id in *. rewrite Ln. cbn [Nat.sub].
  destruct (n_partial N _ 1 _ _ _) as [[[|]|]|e]; reflexivity.
Qed.

Lemma partial_says x y z : node x -> node y -> node z -> NoDup [x; y; z] ->
  exists b, n_partial N (List.length (values_of g0 x)) 1 (c x y) (c x z) (c y z) = Ok (Some b) /\ says b (dsep D x y [z]).
Proof. intros Hx Hy Hz ND. apply (pt_partial _ _ _ _ _ PT); try (apply node_In; assumption). exact ND. Qed.

Lemma good_one x y z : node z -> NoDup [x; y; z] -> dsep D x y [z] -> good_sep x y [z].
Proof.
  intros Hz ND H. inversion ND as [|? ? N1 ND2]; subst. inversion ND2 as [|? ? N2 _]; subst.
  split; [intros w [<-|[]]; exact Hz|]. split; [intros [->|[]]; apply N1; right; left; reflexivity|].
  split; [intros [->|[]]; apply N2; left; reflexivity|exact H].
Qed.

Lemma partial_good g ns : sk good_sep g -> List.length ns = 3 -> forall l deleted acc, Forall (Q good_sep) acc ->
  (forall z, In z l -> exists x y rest, filter (fun n => negb (eqb n z)) ns = x :: y :: rest /\ node x /\ node y /\ node z /\ NoDup [x; y; z]) ->
  match partial_loop N g ns l deleted acc with Ok o => goodo (Q good_sep) o | Err e => False end.
Proof.
  intros K Ln. induction l as [|z l IH]; intros deleted acc Fa Hl; [exact Fa|].
  destruct (Hl z (or_introl eq_refl)) as (x & y & rest & F & Hx & Hy & Hz & ND). rewrite (partial_round g ns z x y rest l deleted acc K Ln Hx Hy Hz ND F).
  assert (Hl' : forall z, In z l -> exists x y rest, filter (fun n => negb (eqb n z)) ns = x :: y :: rest /\ node x /\ node y /\ node z /\ NoDup [x; y; z]) by (intros w Hw; apply Hl; right; exact Hw).
  destruct (negb (directed_edge_exists g x y) || mem (y, x) deleted); [apply IH; assumption|].
  destruct (negb (_ && _)); [constructor|]. destruct (partial_says x y z Hx Hy Hz ND) as (b & -> & Sa). destruct b; apply IH; try exact Hl'.
  - apply Forall_app; split; [exact Fa|constructor; [|constructor]]. right. exists x, y, [z]. split; [reflexivity|]. split; [exact Hx|]. split; [exact Hy|].
    split; [inversion ND as [|? ? N1 _]; subst; intros ->; apply N1; left; reflexivity|]. apply good_one; [exact Hz|exact ND|apply Sa; reflexivity].
  - apply Forall_app; split; [exact Fa|constructor; [apply nothing_Q|constructor]].
Qed.

Ltac eqbs := repeat match goal with
  | |- context [eqb ?a ?a] => rewrite (eqb_refl a)
  | H : ?a <> ?b |- context [eqb ?a ?b] => rewrite (eqb_neq a b H)
  | H : ?a <> ?b |- context [eqb ?b ?a] => rewrite (eqb_neq b a (fun h => H (eq_sym h)))
  end.

Lemma three (p q r : id) : NoDup [p; q; r] -> p <> q /\ p <> r /\ q <> r.
Proof.
  intros ND. inversion ND as [|? ? N1 ND2]; subst. inversion ND2 as [|? ? N2 _]; subst. cbn in *.
  split; [intros ->; tauto|]. split; [intros ->; tauto|intros ->; tauto].
Qed.
Lemma three' (p q r : id) : p <> q -> p <> r -> q <> r -> NoDup [p; q; r].
Proof.
  intros A B C. constructor; [intros [H|[H|[]]]; congruence|]. constructor; [intros [H|[]]; congruence|]. constructor; [intros []|constructor].
Qed.

Lemma filters (p q r : id) : NoDup [p; q; r] ->
  filter (fun n => negb (eqb n p)) [p; q; r] = [q; r] /\ filter (fun n => negb (eqb n q)) [p; q; r] = [p; r] /\ filter (fun n => negb (eqb n r)) [p; q; r] = [p; q].
Proof. intros ND. destruct (three p q r ND) as (A & B & C). cbn [filter]. eqbs. cbn. auto. Qed.

Lemma partial_rounds p q r : node p -> node q -> node r -> NoDup [p; q; r] -> forall z, In z [p; q; r] ->
  exists x y rest, filter (fun n => negb (eqb n z)) [p; q; r] = x :: y :: rest /\ node x /\ node y /\ node z /\ NoDup [x; y; z].
Proof.
  intros Hp Hq Hr ND z Hz. destruct (three p q r ND) as (A & B & C). destruct (filters p q r ND) as (F1 & F2 & F3).
  destruct Hz as [<-|[<-|[<-|[]]]]; [exists q, r, []|exists p, r, []|exists p, q, []];
    (split; [assumption|]; repeat (split; [assumption|]); apply three'; congruence).
Qed.

Lemma partial_call par g p q r us : sk good_sep g -> node p -> node q -> node r -> call (partial_step par N) g [p; q; r] us = partial_loop N g [p; q; r] [p; q; r] [] [].
Proof.
  intros K Hp Hq Hr. unfold call. cbn [partial_step s_proc s_unapplied]. unfold partial_test.
  cbn [forallb]. rewrite (sk_nodes _ _ _ _ _ K). unfold SkelFacts.node in *. rewrite Hp, Hq, Hr. reflexivity.
Qed.
Lemma partial_calls par : good_calls (sk good_sep) noE (Q good_sep) triple_ok (partial_step par N).
Proof.
  intros g ns us K (p & q & r & -> & Hp & Hq & Hr & ND) _. rewrite (partial_call par g p q r us K Hp Hq Hr).
  apply (partial_good g [p; q; r] K eq_refl [p; q; r] [] [] (Forall_nil _)). apply partial_rounds; assumption.
Qed.

(* all three pairs live: three tests *)
Lemma partial_all g p q r : sk good_sep g -> node p -> node q -> node r -> NoDup [p; q; r] ->
  directed_edge_exists g p q = true -> directed_edge_exists g p r = true -> directed_edge_exists g q r = true ->
  exists b1 b2 b3 : bool, partial_loop N g [p; q; r] [p; q; r] [] [] =
    Ok (Some [if b1 then separated q r [p] else not_separated q r [p];
              if b2 then separated p r [q] else not_separated p r [q];
              if b3 then separated p q [r] else not_separated p q [r]]) /\
    says b1 (dsep D q r [p]) /\ says b2 (dsep D p r [q]) /\ says b3 (dsep D p q [r]).
Proof.
  intros K Hp Hq Hr ND L1 L2 L3. destruct (three p q r ND) as (A & B & C). destruct (filters p q r ND) as (F1 & F2 & F3).
  destruct (partial_says q r p Hq Hr Hp ltac:(apply three'; congruence)) as (b1 & T1 & S1).
  destruct (partial_says p r q Hp Hr Hq ltac:(apply three'; congruence)) as (b2 & T2 & S2).
  destruct (partial_says p q r Hp Hq Hr ND) as (b3 & T3 & S3). exists b1, b2, b3. split; [|auto].
  assert (L1' := sk_sym _ _ _ _ _ K p q L1). assert (L2' := sk_sym _ _ _ _ _ K p r L2). assert (L3' := sk_sym _ _ _ _ _ K q r L3).
  rewrite (partial_round g [p; q; r] p q r [] [q; r] [] [] K eq_refl Hq Hr Hp ltac:(apply three'; congruence) F1). rewrite L3, L1', L2', T1. cbn [negb orb mem existsb andb].
  assert (X : forall dl, (dl = [] \/ dl = [(q, r)]) -> forall acc, partial_loop N g [p; q; r] [q; r] dl acc = 
    Ok (Some (acc ++ [if b2 then separated p r [q] else not_separated p r [q]; if b3 then separated p q [r] else not_separated p q [r]]))).
  { intros dl Hd acc.
    rewrite (partial_round g [p; q; r] q p r [] [r] dl acc K eq_refl Hp Hr Hq ltac:(apply three'; congruence) F2). rewrite L2, L1, L3', T2.
    assert (M1 : mem (r, p) dl = false) by (destruct Hd as [-> | ->]; [reflexivity|]; cbn; apply orb_false_iff; split; [apply eqb_neq; congruence|reflexivity]).
    rewrite M1. cbn [negb orb andb].
    assert (Y : forall dl', (dl' = dl \/ dl' = (p, r) :: dl) -> forall acc, partial_loop N g [p; q; r] [r] dl' acc = Ok (Some (acc ++ [if b3 then separated p q [r] else not_separated p q [r]]))).
    { intros dl' Hd' acc'. rewrite (partial_round g [p; q; r] r p q [] [] dl' acc' K eq_refl Hp Hq Hr ND F3). rewrite L1, L2, L3, T3.
      assert (M2 : mem (q, p) dl' = false).
      { assert (M3 : mem (q, p) dl = false) by (destruct Hd as [-> | ->]; [reflexivity|]; cbn; apply orb_false_iff; split; [apply eqb_neq; congruence|reflexivity]).
        destruct Hd' as [-> | ->]; [exact M3|]. unfold mem in *. cbn [existsb]. rewrite M3. rewrite (eqb_neq (q, p) (p, r)) by congruence. reflexivity. }
      rewrite M2. cbn [negb orb andb]. destruct b3; reflexivity. }
    destruct b2; rewrite Y by auto; rewrite <- app_assoc; reflexivity. }
  destruct b1; rewrite X by auto; reflexivity.
Qed.

(* collecting mode on a fixed graph *)
Section Partial.
Variable dry : bool.
Variable P : runner.
Variable g : graph.
Hypothesis K : sk good_sep g.
Variable Inv : graph -> Prop.
Hypothesis IInv : Inv g.
Hypothesis HI : dry = false -> forall i, Q good_sep i -> keeps Inv noE (apply_action i) (fun _ _ => True).
Hypothesis HT : dry = false -> forall u v i, Q good_sep i -> keeps (InvT Inv (gone u v)) noE (apply_action i) (fun _ _ => True).
Hypothesis HW : dry = false -> forall u v i g, Q good_sep i -> removes u v i -> Inv g -> gone u v (fst (apply_action i g)).

Lemma triples_ok : forall ns, In ns (all_combinations (mkCS 3 3) g) -> triple_ok ns.
Proof.
  intros ns H. apply all_combinations_In in H. destruct H as [S L]. assert (ND := subseq_NoDup _ _ S (wf_nodes _ (sk_wf _ _ _ _ _ K))).
  unfold size_in in L; cbn in L. destruct ns as [|p [|q [|r [|z ns]]]]; cbn in L; try lia. exists p, q, r. split; [reflexivity|].
  assert (SI := subseq_In _ _ S). rewrite (sk_nodes _ _ _ _ _ K) in SI.
  split; [|split; [|split; [|exact ND]]]; apply node_In, SI; cbn; auto.
Qed.
Lemma triples_In x y z : node x -> node y -> node z -> NoDup [x; y; z] -> exists p q r, In [p; q; r] (all_combinations (mkCS 3 3) g) /\ Permutation [p; q; r] [x; y; z].
Proof.
  intros Hx Hy Hz ND. destruct (subseq_of_subset string_dec (dkeys (nodes g)) (wf_nodes _ (sk_wf _ _ _ _ _ K)) [x; y; z] ND) as (l & S & Pm).
  - rewrite (sk_nodes _ _ _ _ _ K). intros w [<-|[<-|[<-|[]]]]; apply node_In; assumption.
  - assert (L : @List.length id l = 3) by exact (Permutation_length Pm). assert (LL := subseq_length _ _ S).
    assert (X : In l (all_combinations (mkCS 3 3) g)).
    { apply all_combinations_In. split; [exact S|]. unfold size_in; cbn [cs_min cs_max]. unfold dkeys in LL. rewrite map_length in LL. unfold id in *. rewrite L in *. split; [lia|split; [exact LL|right; lia]]. }
    destruct l as [|p [|q [|r [|]]]]; try discriminate. exists p, q, r; auto.
Qed.

Definition live3 (x y z : id) : Prop := directed_edge_exists g x y = true /\ directed_edge_exists g x z = true /\ directed_edge_exists g y z = true.

Lemma partial_step_spec par : s_parallel (partial_step par N) = false -> tri Inv noE (execute_step P no_hooks (partial_step par N) dry) g (fun a g => good2 (Q good_sep) a /\
  forall x y z, node x -> node y -> node z -> NoDup [x; y; z] -> live3 x y z -> dsep D x y [z] -> served (gone x y) (removes x y) dry a g).
Proof.
  intros Par.
  assert (Gen : gen_run (s_gen (partial_step par N) g) g = Ok (map One (all_combinations (mkCS 3 3) g) ++ [])) by reflexivity.
  assert (GE : Forall (good_em noE triple_ok false) (map One (all_combinations (mkCS 3 3) g) ++ [])).
  { rewrite app_nil_r. apply Forall_forall. intros e H. apply in_map_iff in H. destruct H as (ns & <- & H). cbn. apply (triples_ok ns H). }
  assert (C : good_calls (fun g' => g' = g) noE (Q good_sep) triple_ok (partial_step par N)) by (intros g' ns us -> A U; exact (partial_calls par g ns us K A U)).
  assert (Pl : plain_step (partial_step par N)) by (repeat split; exact Par).
  assert (ST := collect_tri Inv noE (Q good_sep) dry triple_ok HI (partial_step par N) Pl P g _ Gen GE C IInv).
  apply tri_and; [exact ST|].
  assert (X := tri_all (K := id * id * id) Inv noE (execute_step P no_hooks (partial_step par N) dry) g
    (fun k => match k with (x, y, z) => node x /\ node y /\ node z /\ NoDup [x; y; z] /\ live3 x y z /\ dsep D x y [z] end)
    (fun k a g => match k with (x, y, z) => served (gone x y) (removes x y) dry a g end)).
  destruct X as [X1 X2]; [eapply tri_weaken; [exact ST|auto]| |].
  - intros [[x y] z] (Hx & Hy & Hz & ND & (L1 & L2 & L3) & Ds). destruct (triples_In x y z Hx Hy Hz ND) as (p & q & r & HIn & Pm).
    assert (L1' := sk_sym _ _ _ _ _ K _ _ L1). assert (L2' := sk_sym _ _ _ _ _ K _ _ L2). assert (L3' := sk_sym _ _ _ _ _ K _ _ L3).
    assert (Ds' : dsep D y x [z]) by (apply d_separated_sym; exact Ds).
    eapply tri_weaken; [apply (collect_serve Inv (gone x y) noE (Q good_sep) (removes x y) dry triple_ok HI (partial_step par N) Pl P g _ Gen GE C IInv
        (fun h => HT h x y) (fun h => HW h x y) (One [p; q; r]) [p; q; r])|].
    + apply in_app_iff; left. apply in_map; exact HIn.
    + reflexivity.
    + intros us o Co. destruct (triples_ok _ HIn) as (p' & q' & r' & Epqr & Hp & Hq & Hr & ND'). injection Epqr as <- <- <-.
      rewrite (partial_call par g p q r us K Hp Hq Hr) in Co.
      assert (Ip : In p [x; y; z]) by (eapply Permutation_in; [exact Pm|cbn; auto]).
      assert (Iq : In q [x; y; z]) by (eapply Permutation_in; [exact Pm|cbn; auto]).
      assert (Ir : In r [x; y; z]) by (eapply Permutation_in; [exact Pm|cbn; auto]).
      destruct (three p q r ND') as (Npq & Npr & Nqr).
      assert (LL : forall a b, In a [x; y; z] -> In b [x; y; z] -> a <> b -> directed_edge_exists g a b = true).
      { intros a b [<-|[<-|[<-|[]]]] [<-|[<-|[<-|[]]]] Nab; congruence. }
      destruct (partial_all g p q r K Hp Hq Hr ND' (LL p q Ip Iq Npq) (LL p r Ip Ir Npr) (LL q r Iq Ir Nqr)) as (b1 & b2 & b3 & F & S1 & S2 & S3).
      rewrite F in Co. injection Co as <-. cbn [items_of].
      assert (W : exists i, In i [if b1 then separated q r [p] else not_separated q r [p]; if b2 then separated p r [q] else not_separated p r [q];
                         if b3 then separated p q [r] else not_separated p q [r]] /\ removes x y i); [|exact W].
      assert (Sy : forall (b : bool) a d, says b (dsep D a d [z]) -> (a = x /\ d = y) \/ (a = y /\ d = x) -> removes x y (if b then separated a d [z] else not_separated a d [z])).
      { intros b a d Sa [[-> ->]|[-> ->]]; (destruct b; [exists [z]; auto|]); destruct Sa as [_ Sa]; [specialize (Sa Ds)|specialize (Sa Ds')]; discriminate. }
      destruct Ip as [<-|[<-|[<-|[]]]].
      * destruct Iq as [<-|[<-|[<-|[]]]]; [congruence| |].
        -- destruct Ir as [<-|[<-|[<-|[]]]]; [congruence|congruence|]. eexists; split; [right; right; left; reflexivity|]. apply Sy; auto.
        -- destruct Ir as [<-|[<-|[<-|[]]]]; [congruence| |congruence]. eexists; split; [right; left; reflexivity|]. apply Sy; auto.
      * destruct Iq as [<-|[<-|[<-|[]]]]; [|congruence|].
        -- destruct Ir as [<-|[<-|[<-|[]]]]; [congruence|congruence|]. eexists; split; [right; right; left; reflexivity|]. apply Sy; auto.
        -- destruct Ir as [<-|[<-|[<-|[]]]]; [|congruence|congruence]. eexists; split; [right; left; reflexivity|]. apply Sy; auto.
      * eexists; split; [left; reflexivity|]. apply Sy; [exact S1|].
        destruct Iq as [<-|[<-|[<-|[]]]]; [| |congruence]; (destruct Ir as [<-|[<-|[<-|[]]]]; try congruence; auto).
    + intros a g' _ [T _]; exact T.
  - split; [exact X1|]. destruct (snd (execute_step P no_hooks (partial_step par N) dry g)); [|exact X2].
    intros x y z Hx Hy Hz ND L Ds. exact (X2 (x, y, z) (conj Hx (conj Hy (conj Hz (conj ND (conj L Ds)))))).
Qed.
End Partial.

End Steps.
