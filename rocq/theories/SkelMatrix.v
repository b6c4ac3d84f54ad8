(* The matrix step of the skeleton phase under perfect tests. *)
From Verif Require Import Base PyDict PyDictFacts Graph GraphSpec GraphFacts GraphInv GraphInv2 GraphInv3 GraphQ GraphMain
  GraphPaths PathSpec Actions ActionSpec ActionFacts ActionMain Generators GenSpec GenFacts Rules IndepTests Pipeline Parallel PipeFacts RuleFacts
  Construct ConstructSpec ConstructFacts Dag DagFacts DagSep SkelSpec Rows Serve SkelFacts SkelStart SkelSteps.
Open Scope string_scope.
Open Scope list_scope.

Section Matrix.
Variable g0 : graph.
Variable D : list (id * id).
Variable N : numerics.
Variable c : id -> id -> Z.
Variable so : list id -> list id.
Hypothesis DG : dag_over (dkeys (nodes g0)) D.
Hypothesis PT : perfect_tests N (values_of g0) (dkeys (nodes g0)) D c.
Hypothesis SO : set_order so.
Notation node := (SkelFacts.node g0).
Notation E := (edge_in D).
Notation good_sep := (good_sep g0 D).
Notation sk := (skel g0 D c good_sep).
Notation Q := (proposal g0 good_sep).

Definition test_ok (ns : list id) : Prop := exists x y S, ns = x :: y :: S /\ NoDup ns /\ (forall z, In z ns -> node z) /\ S <> [].

(* the three steps that use the matrix test *)
Definition matrix_like (s : step) : Prop := s_proc s = matrix_test so N /\ s_unapplied s = false.

Lemma zs_same x y S : NoDup (x :: y :: S) -> forall z, In z (so (filter (fun n => negb (eqb n x) && negb (eqb n y)) (x :: y :: S))) <-> In z S.
Proof.
  intros ND z. rewrite (proj2 (SO _) z), filter_In. inversion ND as [|? ? N1 ND2]; subst. inversion ND2 as [|? ? N2 _]; subst. cbn in N1. split.
  - intros [[<-|[<-|H]] F]; [rewrite eqb_refl in F; discriminate|rewrite eqb_refl, andb_false_r in F; discriminate|exact H].
  - intros H. split; [right; right; exact H|]. apply andb_true_iff. split; apply negb_true_iff, eqb_neq; intros ->; tauto.
Qed.
Lemma dsep_ext x y S S' : (forall z, In z S <-> In z S') -> dsep D x y S -> dsep D x y S'.
Proof. intros H. apply d_separated_ext; [reflexivity|exact H]. Qed.

Lemma matrix_says g x y S : sk g -> NoDup (x :: y :: S) -> (forall z, In z (x :: y :: S) -> node z) -> S <> [] ->
  exists b, n_matrix N (map (values_of g) (x :: y :: S)) = Ok (Some b) /\ says b (dsep D x y S).
Proof.
  intros K ND Hn Ne. rewrite (map_ext (values_of g) (values_of g0)) by (intros; apply (values_same g0 D c good_sep g _ K)).
  apply (pt_matrix _ _ _ _ _ PT x y S ND); [|exact Ne]. intros z Hz. apply node_In, Hn, Hz.
Qed.

(* the call never raises; it gives nothing when the pair or a neighbour is gone *)
Lemma matrix_call s g x y S us : matrix_like s -> sk g -> NoDup (x :: y :: S) -> (forall z, In z (x :: y :: S) -> node z) -> S <> [] ->
  exists b : bool, says b (dsep D x y S) /\ 
    let zs := so (filter (fun n => negb (eqb n x) && negb (eqb n y)) (x :: y :: S)) in
    (call s g (x :: y :: S) us = Ok None \/ call s g (x :: y :: S) us = Ok (Some [if b then separated x y zs else not_separated x y zs])) /\
    (directed_edge_exists g x y = true -> (forall z, In z S -> directed_edge_exists g z x = true) ->
       call s g (x :: y :: S) us = Ok (Some [if b then separated x y zs else not_separated x y zs])).
Proof.
  intros [M1 M2] K ND Hn Ne. destruct (matrix_says g x y S K ND Hn Ne) as (b & T & Sa). exists b. split; [exact Sa|]. cbn zeta.
  unfold call. rewrite M1, M2. unfold matrix_test.
  rewrite (node_at_ok g0 D c good_sep g (x :: y :: S) 0 x K eq_refl (Hn x (or_introl eq_refl))), (node_at_ok g0 D c good_sep g (x :: y :: S) 1 y K eq_refl (Hn y (or_intror (or_introl eq_refl)))).
  cbn [rbind]. rewrite (skel_ee g0 D c good_sep g x y K). destruct (directed_edge_exists g x y) eqn:L; cbn [negb]; [|split; [left; reflexivity|discriminate]].
  assert (Nxy : x <> y) by (inversion ND as [|? ? N1 _]; subst; intros ->; apply N1; left; reflexivity).
  assert (R := sk_rows _ _ _ _ _ K x y (Hn x (or_introl eq_refl)) (Hn y (or_intror (or_introl eq_refl))) Nxy).
  unfold row_of. unfold dmem in R. destruct (dget (edges g) x) as [row|] eqn:Rw; [|discriminate]. cbn [rbind].
  assert (NB : forall z, directed_edge_exists g z x = true -> mem z (filter (fun k => directed_edge_exists g k x) (dkeys row)) = true).
  { intros z Lz. apply mem_In, filter_In. split; [|exact Lz]. assert (Lz' := sk_sym _ _ _ _ _ K z x Lz).
    destruct (live_entry _ _ _ (sk_wf _ _ _ _ _ K) Lz') as (e & Eg & _). unfold eget, dget2 in Eg. rewrite Rw in Eg. eapply dmem_In. unfold dmem. rewrite Eg. reflexivity. }
  rewrite (NB y (sk_sym _ _ _ _ _ K x y L)). cbn [negb].
  set (oth := filter (fun k => negb (eqb k y)) _). destruct (forallb (fun n => mem n oth) (skipn 2 (x :: y :: S))) eqn:FA; cbn [negb].
  - assert (NF : forallb (dmem (nodes g)) (x :: y :: S) = true).
    { apply forallb_forall. intros z Hz. rewrite (sk_nodes _ _ _ _ _ K). apply (Hn z Hz). }
    rewrite NF. cbn [negb]. rewrite T. cbn [rbind]. split; [right; reflexivity|intros _ _; reflexivity].
  - split; [left; reflexivity|]. intros _ HS. exfalso. rewrite <- not_true_iff_false in FA. apply FA. apply forallb_forall. cbn [skipn]. intros z Hz.
    apply mem_In. unfold oth. apply filter_In. split; [apply mem_In, NB, HS, Hz|]. apply negb_true_iff, eqb_neq. intros ->.
    inversion ND as [|? ? _ ND2]; subst. inversion ND2; subst; contradiction.
Qed.

Lemma matrix_good x y S (b : bool) : NoDup (x :: y :: S) -> (forall z, In z (x :: y :: S) -> node z) -> says b (dsep D x y S) ->
  let zs := so (filter (fun n => negb (eqb n x) && negb (eqb n y)) (x :: y :: S)) in
  Q (if b then separated x y zs else not_separated x y zs).
Proof.
  intros ND Hn Sa zs. destruct b; [|left; reflexivity]. right. exists x, y, zs. split; [reflexivity|].
  split; [apply Hn; left; reflexivity|]. split; [apply Hn; right; left; reflexivity|].
  inversion ND as [|? ? N1 ND2]; subst. inversion ND2 as [|? ? N2 _]; subst. cbn in N1.
  split; [intros ->; tauto|]. assert (ZS := zs_same x y S ND). fold zs in ZS.
  split; [intros z Hz; apply Hn; right; right; apply ZS, Hz|]. split; [rewrite ZS; tauto|]. split; [rewrite ZS; tauto|].
  apply (dsep_ext x y S zs); [intros z; symmetry; apply ZS|apply Sa; reflexivity].
Qed.

Lemma matrix_calls s : matrix_like s -> good_calls sk noE Q test_ok s.
Proof.
  intros M g ns us K (x & y & S & -> & ND & Hn & Ne) _. destruct (matrix_call s g x y S us M K ND Hn Ne) as (b & Sa & C & _).
  destruct C as [-> | ->]; [constructor|]. constructor; [|constructor]. apply matrix_good; assumption.
Qed.

Lemma matrix_wins s x y S : matrix_like s -> NoDup (x :: y :: S) -> (forall z, In z (x :: y :: S) -> node z) -> S <> [] ->
  (forall z, In z S -> E z x) -> dsep D x y S -> wins_on sk (gone x y) (removes x y) s (x :: y :: S).
Proof.
  intros M ND Hn Ne HE Ds g us K. destruct (directed_edge_exists g x y) eqn:L; [|left; exact L]. right. intros o Co.
  destruct (matrix_call s g x y S us M K ND Hn Ne) as (b & Sa & _ & C).
  rewrite (C L (fun z Hz => sk_adj _ _ _ _ _ K z x (or_introl (HE z Hz)))) in Co. injection Co as <-.
  eexists; split; [left; reflexivity|]. destruct b; [eexists; left; reflexivity|]. destruct Sa as [_ Sa]. specialize (Sa Ds). discriminate.
Qed.

(* ---- the generator ---- *)
Section Gen.
Variable sh : option (nat * id * id -> list (list id) -> list (list id)).
Hypothesis SH : is_shuffle sh.

Lemma slot_em chunked k x y g es : k <> 2 -> pwn_slot so sh chunked (k, x, y) g = Ok es ->
  forall e, In e es -> if chunked then exists l, e = Chunk l else exists ns, e = One ns.
Proof.
  intros Nk R e He. unfold pwn_slot in R. destruct (negb _); [injection R as <-; destruct He|].
  destruct (Nat.eqb_spec k 2); [contradiction|]. destruct (dget (edges g) x); [|discriminate]. injection R as <-.
  destruct chunked; [destruct He as [<-|[]]; eauto|]. apply in_map_iff in He. destruct He as (ns & <- & _). eauto.
Qed.
Lemma em_good (chunked : bool) (A : list id -> Prop) e : (if chunked then exists l, e = Chunk l else exists ns, e = One ns) ->
  (forall ns, In ns (contents e) -> A ns) -> good_em noE A chunked e.
Proof.
  destruct chunked; intros (l & ->) H; cbn.
  - apply Forall_forall. exact H.
  - apply H; left; reflexivity.
Qed.

Lemma slot_good chunked k x y g gs : 3 <= k -> sk gs -> In (k, x, y) (pwn_slots gs [k]) -> sk g ->
  exists es, pwn_slot so sh chunked (k, x, y) g = Ok es /\ Forall (good_em noE test_ok chunked) es.
Proof.
  intros Hk Ks Hs K. apply slots_In in Hs; [|exact (sk_wf _ _ _ _ _ Ks)]. destruct Hs as (_ & e & Ge).
  assert (Eg : eget gs x y = Some e) by (unfold eget; unfold get_edge in Ge; destruct (dget2 (edges gs) x y); [injection Ge as ->; reflexivity|discriminate]).
  destruct (wf_fwd _ (sk_wf _ _ _ _ _ Ks) _ _ _ Eg) as (Hx & Hy & Nxy & _). rewrite (sk_nodes _ _ _ _ _ Ks) in Hx, Hy.
  assert (R := sk_rows _ _ _ _ _ K x y Hx Hy Nxy). apply dmem_In in R.
  destruct (pwn_slot_ok so sh chunked k x y g (sk_wf _ _ _ _ _ K) R) as (es & Es). exists es. split; [exact Es|].
  destruct (slot_out_spec so sh SO SH chunked k x y g (sk_wf _ _ _ _ _ K) ltac:(lia) R) as (S1 & _).
  apply Forall_forall. intros em He. apply em_good; [eapply slot_em; [|exact Es|exact He]; lia|].
  intros ns Hn. destruct (S1 ns) as (S & -> & Ar & Ln & ND & HS).
  { unfold slot_out. rewrite Es. apply in_flat_map. eauto. }
  exists x, y, S. split; [reflexivity|]. split; [|split].
  - constructor; [|constructor; [|exact ND]].
    + intros [->|H]; [congruence|]. destruct (HS x H) as [[Nb _] _]. destruct (skel_dee_nodes g0 D c good_sep g x x K Nb) as (_ & _ & F). congruence.
    + intros H. destruct (HS y H) as [_ F]. congruence.
  - intros z [<-|[<-|H]]; [exact Hx|exact Hy|]. destruct (HS z H) as [[Nb _] _]. apply (skel_dee_nodes g0 D c good_sep g z x K Nb).
  - intros ->. cbn in Ln. lia.
Qed.

Lemma neigh_blocks chunked min gs f : 3 <= min -> sk gs -> In f (gen_neighbours so sh chunked (mkCS min 0) gs) ->
  exists k x y, f = pwn_slot so sh chunked (k, x, y) /\ min <= k /\ In (k, x, y) (pwn_slots gs [k]).
Proof.
  intros Hm Ks H. unfold gen_neighbours in H. cbn [cs_min] in H. destruct (Nat.ltb _ _); [destruct H|]. destruct (Nat.ltb _ _); [destruct H|].
  destruct (Nat.ltb_spec min 2); [lia|]. apply in_map_iff in H. destruct H as ([[k x] y] & <- & Hs). exists k, x, y. split; [reflexivity|].
  apply slots_In in Hs; [|exact (sk_wf _ _ _ _ _ Ks)]. destruct Hs as (Hk & He). apply range_In in Hk. split; [lia|].
  apply slots_In; [exact (sk_wf _ _ _ _ _ Ks)|]. split; [left; reflexivity|exact He].
Qed.

Lemma neigh_good chunked min gs : 3 <= min -> sk gs -> Forall (good_block sk noE test_ok chunked) (gen_neighbours so sh chunked (mkCS min 0) gs).
Proof.
  intros Hm Ks. apply Forall_forall. intros f Hf. destruct (neigh_blocks chunked min gs f Hm Ks Hf) as (k & x & y & -> & Hk & Hs).
  intros g K. destruct (slot_good chunked k x y g gs ltac:(lia) Ks Hs K) as (es & -> & F). exact F.
Qed.

(* the block that serves a pair: condition on the parents of x *)
Lemma neigh_serves s chunked min gs x y S : matrix_like s -> 3 <= min -> sk gs -> directed_edge_exists gs x y = true ->
  NoDup (x :: y :: S) -> (forall z, In z (x :: y :: S) -> node z) -> min <= List.length S + 2 -> (forall z, In z S -> E z x) -> dsep D x y S ->
  exists f, In f (gen_neighbours so sh chunked (mkCS min 0) gs) /\ block_wins sk (gone x y) (removes x y) s chunked f.
Proof.
  intros M Hm Ks L ND Hn Hk HE Ds. set (k := List.length S + 2).
  assert (Wf := sk_wf _ _ _ _ _ Ks).
  assert (LN : k <= List.length (nodes gs)).
  { assert (X := NoDup_incl_length ND (l' := dkeys (nodes g0))). unfold dkeys in X. rewrite map_length in X. rewrite (sk_nodes _ _ _ _ _ Ks). unfold k.
    cbn [List.length] in X. unfold id in *. specialize (X ltac:(intros z Hz; apply node_In, Hn, Hz)). lia. }
  exists (pwn_slot so sh chunked (k, x, y)). split.
  - unfold gen_neighbours. cbn [cs_min]. destruct (Nat.ltb_spec (List.length (nodes gs)) min); [lia|].
    assert (X := proj2 (cs_stop_spec (mkCS min 0) (List.length (nodes gs)) k)). cbn [cs_min] in X. unfold size_in in X. cbn [cs_min cs_max] in X. specialize (X ltac:(lia)).
    destruct (Nat.ltb_spec (cs_stop (mkCS min 0) (List.length (nodes gs))) min); [lia|]. destruct (Nat.ltb_spec min 2); [lia|].
    apply in_map_iff. exists (k, x, y). split; [reflexivity|]. apply slots_In; [exact Wf|]. split; [apply range_In; exact X|].
    destruct (live_entry _ _ _ Wf L) as (e & Eg & _). exists e. unfold get_edge. unfold eget in Eg. rewrite Eg. reflexivity.
  - intros g K. destruct (directed_edge_exists g x y) eqn:Lg; [|left; exact Lg]. right. intros es Es.
    assert (Hx := Hn x (or_introl eq_refl)). assert (Hy := Hn y (or_intror (or_introl eq_refl))).
    assert (Nxy : x <> y) by (inversion ND as [|? ? N1 _]; subst; intros ->; apply N1; left; reflexivity).
    assert (R := sk_rows _ _ _ _ _ K x y Hx Hy Nxy). apply dmem_In in R.
    destruct (slot_out_spec so sh SO SH chunked k x y g (sk_wf _ _ _ _ _ K) ltac:(lia) R) as (_ & S2 & _).
    inversion ND as [|? ? N1 ND2]; subst. inversion ND2 as [|? ? N2 ND3]; subst. cbn in N1.
    destruct (S2 S Lg ltac:(unfold k; lia) ND3) as (S' & Pm & Hin).
    { intros z Hz. split; [|intros ->; contradiction]. assert (Lz := sk_adj _ _ _ _ _ K z x (or_introl (HE z Hz))). split; [exact Lz|].
      assert (Lz' := sk_sym _ _ _ _ _ K z x Lz). destruct (live_entry _ _ _ (sk_wf _ _ _ _ _ K) Lz') as (e & Eg & _). exists e. unfold get_edge. unfold eget in Eg. rewrite Eg. reflexivity. }
    unfold slot_out in Hin. rewrite Es in Hin. apply in_flat_map in Hin. destruct Hin as (em & He & Hc).
    exists em, (x :: y :: S'). split; [exact He|]. split.
    + assert (X := slot_em chunked k x y g es ltac:(lia) Es em He). destruct chunked; destruct X as (l & ->); cbn in *; [exact Hc|].
      destruct Hc as [->|[]]. reflexivity.
    + apply matrix_wins; [exact M| | | | |].
      * eapply Permutation_NoDup; [|exact ND]. do 2 apply perm_skip. apply Permutation_sym; exact Pm.
      * intros z Hz. apply Hn. eapply Permutation_in; [|exact Hz]. do 2 apply perm_skip. exact Pm.
      * intros ->. apply Permutation_length in Pm. cbn in Pm. lia.
      * intros z Hz. apply HE. eapply Permutation_in; eassumption.
      * apply (dsep_ext x y S S'); [|exact Ds]. intros z; split; apply Permutation_in; [apply Permutation_sym; exact Pm|exact Pm].
Qed.

(* sampling only drops emissions *)
Lemma keep_In {A} (ok : nat -> bool) (l : list A) : forall j a, In a (keep ok j l) -> In a l.
Proof. induction l as [|b l IH]; intros j a H; cbn in *; [exact H|]. destruct (ok j); [destruct H as [->|H]|]; eauto. Qed.
Lemma sample_good A chunked coin : forall l i, Forall (good_block sk noE A chunked) l -> Forall (good_block sk noE A chunked) (gen_sample_from coin i l).
Proof.
  induction l as [|f l IH]; intros i F; cbn; [constructor|]. inversion F as [|? ? Hf Fl]; subst. constructor; [|apply IH; exact Fl].
  intros g K. specialize (Hf g K). destruct (f g) as [es|e]; cbn; [|exact Hf]. apply Forall_forall. intros em H. apply keep_In in H. rewrite Forall_forall in Hf. auto.
Qed.
End Gen.

End Matrix.
