(* The sizes of the conditioning sets in the skeleton phase: sets are asked in order of their size, so that an
   edge that is removed given a set has survived the tests given smaller ones. *)
From Verif Require Import Base PyDict PyDictFacts Graph GraphSpec GraphFacts GraphInv GraphInv2 GraphInv3 GraphQ GraphMain
  GraphPaths PathSpec Actions ActionSpec ActionFacts ActionMain Generators GenSpec GenFacts Rules IndepTests Pipeline Parallel PipeFacts RuleFacts
  Construct ConstructSpec ConstructFacts Dag DagFacts DagSep SkelSpec Rows Serve SkelFacts SkelStart SkelSteps SkelMatrix SkelMain SkelMain2
  LoopFacts TotalSpec TotalFacts TotalMain TestedSpec TestedFacts TestedMain.
Open Scope string_scope.
Open Scope list_scope.

Lemma wp_blocks_app E H dry s a b g (R1 R : graph -> Prop) : wp E (run_blocks H dry s a) g R1 -> (forall g, R1 g -> wp E (run_blocks H dry s b) g R) ->
  wp E (run_blocks H dry s (a ++ b)) g R.
Proof.
  unfold wp. revert g. induction a as [|f a IH]; intros g W K; cbn [app].
  - exact (K g W).
  - cbn [run_blocks] in *. unfold bind, gget in *. destruct (liftr (f g) g) as [g1 [es|e]]; cbn [fst snd] in *; [|exact W].
    destruct (run_chunks H dry s es g1) as [g2 [x|e]]; cbn [fst snd] in *; [|exact W].
    specialize (IH g2). destruct (run_blocks H dry s a g2) as [g3 [y|e]]; cbn [fst snd] in *.
    + specialize (IH W K). destruct (run_blocks H dry s (a ++ b) g2) as [g4 [z|e]]; cbn [fst snd] in *; exact IH.
    + specialize (IH W K). destruct (run_blocks H dry s (a ++ b) g2) as [g4 [z|e']]; cbn [fst snd] in *; exact IH.
Qed.
Lemma slots_cons gs k ks : pwn_slots gs (k :: ks) = pwn_slots gs [k] ++ pwn_slots gs ks.
Proof. unfold pwn_slots. cbn [flat_map]. rewrite app_nil_r. reflexivity. Qed.

Section Levels.
Variable g0 : graph.
Variable N : numerics.
Variable so : list id -> list id.
Hypothesis CP : complete g0.
Hypothesis SO : set_order so.
Notation node := (SkelFacts.node g0).
Notation E := (raised N).
Notation cor := (corr g0 N).
Notation ord := (ord g0).
Variable Sep : id -> id -> list id -> Prop.
Hypothesis Ssym : forall x y S, Sep x y S -> Sep y x S.
Hypothesis Sany : forall x y S, Sep x y S -> good_sep g0 [] x y S.
Notation sk := (skel g0 [] cor Sep).
Notation Q := (proposal g0 Sep).
Notation cset := (cond_set g0).

Lemma q_done K i : Q i -> keeps (InvT sk (Done K)) E (apply_action i) (fun _ _ => True).
Proof.
  intros Hi g [Kg D]. destruct (q_act g0 N Sep Ssym i Hi g Kg) as [K' R]. split; [|exact R]. split; [exact K'|].
  intros l Kl. destruct (q_gone g0 N Sep Ssym l i Hi g (conj Kg (D l Kl))) as [[_ X] _]. exact X.
Qed.
Lemma q_done_gone K l i : Q i -> keeps (InvT (InvT sk (Done K)) (some_gone l)) E (apply_action i) (fun _ _ => True).
Proof.
  intros Hi g [[Kg D] Gl]. destruct (q_done K i Hi g (conj Kg D)) as [X R]. split; [|exact R]. split; [exact X|].
  destruct (q_gone g0 N Sep Ssym l i Hi g (conj Kg Gl)) as [[_ Y] _]. exact Y.
Qed.

Section Lvl.
Variable min : nat.
Hypothesis Hmin : 3 <= min.
Notation mstep := (matrix_step so min N).
Definition live_star (g : graph) (x y : id) (S : list id) : Prop :=
  directed_edge_exists g x y = true /\ forall z, In z S -> directed_edge_exists g x z = true.
(* a call either finds all edges of the star or proposes nothing *)
Lemma matrix_cases g x y S us : sk g -> cset min x y S ->
  let zs := so (filter (fun n => negb (eqb n x) && negb (eqb n y)) (x :: y :: S)) in
  call mstep g (x :: y :: S) us = Ok None \/
  (live_star g x y S /\ call mstep g (x :: y :: S) us = match n_matrix N (map (values_of g0) (x :: y :: S)) with
     | Ok (Some b) => Ok (Some [if b then separated x y zs else not_separated x y zs]) | Ok None => Ok None | Err e => Err e end).
Proof.
  intros K CS. cbn zeta. assert (X := matrix_exact g0 N so Sep min mstep g x y S us (conj eq_refl eq_refl) K CS). cbn zeta in X. destruct X as [_ X].
  destruct (directed_edge_exists g x y) eqn:L.
  - destruct (forallb (fun z => directed_edge_exists g x z) S) eqn:F.
    + right. rewrite forallb_forall in F. split; [split; assumption|]. apply X; auto.
    + left. destruct CS as (ND & Hn & _).
      assert (F' : exists z, In z S /\ directed_edge_exists g x z = false).
      { clear -F. induction S as [|z S IH]; [discriminate|]. cbn in F. destruct (directed_edge_exists g x z) eqn:D; [|exists z; cbn; auto].
        destruct (IH F) as (w & ? & ?). exists w; cbn; auto. }
      destruct F' as (z & Hz & Dz). unfold call. cbn [matrix_step s_proc s_unapplied]. unfold matrix_test.
      rewrite (node_at_ok g0 [] cor Sep g (x :: y :: S) 0 x K eq_refl (Hn x (or_introl eq_refl))), (node_at_ok g0 [] cor Sep g (x :: y :: S) 1 y K eq_refl (Hn y (or_intror (or_introl eq_refl)))).
      cbn [rbind]. rewrite (skel_ee g0 [] cor Sep g x y K), L. cbn [negb].
      assert (Nxy : x <> y) by (inversion ND as [|? ? N1 _]; subst; intros ->; apply N1; left; reflexivity).
      assert (R := sk_rows _ _ _ _ _ K x y (Hn x (or_introl eq_refl)) (Hn y (or_intror (or_introl eq_refl))) Nxy).
      unfold row_of. unfold dmem in R. destruct (dget (edges g) x) as [row|] eqn:Rw; [|discriminate]. cbn [rbind].
      assert (My : mem y (filter (fun k => directed_edge_exists g k x) (dkeys row)) = true).
      { apply mem_In, filter_In. split; [|exact (sk_sym _ _ _ _ _ K x y L)].
        destruct (live_entry _ _ _ (sk_wf _ _ _ _ _ K) L) as (e & Eg & _). unfold eget, dget2 in Eg. rewrite Rw in Eg. eapply dmem_In. unfold dmem. rewrite Eg. reflexivity. }
      rewrite My. cbn [negb]. set (oth := filter (fun k => negb (eqb k y)) _).
      assert (FA : forallb (fun n => mem n oth) (skipn 2 (x :: y :: S)) = false).
      { cbn [skipn]. apply not_true_is_false. intros H. rewrite forallb_forall in H. specialize (H z Hz). apply mem_In in H. unfold oth in H. apply filter_In in H.
        destruct H as [H _]. apply filter_In in H. destruct H as [_ H]. apply (sk_sym _ _ _ _ _ K) in H. congruence. }
      rewrite FA. reflexivity.
  - left. destruct CS as (ND & Hn & _). unfold call. cbn [matrix_step s_proc s_unapplied]. unfold matrix_test.
    rewrite (node_at_ok g0 [] cor Sep g (x :: y :: S) 0 x K eq_refl (Hn x (or_introl eq_refl))), (node_at_ok g0 [] cor Sep g (x :: y :: S) 1 y K eq_refl (Hn y (or_intror (or_introl eq_refl)))).
    cbn [rbind]. rewrite (skel_ee g0 [] cor Sep g x y K), L. reflexivity.
Qed.

(* the tests given sets of k variables *)
Definition of_size (k : nat) (ns : list id) : Prop := exists x y S, ns = x :: y :: S /\ cset min x y S /\ List.length S = k.
Definition Ksize (k : nat) (l : list (id * id)) : Prop := exists x y S, l = star x y S /\ cset min x y S /\ always g0 N x y S /\ List.length S = k.
Section Inv.
Variable dry : bool.
Variable Inv : graph -> Prop.
Variable gs : graph.
Variable k : nat.
Hypothesis Hk : min <= k + 2.
Hypothesis Ks : sk gs.
Hypothesis Isk : forall g, Inv g -> sk g.
Hypothesis HQ : forall g x y S zs, Inv g -> live_star g x y S -> cset min x y S -> List.length S = k ->
  n_matrix N (map (values_of g0) (x :: y :: S)) = Ok (Some true) -> Permutation zs S -> Sep x y zs.
Lemma size_calls : good_calls Inv E Q (of_size k) mstep.
Proof.
  intros g ns us I (x & y & S & -> & CS & Lk) _. assert (K := Isk g I).
  destruct (matrix_cases g x y S us K CS) as [->|[LS ->]]; [constructor|].
  destruct (n_matrix N (map (values_of g0) (x :: y :: S))) as [[[|]|]|e] eqn:T; [| |constructor|eapply raised_matrix; exact T].
  - constructor; [|constructor]. right. eexists x, y, _. split; [reflexivity|]. assert (CS' := CS). destruct CS' as (ND & Hn & _). split; [apply Hn; left; reflexivity|].
    split; [apply Hn; right; left; reflexivity|]. split; [inversion ND as [|? ? N1 _]; subst; intros ->; apply N1; left; reflexivity|].
    apply (HQ g x y S _ I LS CS Lk T). apply zs_perm; assumption.
  - constructor; [left; reflexivity|constructor].
Qed.
Notation slot x y := (pwn_slot so None true (k + 2, x, y)).
Lemma size_blocks : Forall (good_block Inv E (of_size k) true) (map (pwn_slot so None true) (pwn_slots gs [k + 2])).
Proof.
  apply Forall_forall. intros f Hf. apply in_map_iff in Hf. destruct Hf as (((k' & x) & y) & <- & Hs). apply slots_In in Hs; [|exact (sk_wf _ _ _ _ _ Ks)].
  destruct Hs as ([<-|[]] & e & Ge). intros g I. assert (K := Isk g I).
  assert (Eg : eget gs x y = Some e) by (unfold eget; unfold get_edge in Ge; destruct (dget2 (edges gs) x y); [injection Ge as ->; reflexivity|discriminate]).
  destruct (wf_fwd _ (sk_wf _ _ _ _ _ Ks) _ _ _ Eg) as (Hx & Hy & Nxy & _). rewrite (sk_nodes _ _ _ _ _ Ks) in Hx, Hy.
  assert (R := sk_rows _ _ _ _ _ K x y Hx Hy Nxy). apply dmem_In in R.
  destruct (pwn_slot_ok so None true (k + 2) x y g (sk_wf _ _ _ _ _ K) R) as (es & Es). rewrite Es.
  destruct (slot_out_spec so None SO Logic.I true (k + 2) x y g (sk_wf _ _ _ _ _ K) ltac:(lia) R) as (S1 & _).
  apply Forall_forall. intros em He. destruct (slot_em so None true (k + 2) x y g es ltac:(lia) Es em He) as (l & ->). cbn. apply Forall_forall. intros ns Hn.
  destruct (S1 ns) as (S & -> & Ar & Ln & ND & HS).
  { unfold slot_out. rewrite Es. apply in_flat_map. exists (Chunk l). auto. }
  cbn [List.length] in Ln. exists x, y, S. split; [reflexivity|]. split; [split; [|split]|lia].
  - constructor; [|constructor; [|exact ND]].
    + intros [->|H]; [congruence|]. destruct (HS x H) as [[Nb _] _]. destruct (skel_dee_nodes g0 [] cor Sep g x x K Nb) as (_ & _ & F). congruence.
    + intros H. destruct (HS y H) as [_ F]. congruence.
  - intros z [<-|[<-|H]]; [exact Hx|exact Hy|]. destruct (HS z H) as [[Nb _] _]. apply (skel_dee_nodes g0 [] cor Sep g z x K Nb).
  - lia.
Qed.
Lemma size_wins x y S : directed_edge_exists gs x y = true -> cset min x y S -> always g0 N x y S -> List.length S = k ->
  In (slot x y) (map (pwn_slot so None true) (pwn_slots gs [k + 2])) /\ block_wins sk (some_gone (star x y S)) (wins (star x y S)) mstep true (slot x y).
Proof.
  intros L CS Al Lk. assert (CS' := CS). destruct CS' as (ND & Hn & _). split.
  - apply in_map_iff. exists (k + 2, x, y). split; [reflexivity|]. apply slots_In; [exact (sk_wf _ _ _ _ _ Ks)|]. split; [left; reflexivity|].
    destruct (live_entry _ _ _ (sk_wf _ _ _ _ _ Ks) L) as (e & Eg & _). exists e. unfold get_edge. unfold eget in Eg. rewrite Eg. reflexivity.
  - intros g K. destruct (some_gone_dec (star x y S) g) as [G|Lg]; [left; exact G|]. right. intros es Es. apply star_live in Lg. destruct Lg as [L1 L2].
    assert (Hx := Hn x (or_introl eq_refl)). assert (Hy := Hn y (or_intror (or_introl eq_refl))).
    assert (Nxy : x <> y) by (inversion ND as [|? ? N1 _]; subst; intros ->; apply N1; left; reflexivity).
    assert (R := sk_rows _ _ _ _ _ K x y Hx Hy Nxy). apply dmem_In in R.
    destruct (slot_out_spec so None SO Logic.I true (k + 2) x y g (sk_wf _ _ _ _ _ K) ltac:(lia) R) as (_ & S2 & _).
    inversion ND as [|? ? N1 ND2]; subst. inversion ND2 as [|? ? N2 ND3]; subst. cbn in N1.
    destruct (S2 S L1 ltac:(lia) ND3) as (S' & Pm & Hin).
    { intros z Hz. split; [|intros ->; contradiction]. assert (Lz' := L2 z Hz). split; [exact (sk_sym _ _ _ _ _ K x z Lz')|].
      destruct (live_entry _ _ _ (sk_wf _ _ _ _ _ K) Lz') as (e & Eg & _). exists e. unfold get_edge. unfold eget in Eg. rewrite Eg. reflexivity. }
    unfold slot_out in Hin. rewrite Es in Hin. apply in_flat_map in Hin. destruct Hin as (em & He & Hc).
    exists em, (x :: y :: S'). split; [exact He|]. split.
    + destruct (slot_em so None true (List.length S + 2) x y g es ltac:(lia) Es em He) as (l & ->). exact Hc.
    + apply (star_wins g0 N so Sep min); [split; reflexivity|exact CS|exact Pm|exact Al].
Qed.
Hypothesis HI : dry = false -> forall i, Q i -> keeps Inv E (apply_action i) (fun _ _ => True).
Hypothesis HT : dry = false -> forall l i, Q i -> keeps (InvT Inv (some_gone l)) E (apply_action i) (fun _ _ => True).
Hypothesis HW : dry = false -> forall l i g, Q i -> wins l i -> Inv g -> some_gone l (fst (apply_action i g)).
Notation blocks := (map (pwn_slot so None true) (pwn_slots gs [k + 2])).
Lemma size_tri g : Inv g -> tri Inv E (run_blocks no_hooks dry mstep blocks) g (fun a g' => good2 Q a /\
  forall l, Ksize k l -> (forall p, In p l -> directed_edge_exists gs (fst p) (snd p) = true) -> served (some_gone l) (wins l) dry a g').
Proof.
  intros I. assert (C := size_calls). assert (B := size_blocks).
  assert (T0 := tri_keeps Inv E _ _ g (keeps_blocks Inv E Q no_hooks (no_hooks_good _ _ _) dry HI (of_size k) mstep _ C B) I).
  assert (X := tri_all (K := list (id * id)) Inv E (run_blocks no_hooks dry mstep blocks) g
    (fun l => Ksize k l /\ forall p, In p l -> directed_edge_exists gs (fst p) (snd p) = true) (fun l a g' => served (some_gone l) (wins l) dry a g')).
  eapply tri_weaken; [apply tri_and; [exact T0|apply X]|].
  - eapply tri_weaken; [exact T0|auto].
  - intros l [(x & y & S & -> & CS & Al & Lk) Ll]. apply star_live in Ll. destruct Ll as [L _]. destruct (size_wins x y S L CS Al Lk) as [Hf W].
    eapply tri_weaken; [apply (blocks_serve Inv (some_gone (star x y S)) E Q (wins (star x y S)) dry (of_size k) HI (fun h => HT h _) (fun h => HW h _) mstep C _ _ B Hf (block_wins_mono sk Inv _ _ _ _ _ Isk W) g I)|].
    intros a g' _ [T _]; exact T.
  - intros a g' _ [G H]. split; [exact G|]. intros l A1 A2. apply (H l). auto.
Qed.
End Inv.

(* ---- all sizes, applied one after the other ---- *)
Variable gs : graph.
Hypothesis Ks : sk gs.
Variable Kb : list (id * id) -> Prop.
Hypothesis Db : Done Kb gs.
Hypothesis Kgone : forall l, some_gone l gs -> Kb l.
Definition below (k : nat) (l : list (id * id)) : Prop := Kb l \/ exists j, j < k /\ Ksize j l.
Hypothesis Hmat : forall g x y S zs, sk g -> Done (below (List.length S)) g -> live_star g x y S -> cset min x y S ->
  n_matrix N (map (values_of g0) (x :: y :: S)) = Ok (Some true) -> Permutation zs S -> Sep x y zs.
Lemma one_size k g : min <= k + 2 -> sk g -> Done (below k) g ->
  wp E (run_blocks no_hooks false mstep (map (pwn_slot so None true) (pwn_slots gs [k + 2]))) g (fun g' => sk g' /\ Done (below (S k)) g').
Proof.
  intros Hk K D.
  eapply tri_wp; [apply (size_tri false (InvT sk (Done (below k))) gs k Hk Ks (fun g h => proj1 h))|].
  - intros g1 x y S zs [K1 D1] LS CS Lk T Pm. subst k. exact (Hmat g1 x y S zs K1 D1 LS CS T Pm).
  - intros _ i Qi. apply q_done; exact Qi.
  - intros _ l i Qi. apply q_done_gone; exact Qi.
  - intros _ l i g1 Qi W [K1 _]. exact (q_wins g0 N Sep Ssym l i g1 Qi W K1).
  - split; assumption.
  - intros a g' [K' D'] [_ Sv]. split; [exact K'|]. intros l [B|(j & Hj & Kj)]; [apply D'; left; exact B|].
    destruct (Nat.eq_dec j k) as [->|Ne]; [|apply D'; right; exists j; split; [lia|exact Kj]].
    destruct (some_gone_dec l gs) as [G|L]; [apply D'; left; apply Kgone; exact G|].
    destruct (Sv l Kj L) as [T|[F _]]; [exact T|discriminate].
Qed.
Lemma sizes n : forall k g, min <= k + 2 -> sk g -> Done (below k) g ->
  wp E (run_blocks no_hooks false mstep (map (pwn_slot so None true) (pwn_slots gs (seq (k + 2) n)))) g sk.
Proof.
  induction n as [|n IH]; intros k g Hk K D; cbn [seq].
  - exact K.
  - rewrite slots_cons, map_app. eapply wp_blocks_app; [apply (one_size k g Hk K D)|]. intros g' [K' D']. change (S (k + 2)) with (S k + 2). apply IH; [lia|exact K'|exact D'].
Qed.
Lemma matrix_sizes P : wp E (execute_step P no_hooks mstep false) gs sk.
Proof.
  unfold execute_step. cbn [matrix_step s_parallel s_chunked s_gen]. unfold wp, bind, gget. change (wp E (run_blocks no_hooks false mstep (gen_neighbours so None true (mkCS min 0) gs)) gs sk).
  unfold gen_neighbours. cbn [cs_min]. destruct (Nat.ltb (List.length (nodes gs)) min); [exact Ks|]. destruct (Nat.ltb _ min); [exact Ks|]. destruct (Nat.ltb_spec min 2); [lia|].
  assert (X := sizes (cs_stop (mkCS min 0) (List.length (nodes gs)) - min) (min - 2) gs ltac:(lia) Ks). replace (min - 2 + 2) with min in X by lia. apply X.
  intros l [B|(j & Hj & x & y & S & -> & (_ & _ & Lm) & _ & Lk)]; [apply Db; exact B|lia].
Qed.
Lemma matrix_phase fuel P : wp E (run_pstep fuel P no_hooks (PStep mstep)) gs sk.
Proof.
  apply wp_pstep with (R := sk); [apply matrix_sizes|intros g h K; apply skel_log; exact K|]. intros g K. apply (s_purge g0 N Sep); [exact K|]. auto.
Qed.
End Lvl.
End Levels.
