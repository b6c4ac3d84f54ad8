(* The skeleton phases of the four PC algorithms, from the phases of TestedFacts. *)
From Verif Require Import Base PyDict PyDictFacts Graph GraphSpec GraphFacts GraphInv GraphInv2 GraphInv3 GraphQ GraphMain
  GraphPaths PathSpec Actions ActionSpec ActionFacts ActionMain Generators GenSpec GenFacts Rules IndepTests Pipeline Parallel PipeFacts RuleFacts
  Construct ConstructSpec ConstructFacts Dag DagFacts DagSep SkelSpec Rows Serve SkelFacts SkelStart SkelSteps SkelMatrix SkelMain SkelMain2
  LoopFacts TotalSpec TotalFacts TotalMain TestedSpec TestedFacts.
Open Scope string_scope.
Open Scope list_scope.

Section Run.
Variables (fuel : nat) (P : runner) (so : list id -> list id) (N : numerics) (g0 : graph).
Hypothesis CP : complete g0.
Hypothesis SO : set_order so.
Notation node := (SkelFacts.node g0).
Notation E := (raised N).
Notation cor := (corr g0 N).
Notation ord := (ord g0).
Hypothesis PF : forall a b, ord a b -> n_pearson N (values_of g0 a) (values_of g0 b) = Ok (cor a b).

Lemma coeff x y : node x -> node y -> x <> y -> coefficient N g0 x y (cor x y).
Proof. exact (corr_coeff N g0 CP x y PF). Qed.
Lemma before_ord x y : before (dkeys (nodes g0)) x y -> ord x y.
Proof.
  intros (a & b & c & H). apply ord_subseq. rewrite H. clear H.
  assert (D : forall (l m : list id), subseq l m -> forall k, subseq l (k ++ m)) by (intros l m S k; induction k as [|z k IH]; [exact S|constructor; exact IH]).
  assert (Z : forall m : list id, subseq [] m) by (induction m; constructor; assumption).
  apply D. constructor. apply D. constructor. apply Z.
Qed.
Lemma coefficient_ord x y z : ord x y -> coefficient N g0 x y z -> z = cor x y.
Proof.
  intros O [[B H]|[B H]].
  - rewrite (PF x y O) in H. congruence.
  - apply before_ord in B. destruct (ord_ok g0 CP x y O) as (Hx & Hy & Ne). exfalso. revert O B Ne. clear -CP. intros O B Ne.
    apply ord_before in O. apply ord_before in B. assert (ND := wf_nodes _ (cp_wf _ CP)). destruct O as (a & b & c & Eq). destruct B as (a' & b' & c' & Eq').
    rewrite Eq in Eq', ND. clear -Eq' ND Ne. revert a' Eq' ND. induction a as [|w a IH]; intros a' Eq' ND.
    + destruct a' as [|w' a']; cbn in Eq'; injection Eq' as E1 E2; [congruence|]. subst w'. cbn in ND. inversion ND as [|? ? N1 _]; subst. apply N1. rewrite E2.
      apply in_app_iff; right; right. apply in_app_iff; right; left; reflexivity.
    + destruct a' as [|w' a']; cbn in Eq'; injection Eq' as E1 E2.
      * subst w. cbn in ND. inversion ND as [|? ? N1 _]; subst. apply N1. apply in_app_iff; right; right. apply in_app_iff; right; left; reflexivity.
      * subst w'. inversion ND; subst. eapply IH; eassumption.
Qed.
Lemma cor_coefficient x y z : node x -> node y -> x <> y -> coefficient N g0 x y z -> z = cor x y.
Proof.
  intros Hx Hy Ne H. destruct (pairs_In g0 g0 x y (cp_wf _ CP) eq_refl Hx Hy Ne) as [O|O]; [apply coefficient_ord; assumption|].
  rewrite (corr_sym g0 N CP x y). apply coefficient_ord; [exact O|]. destruct H as [H|H]; [right|left]; exact H.
Qed.

Section Single.
Variable single : bool.
Definition Sep (x y : id) (S : list id) : Prop := good_sep g0 [] x y S /\ NoDup S /\ found_independent N g0 single x y S.
Lemma found_sym x y S : found_independent N g0 single x y S -> found_independent N g0 single y x S.
Proof.
  intros H. destruct H as [H1 H2|H1 H2|z H0 H1 H2|z H0 H1 H2|S S' Pm L H].
  - apply fi_none'; assumption.
  - apply fi_none; assumption.
  - apply fi_one'; assumption.
  - apply fi_one; assumption.
  - apply (fi_set N g0 single y x S S' Pm L). tauto.
Qed.
Lemma Ssym x y S : Sep x y S -> Sep y x S.
Proof. intros (A & D & B). split; [apply good_sym; exact A|split; [exact D|apply found_sym; exact B]]. Qed.
Lemma Sany x y S : Sep x y S -> good_sep g0 [] x y S. Proof. intros [A _]; exact A. Qed.
Lemma Scorr x y : ord x y -> n_corr_test N (List.length (values_of g0 x)) (cor x y) = Ok true -> Sep x y [].
Proof.
  intros O T. destruct (ord_ok g0 CP x y O) as (Hx & Hy & Ne). split.
  - split; [intros z []|split; [intros []|split; [intros []|apply any_dsep; exact Ne]]].
  - split; [constructor|]. apply fi_none; [apply ord_before; exact O|]. exists (cor x y). split; [apply coeff; assumption|exact T].
Qed.
Lemma Spart x y z : single = true -> ord x y -> node z -> NoDup [x; y; z] ->
  n_partial N (List.length (values_of g0 x)) 1 (cor x y) (cor x z) (cor y z) = Ok (Some true) -> Sep x y [z].
Proof.
  intros Si O Hz ND T. destruct (ord_ok g0 CP x y O) as (Hx & Hy & Ne). destruct (three x y z ND) as (_ & N2 & N3). split.
  - split; [intros w [<-|[]]; exact Hz|split; [intros [->|[]]; congruence|split; [intros [->|[]]; congruence|apply any_dsep; exact Ne]]].
  - split; [repeat constructor; intros []|]. apply fi_one; [exact Si|apply ord_before; exact O|]. exists (cor x y), (cor x z), (cor y z). repeat (split; [apply coeff; assumption|]). exact T.
Qed.
Lemma Smat min x y S zs : (if single then min = 4 else min = 3) -> cond_set g0 min x y S -> n_matrix N (map (values_of g0) (x :: y :: S)) = Ok (Some true) -> Permutation zs S -> Sep x y zs.
Proof.
  intros Si (ND & Hn & L) T Pm. inversion ND as [|? ? N1 ND2]; subst. inversion ND2 as [|? ? N2 ND3]; subst. cbn in N1. split.
  - split; [intros w Hw; apply Hn; right; right; eapply Permutation_in; eassumption|].
    split; [intros H; apply N1; right; eapply Permutation_in; eassumption|split; [intros H; apply N2; eapply Permutation_in; eassumption|]]. apply any_dsep. intros ->. apply N1; left; reflexivity.
  - split; [eapply Permutation_NoDup; [apply Permutation_sym; exact Pm|exact ND3]|]. apply (fi_set N g0 single x y zs S (Permutation_sym Pm)); [|left; exact T]. rewrite (Permutation_length Pm). destruct single; lia.
Qed.
Notation sk := (skel g0 [] cor Sep).
Notation Q := (proposal g0 Sep).

Lemma pearson_first : wp E (run_pstep fuel P no_hooks (PStep (calculate_pearson N))) g0 (fun g => sk g /\ full g0 g).
Proof.
  apply wp_pstep with (R := fun g => sk g /\ full g0 g).
  - eapply tri_wp; [apply (pearson_total g0 N CP P)|]. intros a g K [T _]. destruct (pearson_sk g0 N g K T) as [[A1 A2 A3 A4 A5 A6 A7 A8] F]. split; [|exact F].
    constructor; try assumption. intros u v Hu Hv Ne L. rewrite (F u v Hu Hv Ne) in L. discriminate.
  - intros g h [K L]. split; [apply skel_log; exact K|exact L].
  - intros g [K L]. apply (s_purge g0 N Sep); [exact K|]. intros g' R K'. split; [exact K'|]. intros u v Hu Hv Ne. rewrite (purge_dee g g' (sk_wf _ _ _ _ _ K) R). apply L; assumption.
Qed.
End Single.

Notation KC := (Kcorr g0 N).
Notation KP := (Kpart g0 N).
Notation KM := (Kmat g0 N).
Notation good b K g := (skel g0 [] cor (Sep b) g /\ Done K g).
Lemma pc_tested : wp E (execute_pipeline fuel P no_hooks (pc_skeleton so N)) g0 (fun g => good true (fun l => (KC l \/ KP l) \/ KM 4 l) g).
Proof.
  set (HS := Ssym true). set (HA := Sany true). set (HC := Scorr true). assert (HP := fun x y z => Spart true x y z eq_refl). assert (HM := fun x y S zs => Smat true 4 x y S zs eq_refl).
  eapply wp_cons; [apply (pearson_first true)|intros g1 [K1 F1]].
  eapply wp_cons; [apply (corr_phase_done g0 N CP (Sep true) HS HC fuel P g1 K1 F1)|intros g2 [K2 D2]].
  eapply wp_cons; [apply (phase g0 N (Sep true) HS fuel P (partial_step false N) (triple_ord g0) KC KP g2 ltac:(discriminate) (partial_goods g0 N CP (Sep true) HA HP false) K2 D2)|intros g3 [K3 D3]].
  { intros l Kl. apply (part_serves g0 N CP (Sep true) HS HA HP P g2 l K2 Kl). }
  eapply wp_cons; [apply (phase g0 N (Sep true) HS fuel P (matrix_step so 4 N) (test_min g0 4) (fun l => KC l \/ KP l) (KM 4) g3 ltac:(discriminate) (seq_good g0 N so SO (Sep true) HA 4 ltac:(lia) HM) K3 D3)|].
  { intros l Kl. apply (seq_serves g0 N so SO (Sep true) HS HA 4 ltac:(lia) HM P g3 l K3 Kl). }
  intros g4 K4. exact K4.
Qed.
Lemma classic_tested : wp E (execute_pipeline fuel P no_hooks (pc_classic_skeleton so N)) g0 (fun g => good false (fun l => KC l \/ KM 3 l) g).
Proof.
  set (HS := Ssym false). set (HA := Sany false). set (HC := Scorr false). assert (HM := fun x y S zs => Smat false 3 x y S zs eq_refl).
  eapply wp_cons; [apply (pearson_first false)|intros g1 [K1 F1]].
  eapply wp_cons; [apply (corr_phase_done g0 N CP (Sep false) HS HC fuel P g1 K1 F1)|intros g2 [K2 D2]].
  eapply wp_cons; [apply (phase g0 N (Sep false) HS fuel P (matrix_step so 3 N) (test_min g0 3) KC (KM 3) g2 ltac:(discriminate) (seq_good g0 N so SO (Sep false) HA 3 ltac:(lia) HM) K2 D2)|].
  { intros l Kl. apply (seq_serves g0 N so SO (Sep false) HS HA 3 ltac:(lia) HM P g2 l K2 Kl). }
  intros g4 K4. exact K4.
Qed.
Section Par.
Variables sh sh' : nat * id * id -> list (list id) -> list (list id).
Variable coin : nat -> nat -> bool.
Hypothesis SH : is_shuffle (Some sh).
Hypothesis SH' : is_shuffle (Some sh').
Hypothesis HP : pool_runner no_hooks P.
Lemma parallel_tested : wp E (execute_pipeline fuel P no_hooks (pc_parallel_skeleton so sh sh' coin N)) g0 (fun g => good true (fun l => (KC l \/ KP l) \/ KM 4 l) g).
Proof.
  set (HS := Ssym true). set (HA := Sany true). set (HC := Scorr true). assert (HT := fun x y z => Spart true x y z eq_refl). assert (HM := fun x y S zs => Smat true 4 x y S zs eq_refl).
  eapply wp_cons; [apply (pearson_first true)|intros g1 [K1 F1]].
  eapply wp_cons; [apply (corr_phase_done g0 N CP (Sep true) HS HC fuel P g1 K1 F1)|intros g2 [K2 D2]].
  eapply wp_cons; [apply (phase g0 N (Sep true) HS fuel P (partial_step true N) (triple_ord g0) KC KP g2 (fun _ => HP) (partial_goods g0 N CP (Sep true) HA HT true) K2 D2)|intros g3 [K3 D3]].
  { intros l Kl. apply (pool_part_serves g0 N CP (Sep true) HS HA HT P HP g2 l K2 Kl). }
  eapply wp_cons; [apply (phase g0 N (Sep true) HS fuel P (matrix_step_sampled so sh coin N) (test_min g0 4) (fun l => KC l \/ KP l) (fun _ => False) g3 (fun _ => HP) (psampled_good g0 N so SO (Sep true) HA sh coin SH HM) K3 D3)|intros g4 [K4 D4]].
  { intros l []. }
  eapply wp_cons; [apply (phase g0 N (Sep true) HS fuel P (matrix_step_parallel so sh' N) (test_min g0 4) (fun l => KC l \/ KP l) (KM 4) g4 (fun _ => HP) (pparallel_good g0 N so SO (Sep true) HA sh' SH' HM) K4)|].
  { intros l Kl. apply D4. left; exact Kl. }
  { intros l Kl. apply (pparallel_serves g0 N so SO (Sep true) HS HA P HP sh' SH' HM g4 l K4 Kl). }
  intros g5 K5. exact K5.
Qed.
End Par.

(* ---- PCStable ---- *)
Section Stable.
Notation sk := (skel g0 [] cor (Sep true)).
Notation Q := (proposal g0 (Sep true)).
Variable g1 : graph.
Hypothesis K1 : sk g1.
Hypothesis L1 : full g0 g1.
Notation Inv1 := (fun g' : graph => g' = g1).
Definition live_list (l : list (id * id)) : Prop := forall p, In p l -> directed_edge_exists g1 (fst p) (snd p) = true.
Definition by_list (a : list tresult) (l : list (id * id)) : Prop := exists i, In i a /\ wins l i.
Lemma dry_by a l : live_list l -> served (some_gone l) (wins l) true a g1 -> by_list (fst a) l.
Proof. intros LL [(p & Hp & G)|(_ & i & Hi & W)]; [|exists i; auto]. unfold gone in G. rewrite (LL p Hp) in G. discriminate. Qed.
Lemma corr_live_list l : KC l -> live_list l.
Proof. intros (x & y & -> & O & _) p [<-|[]]. destruct (ord_ok g0 CP x y O) as (Hx & Hy & Ne). apply L1; assumption. Qed.
Lemma part_live_list l : KP l -> live_list l.
Proof.
  intros (p & q & r & x & y & z & Hc & _ & _ & _ & Cs & _ & ->). destruct (triples_ord g0 _ Hc) as (p' & q' & r' & Ep & O1 & O2 & O3). injection Ep as <- <- <-.
  destruct (triple_nd g0 CP p q r O1 O2 O3) as (Hp & Hq & Hr & ND). destruct (three p q r ND) as (A & B & C).
  intros w Hw. destruct Cs as [Ex|[Ex|Ex]]; injection Ex as -> -> ->; destruct Hw as [<-|[<-|[<-|[]]]]; cbn [fst snd]; apply L1; congruence.
Qed.
Lemma mat_live_list l : KM 4 l -> live_list l.
Proof.
  intros (x & y & S & -> & (ND & Hn & _) & _). inversion ND as [|? ? N1 ND2]; subst. intros w [<-|Hw].
  - cbn [fst snd]. apply L1; [apply Hn; left; reflexivity|apply Hn; right; left; reflexivity|intros ->; apply N1; left; reflexivity].
  - apply in_map_iff in Hw. destruct Hw as (z & <- & Hz). cbn [fst snd]. apply L1; [apply Hn; left; reflexivity|apply Hn; right; right; exact Hz|intros ->; apply N1; right; exact Hz].
Qed.
Lemma tri_both s (K : list (id * id) -> Prop) : (forall l, K l -> live_list l) -> tri Inv1 E (execute_step P no_hooks s true) g1 (fun a _ => good2 Q a) ->
  (forall l, K l -> tri Inv1 E (execute_step P no_hooks s true) g1 (fun a g => served (some_gone l) (wins l) true a g)) ->
  tri Inv1 E (execute_step P no_hooks s true) g1 (fun a _ => good2 Q a /\ forall l, K l -> by_list (fst a) l).
Proof.
  intros LL A B. assert (X := tri_all (K := option (list (id * id))) Inv1 E (execute_step P no_hooks s true) g1
    (fun o => match o with None => True | Some l => K l end) (fun o a _ => match o with None => good2 Q a | Some l => by_list (fst a) l end)).
  eapply tri_weaken; [apply X|].
  - eapply tri_weaken; [exact A|auto].
  - intros [l|] H; [|eapply tri_weaken; [exact A|auto]]. destruct (B l H) as [B1 B2]. split; [exact B1|].
    destruct (snd (execute_step P no_hooks s true g1)) as [a|e]; [|exact B2]. rewrite B1 in B2. apply dry_by; [apply LL; exact H|exact B2].
  - intros a g _ H. split; [exact (H None Logic.I)|]. intros l Kl. exact (H (Some l) Kl).
Qed.
Lemma together : tri Inv1 E (run_inner P no_hooks true [correlation_step N; partial_step false N; matrix_step so 4 N]) g1
  (fun a _ => Forall Q (snd a) /\ forall l, (KC l \/ KP l) \/ KM 4 l -> by_list (snd a) l).
Proof.
  set (HS := Ssym true). set (HA := Sany true). set (HC := Scorr true). assert (HT := fun x y z => Spart true x y z eq_refl). assert (HM := fun x y S zs => Smat true 4 x y S zs eq_refl).
  assert (S1 := tri_both (correlation_step N) KC corr_live_list (corr_tri g0 N CP (Sep true) HC true P g1 K1 L1 Inv1 eq_refl ltac:(discriminate))
    (fun l Kl => corr_serve g0 N CP (Sep true) HC true P g1 K1 L1 Inv1 eq_refl ltac:(discriminate) ltac:(discriminate) ltac:(discriminate) l Kl)).
  assert (S2 := tri_both (partial_step false N) KP part_live_list (part_tri g0 N CP (Sep true) HA HT true P g1 K1 Inv1 eq_refl ltac:(discriminate))
    (fun l Kl => part_serve g0 N CP (Sep true) HA HT true P g1 K1 Inv1 eq_refl ltac:(discriminate) ltac:(discriminate) ltac:(discriminate) l Kl (part_live_list l Kl))).
  destruct (seq_tri g0 N so SO (Sep true) HA 4 ltac:(lia) HM P true Inv1 ltac:(intros g ->; exact K1) ltac:(discriminate) ltac:(discriminate) ltac:(discriminate) g1 eq_refl) as [M1 M2].
  assert (S3 := tri_both (matrix_step so 4 N) (KM 4) mat_live_list M1 M2).
  cbn [run_inner].
  assert (AP : forall a b l, by_list a l -> by_list (a ++ b) l) by (intros a b l (i & Hi & W); exists i; split; [apply in_app_iff; left; exact Hi|exact W]).
  assert (AP' : forall a b l, by_list b l -> by_list (a ++ b) l) by (intros a b l (i & Hi & W); exists i; split; [apply in_app_iff; right; exact Hi|exact W]).
  eapply tri_bind; [exact S1|]. intros a1 g -> [[Ga1 _] F1].
  eapply (tri_bind Inv1 E _ _ g1 (fun b _ => Forall Q (snd b) /\ (forall l, KP l \/ KM 4 l -> by_list (snd b) l))).
  - eapply tri_bind; [exact S2|]. intros a2 g -> [[Ga2 _] F2].
    eapply (tri_bind Inv1 E _ _ g1 (fun b _ => Forall Q (snd b) /\ (forall l, KM 4 l -> by_list (snd b) l))).
    + eapply tri_bind; [exact S3|]. intros a3 g -> [[Ga3 _] F3]. apply tri_bind with (P := fun b _ => snd b = []); [apply tri_ret; reflexivity|].
      intros b g -> Eb. apply tri_ret; [reflexivity|]. cbn [snd]. rewrite Eb, app_nil_r. split; [exact Ga3|exact F3].
    + intros b g -> [Gb Fb]. apply tri_ret; [reflexivity|]. cbn [snd]. split; [apply Forall_app; auto|]. intros l [H|H]; auto.
  - intros b g -> [Gb Fb]. apply tri_ret; [reflexivity|]. cbn [snd]. split; [apply Forall_app; auto|]. intros l [[H|H]|H]; auto.
Qed.
Definition heads (K : list (id * id) -> Prop) (l : list (id * id)) : Prop := exists p r, l = [p] /\ K (p :: r).
Lemma stable_phase : wp E (run_pstep fuel P no_hooks (PTogether "ApplyActionsTogether" [correlation_step N; partial_step false N; matrix_step so 4 N])) g1
  (fun g => good true (heads (fun l => (KC l \/ KP l) \/ KM 4 l)) g).
Proof.
  destruct together as [T1 T2]. unfold wp. cbn [run_pstep]. unfold run_together, bind.
  destruct (run_inner P no_hooks true [correlation_step N; partial_step false N; matrix_step so 4 N] g1) as [g [a|e]]; cbn [fst snd] in *; [|exact T2]. subst g. destruct T2 as [Fa Da].
  assert (F : Forall (goodo Q) (map (fun i => Some [i]) (snd a))).
  { apply Forall_forall. intros o H. apply in_map_iff in H. destruct H as (i & <- & Hi). rewrite Forall_forall in Fa. constructor; [auto|constructor]. }
  assert (QA := q_act g0 N (Sep true) (Ssym true)). assert (QG := q_gone g0 N (Sep true) (Ssym true)). assert (QW := q_wins g0 N (Sep true) (Ssym true)).
  assert (ST := take_I sk E Q false (fun _ => QA) _ g1 F K1).
  assert (X := tri_all (K := list (id * id)) sk E (take_action no_hooks false (map (fun i => Some [i]) (snd a))) g1
    (heads (fun l => (KC l \/ KP l) \/ KM 4 l)) (fun l _ g => some_gone l g)).
  destruct X as [X1 X2]; [eapply tri_weaken; [exact ST|auto]| |].
  - intros l (p & r & -> & Kl). destruct (Da _ Kl) as (i & Hi & p' & r' & Ep & W). injection Ep as <- <-.
    eapply tri_weaken; [apply (take_serve sk (some_gone [p]) E Q (wins [p]) false (fun _ => QA) (fun _ => QG [p]) (fun _ => QW [p])
      _ (Some [i]) i F)|].
    + apply in_map_iff. exists i; auto.
    + left; reflexivity.
    + exists p, []. auto.
    + exact K1.
    + intros b g' _ [[T|[Fd _]] _]; [exact T|discriminate].
  - destruct (take_action no_hooks false (map (fun i => Some [i]) (snd a)) g1) as [g2 [b|e]]; cbn [fst snd] in *; [|exact X2]. cbn. split; [apply skel_log; exact X1|].
    apply done_log. exact X2.
Qed.
End Stable.
Lemma stable_tested : wp E (execute_pipeline fuel P no_hooks (pc_stable_skeleton so N)) g0 (fun g => good true (heads (fun l => (KC l \/ KP l) \/ KM 4 l)) g).
Proof.
  eapply wp_cons; [apply (pearson_first true)|intros g1 [K1 F1]]. eapply wp_cons; [apply (stable_phase g1 K1 F1)|]. intros g2 K2. exact K2.
Qed.

(* ---- from the specification to the lists of pairs ---- *)
Lemma before_nodes x y : before (dkeys (nodes g0)) x y -> node x /\ node y /\ x <> y.
Proof. intros B. exact (ord_ok g0 CP x y (before_ord x y B)). Qed.
Lemma coefficient_nodes x y z : coefficient N g0 x y z -> node x /\ node y /\ x <> y.
Proof. intros [[B _]|[B _]]; destruct (before_nodes _ _ B) as (A & C & D); auto. Qed.
Lemma cor_of x y z : coefficient N g0 x y z -> z = cor x y.
Proof. intros H. destruct (coefficient_nodes x y z H) as (A & B & C). apply cor_coefficient; assumption. Qed.
Lemma kc_of x y : earlier g0 x y -> corr_answer N g0 x y true -> KC [(x, y)].
Proof. intros B (a & Ca & T). exists x, y. split; [reflexivity|]. split; [apply before_ord; exact B|]. rewrite <- (cor_of x y a Ca). exact T. Qed.
Lemma insert_third : forall (l : list id) x y z, before l x y -> In z l -> z <> x -> z <> y ->
  subseq [z; x; y] l \/ subseq [x; z; y] l \/ subseq [x; y; z] l.
Proof.
  assert (D : forall (l m : list id), subseq l m -> forall k, subseq l (k ++ m)) by (intros l m S k; induction k as [|z k IH]; [exact S|constructor; exact IH]).
  assert (Z : forall m : list id, subseq [] m) by (induction m; constructor; assumption).
  intros l x y z (a & b & c & ->) Hz N1 N2. apply in_app_iff in Hz. destruct Hz as [Hz|[Hz|Hz]]; [|congruence|apply in_app_iff in Hz; destruct Hz as [Hz|[Hz|Hz]]; [|congruence|]].
  - left. apply in_split in Hz. destruct Hz as (a1 & a2 & ->). rewrite <- app_assoc. apply D. constructor. apply D. constructor. apply D. constructor. apply Z.
  - right; left. apply in_split in Hz. destruct Hz as (a1 & a2 & ->). apply D. constructor. rewrite <- app_assoc. apply D. constructor. apply D. constructor. apply Z.
  - right; right. apply in_split in Hz. destruct Hz as (a1 & a2 & ->). apply D. constructor. apply D. constructor. apply D. constructor. apply Z.
Qed.
Lemma kp_raise x y z : earlier g0 x y -> node z -> z <> x -> z <> y ->
  n_partial N (List.length (values_of g0 x)) 1 (cor x y) (cor x z) (cor y z) <> Ok (Some false) -> answers_triple N g0 x y z -> KP [(x, y); (x, z); (y, z)].
Proof.
  intros B Hz N2 N3 T An. destruct (before_nodes _ _ B) as (Hx & Hy & N1).
  assert (Go : forall p q r, subseq [p; q; r] (dkeys (nodes g0)) -> Permutation [p; q; r] [x; y; z] ->
    ((x, y, z) = (q, r, p) \/ (x, y, z) = (p, r, q) \/ (x, y, z) = (p, q, r)) -> KP [(x, y); (x, z); (y, z)]).
  { intros p q r S Pm Cs.
    assert (Hc : In [p; q; r] (all_combinations (mkCS 3 3) g0)).
    { apply all_combinations_In. split; [exact S|]. apply subseq_length in S. unfold size_in; cbn [cs_min cs_max List.length] in *. unfold dkeys in S. rewrite map_length in S. lia. }
    destruct (triples_ord g0 _ Hc) as (p' & q' & r' & Ep & O1 & O2 & O3). injection Ep as <- <- <-. destruct (triple_nd g0 CP p q r O1 O2 O3) as (Hp & Hq & Hr & ND). destruct (three p q r ND) as (A1 & A2 & A3).
    assert (NN : forall u v w, Permutation [u; v; w] [p; q; r] -> ord u v -> n_partial N (List.length (values_of g0 u)) 1 (cor u v) (cor u w) (cor v w) <> Ok None).
    { intros u v w Pu Ou F. apply (An u v w (Permutation_trans Pu Pm) (ord_before g0 u v Ou)).
      assert (NDu : NoDup [u; v; w]) by (eapply Permutation_NoDup; [apply Permutation_sym; exact Pu|exact ND]). destruct (three u v w NDu) as (U1 & U2 & U3).
      assert (Nu : forall t, In t [u; v; w] -> node t).
      { intros t Ht. assert (Ht' := Permutation_in _ Pu Ht). destruct Ht' as [<-|[<-|[<-|[]]]]; assumption. }
      exists (cor u v), (cor u w), (cor v w). repeat (split; [apply coeff; try assumption; apply Nu; cbn; auto|]). exact F. }
    exists p, q, r, x, y, z. split; [exact Hc|].
    split; [apply NN; [apply Permutation_sym; change [q; r; p] with ([q; r] ++ [p]); apply (Permutation_cons_append [q; r] p)|exact O3]|].
    split; [apply NN; [apply perm_skip, perm_swap|exact O2]|]. split; [apply NN; [reflexivity|exact O1]|]. split; [exact Cs|]. split; [exact T|reflexivity]. }
  destruct (insert_third _ x y z B ltac:(apply dmem_In; exact Hz) ltac:(congruence) ltac:(congruence)) as [S|[S|S]].
  - apply (Go z x y S); [change [x; y; z] with ([x; y] ++ [z]); apply (Permutation_cons_append [x; y] z)|auto].
  - apply (Go x z y S); [apply perm_skip, perm_swap|auto].
  - apply (Go x y z S); [reflexivity|auto].
Qed.
Lemma kp_of x y z : earlier g0 x y -> partial_answer N g0 x y z (Some true) -> answers_triple N g0 x y z -> KP [(x, y); (x, z); (y, z)].
Proof.
  intros B (a & b & c & Ca & Cb & Cc & T) An. destruct (coefficient_nodes _ _ _ Cb) as (_ & Hz & N2). destruct (coefficient_nodes _ _ _ Cc) as (_ & _ & N3).
  rewrite (cor_of _ _ _ Ca), (cor_of _ _ _ Cb), (cor_of _ _ _ Cc) in T. apply kp_raise; [exact B|exact Hz|congruence|congruence|congruence|exact An].
Qed.
Lemma km_of min x y S : node x -> node y -> other_variables g0 x y S -> min <= List.length S + 2 -> always_independent N g0 x y S -> KM min (star x y S).
Proof.
  intros Hx Hy [ND Hn] L Al. exists x, y, S. split; [reflexivity|]. split; [|exact Al]. split; [exact ND|]. split; [|exact L].
  intros z [<-|[<-|Hz]]; [assumption|assumption|]. apply dmem_In. apply Hn; exact Hz.
Qed.
End Run.

(* ---- the four algorithms ---- *)
Section Top.
Variables (fuel : nat) (P : runner) (so : list id -> list id) (N : numerics) (g0 : graph).
Hypothesis CP : complete g0.
Hypothesis SO : set_order so.
Notation node := (SkelFacts.node g0).
Definition kept_list (b : bool) (l : list (id * id)) : Prop := if b then (Kcorr g0 N l \/ Kpart g0 N l) \/ Kmat g0 N 4 l else Kcorr g0 N l \/ Kmat g0 N 3 l.
Lemma top b sks g : skeleton_of P so N b sks -> execute_pipeline fuel P no_hooks sks g0 = (g, Ok tt) ->
  (forall a c, ord g0 a c -> n_pearson N (values_of g0 a) (values_of g0 c) = Ok (corr g0 N a c)) /\
  skel g0 [] (corr g0 N) (Sep N g0 b) g /\ Done (kept_list b) g.
Proof.
  intros A R.
  assert (PA : exists l, pc_algorithm P so N sks l) by (destruct A; eexists; constructor; assumption). destruct PA as (l & PA).
  assert (PF := skel_pearson fuel P so N g0 CP sks l g PA R). split; [exact PF|]. destruct A as [| | |sh sh' coin S1 S2 HP].
  - assert (W := pc_tested fuel P so N g0 CP SO PF). unfold wp in W. rewrite R in W. exact W.
  - assert (W := classic_tested fuel P so N g0 CP SO PF). unfold wp in W. rewrite R in W. exact W.
  - assert (W := stable_tested fuel P so N g0 CP SO PF). unfold wp in W. rewrite R in W. destruct W as [W1 W2]. split; [exact W1|].
    intros k Hk. assert (Hh : exists p r, k = p :: r) by (destruct Hk as [[(x & y & -> & _)|(p & q & r & x & y & z & _ & _ & _ & _ & _ & _ & ->)]|(x & y & S & -> & _)]; [eauto|eauto|unfold star; eauto]).
    destruct Hh as (p & r & ->). destruct (W2 [p]) as (p' & [<-|[]] & G); [exists p, r; split; [reflexivity|exact Hk]|]. exists p. split; [left; reflexivity|exact G].
  - assert (W := parallel_tested fuel P so N g0 CP SO PF sh sh' coin S1 S2 HP). unfold wp in W. rewrite R in W. exact W.
Qed.
Lemma top_stable g : execute_pipeline fuel P no_hooks (pc_stable_skeleton so N) g0 = (g, Ok tt) ->
  (forall a c, ord g0 a c -> n_pearson N (values_of g0 a) (values_of g0 c) = Ok (corr g0 N a c)) /\
  skel g0 [] (corr g0 N) (Sep N g0 true) g /\ Done (heads (kept_list true)) g.
Proof.
  intros R. assert (PF := skel_pearson fuel P so N g0 CP _ _ g (pa_stable P so N) R). split; [exact PF|].
  assert (W := stable_tested fuel P so N g0 CP SO PF). unfold wp in W. rewrite R in W. exact W.
Qed.
End Top.
