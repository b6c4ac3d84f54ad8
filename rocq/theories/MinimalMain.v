(* The skeleton phases of PC, PCClassic and PCStable, with the sizes of the recorded separators. *)
From Verif Require Import Base PyDict PyDictFacts Graph GraphSpec GraphFacts GraphInv GraphInv2 GraphInv3 GraphQ GraphMain
  GraphPaths PathSpec Actions ActionSpec ActionFacts ActionMain Generators GenSpec GenFacts Rules IndepTests Pipeline Parallel PipeFacts RuleFacts
  Construct ConstructSpec ConstructFacts Dag DagFacts DagSep SkelSpec Rows Serve SkelFacts SkelStart SkelSteps SkelMatrix SkelMain SkelMain2
  LoopFacts TotalSpec TotalFacts TotalMain TestedSpec TestedFacts TestedMain MinimalFacts.
Open Scope string_scope.
Open Scope list_scope.

Section Run.
Variables (fuel : nat) (P : runner) (so : list id -> list id) (N : numerics) (g0 : graph).
Hypothesis CP : complete g0.
Hypothesis SO : set_order so.
Notation node := (SkelFacts.node g0).
Notation E := (raised N).
Notation cor := (corr g0 N).
Notation ord := (ord g0).
Hypothesis PF : forall a b, ord a b -> n_pearson N (values_of g0 a) (values_of g0 b) = Ok (cor a b).
Notation KC := (Kcorr g0 N).
Notation KP := (Kpart g0 N).
Notation found := (found_independent N g0).

Lemma full_skel (S1 S2 : id -> id -> list id -> Prop) g : skel g0 [] cor S1 g -> full g0 g -> skel g0 [] cor S2 g.
Proof. intros [A1 A2 A3 A4 A5 A6 A7 A8] F. constructor; try assumption. intros u v Hu Hv Ne L. rewrite (F u v Hu Hv Ne) in L. discriminate. Qed.
Lemma pearson_any Sp : wp E (run_pstep fuel P no_hooks (PStep (calculate_pearson N))) g0 (fun g => skel g0 [] cor Sp g /\ full g0 g).
Proof. eapply wp_weaken; [apply (pearson_first fuel P N g0 CP true)|]. intros g [K F]. split; [exact (full_skel _ _ g K F)|exact F]. Qed.

Section Single.
Variable single : bool.
Notation min := (if single then 4 else 3).
(* tests that are bound to be asked again when an answer was "independent" *)
Definition firm : Prop := forall x y T, node x -> node y -> other_variables g0 x y T -> found single x y T ->
  (T = [] /\ (KC [(x, y)] \/ KC [(y, x)])) \/
  (single = true /\ exists z, T = [z] /\ (KP [(x, y); (x, z); (y, z)] \/ KP [(y, x); (y, z); (x, z)])) \/
  (cond_set g0 min x y T /\ always g0 N x y T).
Hypothesis HF : firm.
Definition small (x y : id) (S : list id) : Prop := forall T, NoDup T -> incl T S -> List.length T < List.length S -> found single x y T ->
  single = true /\ exists z, T = [z] /\ (found single x z [] \/ found single y z []).
Definition SepM (x y : id) (S : list id) : Prop := Sep N g0 single x y S /\ small x y S.
Lemma SepM_sym x y S : SepM x y S -> SepM y x S.
Proof.
  intros [A B]. split; [apply Ssym; exact A|]. intros T ND I L F. destruct (B T ND I L (found_sym N g0 single y x T F)) as (Si & z & -> & C). split; [exact Si|]. exists z. tauto.
Qed.
Lemma SepM_any x y S : SepM x y S -> good_sep g0 [] x y S. Proof. intros [A _]. apply (Sany N g0 single). exact A. Qed.
Lemma SepM_nil x y : Sep N g0 single x y [] -> SepM x y [].
Proof. intros A. split; [exact A|]. intros T _ _ L. cbn in L. lia. Qed.
Lemma others x y S T : cond_set g0 min x y S -> NoDup T -> incl T S -> other_variables g0 x y T.
Proof.
  intros (ND & Hn & _) NT I. inversion ND as [|? ? N1 ND2]; subst. inversion ND2 as [|? ? N2 _]; subst. cbn in N1. split.
  - constructor; [|constructor; [|exact NT]]; [|intros H; exact (N2 (I _ H))]. intros [->|H]; [apply N1; left; reflexivity|apply N1; right; exact (I _ H)].
  - intros z Hz. apply dmem_In. apply Hn. right; right. exact (I _ Hz).
Qed.
Lemma gone_pair Sp g x y : skel g0 [] cor Sp g -> directed_edge_exists g x y = true -> some_gone [(x, y)] g \/ some_gone [(y, x)] g -> False.
Proof.
  intros K L [(p & [<-|[]] & G)|(p & [<-|[]] & G)]; unfold gone in G; cbn in G; [congruence|]. apply (sk_sym _ _ _ _ _ K) in L. congruence.
Qed.
Lemma live_gone g x y S T : live_star g x y S -> incl T S -> some_gone (star x y T) g -> False.
Proof.
  intros [L1 L2] I (p & [<-|Hp] & G); unfold gone in G; [cbn in G; congruence|]. apply in_map_iff in Hp. destruct Hp as (z & <- & Hz). cbn in G. rewrite (L2 z (I z Hz)) in G. discriminate.
Qed.
Notation sk := (skel g0 [] cor SepM).
End Single.

(* ---- PCClassic ---- *)
Lemma classic_sizes : firm false -> wp E (execute_pipeline fuel P no_hooks (pc_classic_skeleton so N)) g0 (skel g0 [] cor (SepM false)).
Proof.
  intros HF. eapply wp_cons; [apply (pearson_any (SepM false))|intros g1 [K1 F1]].
  eapply wp_cons; [apply (corr_phase_done g0 N CP (SepM false) (SepM_sym false) (fun x y O T => SepM_nil false x y (Scorr N g0 CP PF false x y O T)) fuel P g1 K1 F1)|intros g2 [K2 D2]].
  eapply wp_cons; [|intros g3 K3; exact K3].
  apply (matrix_phase g0 N so SO (SepM false) (SepM_sym false) 3 ltac:(lia) g2 K2 (fun l => KC l \/ some_gone l g2)); [intros l [H|H]; [apply D2; exact H|exact H]|intros l H; right; exact H|].
  intros g x y S zs K D LS CS T Pm. split; [apply (Smat N g0 false 3 x y S zs eq_refl CS T Pm)|].
  intros T0 NT I L F. rewrite (Permutation_length Pm) in L. assert (I' : incl T0 S) by (intros z Hz; eapply Permutation_in; [exact Pm|apply I; exact Hz]).
  assert (Hx := proj1 (proj2 CS) x (or_introl eq_refl)). assert (Hy := proj1 (proj2 CS) y (or_intror (or_introl eq_refl))).
  exfalso. destruct (HF x y T0 Hx Hy (others false x y S T0 CS NT I') F) as [[-> H]|[[Si _]|[C A]]]; [|discriminate|].
  - apply (gone_pair (SepM false) g x y K (proj1 LS)). destruct H as [H|H]; [left|right]; apply D; left; left; exact H.
  - apply (live_gone g x y S T0 LS I'). apply D. right. exists (List.length T0). split; [exact L|]. exists x, y, T0. auto.
Qed.

(* ---- PC ---- *)
Section Pc.
Hypothesis HF : firm true.
Notation SM := (SepM true).
Notation sk := (skel g0 [] cor SM).
Notation Q := (proposal g0 SM).
(* the separators of the correlation test *)
Definition SepE (x y : id) (S : list id) : Prop := SM x y S /\ S = [].
Lemma SepE_sym x y S : SepE x y S -> SepE y x S. Proof. intros [A B]. split; [apply SepM_sym; exact A|exact B]. Qed.
Section Partial.
Variable g2 : graph.
Hypothesis K2 : skel g0 [] cor SepE g2.
Hypothesis D2 : Done KC g2.
Lemma K2' : sk g2. Proof. eapply skel_weaken; [|exact K2]. intros x y S [A _]; exact A. Qed.
Lemma one_minimal x y z : ord x y -> node z -> NoDup [x; y; z] -> directed_edge_exists g2 x y = true ->
  n_partial N (List.length (values_of g0 x)) 1 (cor x y) (cor x z) (cor y z) = Ok (Some true) -> SM x y [z].
Proof.
  intros O Hz ND L T. split; [apply (Spart N g0 CP PF true x y z eq_refl O Hz ND T)|]. intros T0 NT I Ln F. cbn in Ln. destruct T0 as [|w T0]; [|cbn in Ln; lia].
  exfalso. destruct (ord_ok g0 CP x y O) as (Hx & Hy & Ne).
  assert (OV : other_variables g0 x y []) by (split; [constructor; [intros [->|[]]; congruence|constructor; [intros []|constructor]]|intros w []]).
  destruct (HF x y [] Hx Hy OV F) as [[_ H]|[(_ & w & Ew & _)|[(_ & _ & Lm) _]]]; [|discriminate|cbn in Lm; lia].
  apply (gone_pair SM g2 x y K2' L). destruct H as [H|H]; [left|right]; apply D2; exact H.
Qed.
Lemma partial_sound2 ns : List.length ns = 3 -> forall l deleted acc, Forall Q acc ->
  (forall z, In z l -> exists x y rest, filter (fun n => negb (eqb n z)) ns = x :: y :: rest /\ ord x y /\ node z /\ NoDup [x; y; z]) ->
  match partial_loop N g2 ns l deleted acc with Ok o => goodo Q o | Err e => E e end.
Proof.
  intros Ln. induction l as [|z l IH]; intros deleted acc Fa Hl; [exact Fa|].
  destruct (Hl z (or_introl eq_refl)) as (x & y & rest & F & O & Hz & ND). destruct (ord_ok g0 CP x y O) as (Hx & Hy & Ne).
  rewrite (partial_round g0 [] N cor g2 ns z x y rest l deleted acc (weak g0 N SM (SepM_any true) g2 K2') Ln Hx Hy Hz ND F).
  assert (Hl' : forall z, In z l -> exists x y rest, filter (fun n => negb (eqb n z)) ns = x :: y :: rest /\ ord x y /\ node z /\ NoDup [x; y; z]) by (intros w Hw; apply Hl; right; exact Hw).
  destruct (directed_edge_exists g2 x y) eqn:L; cbn [negb orb]; [|apply IH; assumption]. destruct (mem (y, x) deleted); [apply IH; assumption|].
  destruct (negb (_ && _)); [constructor|]. destruct (n_partial N _ _ _ _ _) as [[[|]|]|e] eqn:T; [| |constructor|eapply raised_partial; exact T]; apply IH; try exact Hl'.
  - apply Forall_app; split; [exact Fa|constructor; [|constructor]]. right. exists x, y, [z]. split; [reflexivity|]. split; [exact Hx|]. split; [exact Hy|].
    split; [exact Ne|]. apply one_minimal; assumption.
  - apply Forall_app; split; [exact Fa|constructor; [left; reflexivity|constructor]].
Qed.
Notation pst := (partial_step false N).
Lemma partial_calls2 : good_calls (fun g' => g' = g2) E Q (triple_ord g0) pst.
Proof.
  intros g ns us -> (p & q & r & -> & O1 & O2 & O3) _. destruct (triple_nd g0 CP p q r O1 O2 O3) as (Hp & Hq & Hr & ND).
  rewrite (partial_call g0 [] N cor false g2 p q r us (weak g0 N SM (SepM_any true) g2 K2') Hp Hq Hr).
  apply (partial_sound2 [p; q; r] eq_refl [p; q; r] [] [] (Forall_nil _)). apply partial_rounds_ord; assumption.
Qed.
(* the pairs found independent given a single variable, when all three were connected *)
Definition Kone (l : list (id * id)) : Prop := exists x y z, l = [(x, y)] /\ KP [(x, y); (x, z); (y, z)] /\
  directed_edge_exists g2 x y = true /\ directed_edge_exists g2 x z = true /\ directed_edge_exists g2 y z = true.
Lemma keep_done K i : Q i -> keeps (InvT sk (Done K)) E (apply_action i) (fun _ _ => True).
Proof. apply q_done. apply SepM_sym. Qed.
Definition Kp (l : list (id * id)) : Prop := (KC l \/ some_gone l g2) \/ Kone l.
Lemma partial_phase2 : wp E (run_pstep fuel P no_hooks (PStep pst)) g2 (fun g => sk g /\ Done Kp g).
Proof.
  assert (K := K2'). set (Inv := InvT sk (Done (fun l => KC l \/ some_gone l g2))).
  assert (I2 : Inv g2) by (split; [exact K|intros l [H|H]; [apply D2; exact H|exact H]]).
  assert (HI : false = false -> forall i, Q i -> keeps Inv E (apply_action i) (fun _ _ => True)) by (intros _ i Qi; apply keep_done; exact Qi).
  assert (HT : forall l, false = false -> forall i, Q i -> keeps (InvT Inv (some_gone l)) E (apply_action i) (fun _ _ => True)) by (intros l _ i Qi; apply q_done_gone; [apply SepM_sym|exact Qi]).
  assert (HW : forall l, false = false -> forall i g, Q i -> wins l i -> Inv g -> some_gone l (fst (apply_action i g))) by (intros l _ i g Qi W [Kg _]; exact (q_wins g0 N SM (SepM_sym true) l i g Qi W Kg)).
  assert (Gn := part_gen g0 N SM g2 K). assert (Em := part_ems g0 N).
  apply wp_pstep with (R := fun g => sk g /\ Done Kp g).
  - assert (T0 := collect_tri Inv E Q false (triple_ord g0) HI pst (part_plain N) P g2 _ Gn Em partial_calls2 I2).
    assert (X := tri_all (K := list (id * id)) Inv E (execute_step P no_hooks pst false) g2 Kone (fun l _ g' => some_gone l g')).
    eapply tri_wp; [apply X|].
    + eapply tri_weaken; [exact T0|auto].
    + intros l (x & y & z & -> & (p & q & r & x' & y' & z' & Hc & A1 & A2 & A3 & Cs & T & El) & L1 & L2 & L3). injection El; clear El; intros; subst x' y' z'.
      eapply tri_weaken; [apply (collect_serve Inv (some_gone [(x, y)]) E Q (wins [(x, y)]) false (triple_ord g0) HI pst (part_plain N) P g2 _ Gn Em partial_calls2 I2
        (HT _) (HW _) (Generators.One [p; q; r]) [p; q; r])|].
      * apply in_app_iff; left. apply in_map; exact Hc.
      * reflexivity.
      * intros us o Co. destruct (part_wins g0 N CP SM (SepM_any true) false p q r x y z Hc A1 A2 A3 Cs T g2 us K) as [(w & Hw & G)|W].
        { exfalso. unfold gone in G. destruct Hw as [<-|[<-|[<-|[]]]]; cbn in G; congruence. }
        destruct (W o Co) as (i & Hi & p0 & r0 & Ep & Rm). injection Ep as <- <-. exists i. split; [exact Hi|]. exists (x, y), []. auto.
      * intros a g' _ [[T1|[Fd _]] _]; [exact T1|discriminate].
    + intros a g' [K' D'] H. split; [exact K'|]. intros l [Hl|Hl]; [apply D'; exact Hl|apply H; exact Hl].
  - intros g1 h [K1 D1]. split; [apply skel_log; exact K1|apply done_log; exact D1].
  - intros g1 [K1 D1]. apply (s_purge g0 N SM); [exact K1|]. intros g3 R3 K3. split; [exact K3|]. exact (gone_purge_all g0 N SM _ g1 g3 K1 R3 D1).
Qed.
(* whatever was found independent given a subset stands in the way of a later removal *)
Lemma two_minimal g3 g x y S zs : sk g -> Done (below g0 N 4 (fun l => Kp l \/ some_gone l g3) (List.length S)) g -> live_star g x y S -> cond_set g0 4 x y S ->
  n_matrix N (map (values_of g0) (x :: y :: S)) = Ok (Some true) -> Permutation zs S -> SM x y zs.
Proof.
  intros K D LS CS T Pm. split; [apply (Smat N g0 true 4 x y S zs eq_refl CS T Pm)|].
  intros T0 NT I L F. rewrite (Permutation_length Pm) in L. assert (I' : incl T0 S) by (intros z Hz; eapply Permutation_in; [exact Pm|apply I; exact Hz]).
  assert (Hx := proj1 (proj2 CS) x (or_introl eq_refl)). assert (Hy := proj1 (proj2 CS) y (or_intror (or_introl eq_refl))).
  assert (OV := others true x y S T0 CS NT I').
  destruct (HF x y T0 Hx Hy OV F) as [[-> H]|[(_ & z & -> & H)|[C A]]].
  - exfalso. apply (gone_pair SM g x y K (proj1 LS)). destruct H as [H|H]; [left|right]; apply D; left; left; left; left; exact H.
  - split; [reflexivity|]. exists z. split; [reflexivity|].
    assert (Hz : node z) by (apply (proj1 (proj2 CS)); right; right; apply I'; left; reflexivity).
    assert (Lxz := proj2 LS z (I' z (or_introl eq_refl))). destruct OV as [ND _]. destruct (three x y z ND) as (N1 & N2 & N3).
    assert (Up : forall a b, directed_edge_exists g a b = true -> directed_edge_exists g2 a b = true).
    { intros a b La. destruct (directed_edge_exists g2 a b) eqn:G2; [reflexivity|]. exfalso.
      destruct (D [(a, b)]) as (p & [<-|[]] & G); [left; left; left; right; exists (a, b); split; [left; reflexivity|exact G2]|]. unfold gone in G. cbn in G. congruence. }
    assert (Lxy2 := Up _ _ (proj1 LS)). assert (Lxz2 := Up _ _ Lxz). right.
    destruct (directed_edge_exists g2 y z) eqn:G2.
    + exfalso. apply (gone_pair SM g x y K (proj1 LS)). destruct H as [H|H].
      * left. apply D. left; left; right. exists x, y, z. auto.
      * right. apply D. left; left; right. exists y, x, z. split; [reflexivity|]. split; [exact H|]. split; [apply (sk_sym _ _ _ _ _ K2'); exact Lxy2|]. auto.
    + destruct (sk_gone _ _ _ _ _ K2 y z Hy Hz N3 G2) as (a & b & S' & _ & _ & [[(_ & _ & Fd) _] ->]). exact Fd.
  - exfalso. apply (live_gone g x y S T0 LS I'). apply D. right. exists (List.length T0). split; [exact L|]. exists x, y, T0. auto.
Qed.
End Partial.
Lemma pc_sizes : wp E (execute_pipeline fuel P no_hooks (pc_skeleton so N)) g0 (skel g0 [] cor SM).
Proof.
  eapply wp_cons; [apply (pearson_any SepE)|intros g1 [K1 F1]].
  eapply wp_cons; [apply (corr_phase_done g0 N CP SepE SepE_sym (fun x y O T => conj (SepM_nil true x y (Scorr N g0 CP PF true x y O T)) eq_refl) fuel P g1 K1 F1)|intros g2 [K2 D2]].
  eapply wp_cons; [apply (partial_phase2 g2 K2 D2)|intros g3 [K3 D3]].
  eapply wp_cons; [|intros g4 K4; exact K4].
  apply (matrix_phase g0 N so SO SM (SepM_sym true) 4 ltac:(lia) g3 K3 (fun l => Kp g2 l \/ some_gone l g3)); [intros l [H|H]; [apply D3; exact H|exact H]|intros l H; right; exact H|].
  intros g x y S zs. apply two_minimal; assumption.
Qed.
End Pc.
End Run.
