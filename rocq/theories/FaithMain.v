(* The partial correlation step of PC asks about all triples whose three pairs the correlation test left. *)
From Verif Require Import Base PyDict PyDictFacts Graph GraphSpec GraphFacts GraphInv GraphInv2 GraphInv3 GraphQ GraphMain
  GraphPaths PathSpec Actions ActionSpec ActionFacts ActionMain Generators GenSpec GenFacts Rules IndepTests Pipeline Parallel PipeFacts RuleFacts
  Construct ConstructSpec ConstructFacts Dag DagFacts DagSep SkelSpec Rows Serve SkelFacts SkelStart SkelSteps SkelMatrix SkelMain SkelMain2
  LoopFacts TotalSpec TotalFacts TotalMain TestedSpec TestedFacts TestedMain.
Open Scope string_scope.
Open Scope list_scope.

Section Asked.
Variables (fuel : nat) (P : runner) (so : list id -> list id) (N : numerics) (g0 : graph).
Hypothesis CP : complete g0.
Hypothesis SO : set_order so.
Notation node := (SkelFacts.node g0).
Notation E := (raised N).
Notation cor := (corr g0 N).
Notation ord := (ord g0).
Hypothesis PF : forall a b, ord a b -> n_pearson N (values_of g0 a) (values_of g0 b) = Ok (cor a b).
Notation KP := (Kpart g0 N).
Notation KM := (Kmat g0 N).
Notation sk := (skel g0 [] cor (Sep N g0 true)).
Notation Q := (proposal g0 (Sep N g0 true)).
(* found independent by the correlation test *)
Definition Sep0 (x y : id) (S : list id) : Prop := S = [] /\ Sep N g0 true x y S.
Lemma sep0_sym x y S : Sep0 x y S -> Sep0 y x S.
Proof. intros [H1 H2]. split; [exact H1|]. apply Ssym; exact H2. Qed.
Definition asked (g2 : graph) (l : list (id * id)) : Prop := exists p r, l = [p] /\ KP (p :: r) /\ forall w, In w (p :: r) -> directed_edge_exists g2 (fst w) (snd w) = true.
Lemma asked_serves g l : sk g -> asked g l -> tri sk E (execute_step P no_hooks (partial_step false N) false) g (fun _ g' => some_gone l g').
Proof.
  intros K (hd & r0 & -> & (p & q & r & x & y & z & Hc & A1 & A2 & A3 & Cs & T & Eq) & L). injection Eq as -> ->.
  set (HS := Ssym N g0 true). set (HA := Sany N g0 true). assert (HP := fun x y z => Spart N g0 CP PF true x y z eq_refl).
  assert (QA := q_act g0 N (Sep N g0 true) HS). assert (QG := q_gone g0 N (Sep N g0 true) HS). assert (QW := q_wins g0 N (Sep N g0 true) HS).
  eapply tri_weaken; [apply (collect_serve sk (some_gone [(x, y)]) E Q (wins [(x, y)]) false (triple_ord g0) (fun _ => QA) (partial_step false N) (part_plain N) P g _
    (part_gen g0 N (Sep N g0 true) g K) (part_ems g0 N) (part_calls g0 N CP (Sep N g0 true) HA HP g K) K (fun _ => QG _) (fun _ => QW _) (Generators.One [p; q; r]) [p; q; r])|].
  - apply in_app_iff; left. apply in_map; exact Hc.
  - reflexivity.
  - intros us o Co. destruct (part_wins g0 N CP (Sep N g0 true) HA false p q r x y z Hc A1 A2 A3 Cs T g us K) as [(w & Hw & G)|W].
    + exfalso. unfold gone in G. rewrite (L w Hw) in G. discriminate.
    + destruct (W o Co) as (i & Hi & p' & r' & Ep & Wi). injection Ep as <- <-. exists i. split; [exact Hi|]. exists (x, y), []. auto.
  - intros a g' _ [[Tg|[F _]] _]; [exact Tg|discriminate].
Qed.
Lemma pc_asked : wp E (execute_pipeline fuel P no_hooks (pc_skeleton so N)) g0 (fun g => exists g2, skel g0 [] cor Sep0 g2 /\ Done (fun l => (some_gone l g2 \/ asked g2 l) \/ KM 4 l) g).
Proof.
  set (HS := Ssym N g0 true). set (HA := Sany N g0 true). set (HC := Scorr N g0 CP PF true). assert (HP := fun x y z => Spart N g0 CP PF true x y z eq_refl). assert (HM := fun x y S zs => Smat N g0 true 4 x y S zs eq_refl).
  eapply wp_cons; [apply (pearson_first fuel P N g0 CP true)|intros g1 [K1 F1]].
  assert (K1' : skel g0 [] cor Sep0 g1).
  { destruct K1 as [A1 A2 A3 A4 A5 A6 A7 A8]. constructor; try assumption. intros u v Hu Hv Ne L. rewrite (F1 u v Hu Hv Ne) in L. discriminate. }
  eapply wp_cons; [apply (corr_phase_done g0 N CP Sep0 sep0_sym (fun x y O T => conj eq_refl (HC x y O T)) fuel P g1 K1' F1)|intros g2 [K2 _]].
  assert (K2' : sk g2) by (apply (skel_weaken g0 [] cor Sep0 (Sep N g0 true)); [intros x y S [_ H]; exact H|exact K2]).
  eapply wp_cons; [apply (phase g0 N (Sep N g0 true) HS fuel P (partial_step false N) (triple_ord g0) (fun l => some_gone l g2) (asked g2) g2 ltac:(discriminate) (partial_goods g0 N CP (Sep N g0 true) HA HP false) K2' (fun l H => H))|intros g3 [K3 D3]].
  { intros l Kl. apply (asked_serves g2 l K2' Kl). }
  eapply wp_cons; [apply (phase g0 N (Sep N g0 true) HS fuel P (matrix_step so 4 N) (test_min g0 4) (fun l => some_gone l g2 \/ asked g2 l) (KM 4) g3 ltac:(discriminate) (seq_good g0 N so SO (Sep N g0 true) HA 4 ltac:(lia) HM) K3 D3)|].
  { intros l Kl. apply (seq_serves g0 N so SO (Sep N g0 true) HS HA 4 ltac:(lia) HM P g3 l K3 Kl). }
  intros g4 [_ D4]. exists g2. split; [exact K2|exact D4].
Qed.
End Asked.

(* the edge x - y does not survive a partial correlation test that finds x and y independent given z, unless the correlation test removed x - z or y - z *)
Lemma pc_asked_top fuel P so N g0 g x y z : complete g0 -> set_order so -> execute_pipeline fuel P no_hooks (pc_skeleton so N) g0 = (g, Ok tt) ->
  earlier g0 x y -> partial_answer N g0 x y z (Some true) -> answers_triple N g0 x y z -> ~ found_independent N g0 true x z [] -> ~ found_independent N g0 true y z [] ->
  directed_edge_exists g x y = false.
Proof.
  intros CP SO R B T An N1 N2. destruct (top fuel P so N g0 CP SO true _ g (so_pc P so N) R) as (PF & _ & _).
  assert (W := pc_asked fuel P so N g0 CP SO PF). unfold wp in W. rewrite R in W. destruct W as (g2 & K2 & D).
  assert (KP := kp_of N g0 CP PF x y z B T An).
  destruct T as (a & b & c & Ca & Cb & Cc & T). destruct (coefficient_nodes N g0 CP _ _ _ Ca) as (Hx & Hy & _). destruct (coefficient_nodes N g0 CP _ _ _ Cb) as (_ & Hz & Nxz). destruct (coefficient_nodes N g0 CP _ _ _ Cc) as (_ & _ & Nyz).
  assert (L : forall u v, SkelFacts.node g0 u -> SkelFacts.node g0 v -> u <> v -> ~ found_independent N g0 true u v [] -> directed_edge_exists g2 u v = true).
  { intros u v Hu Hv Ne NF. destruct (directed_edge_exists g2 u v) eqn:L; [reflexivity|exfalso]. destruct (sk_gone _ _ _ _ _ K2 u v Hu Hv Ne L) as (u' & v' & S & _ & _ & (-> & _ & _ & F)). exact (NF F). }
  assert (G : some_gone [(x, y)] g).
  { destruct (directed_edge_exists g2 x y) eqn:Lxy.
    - apply D. left; right. exists (x, y), [(x, z); (y, z)]. split; [reflexivity|]. split; [exact KP|]. intros w [<-|[<-|[<-|[]]]]; cbn [fst snd]; [exact Lxy|apply L; assumption|apply L; assumption].
    - apply D. left; left. exists (x, y). split; [left; reflexivity|exact Lxy]. }
  destruct G as (w & [<-|[]] & G). exact G.
Qed.
