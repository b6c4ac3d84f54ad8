(* PCStable: the actions of its three tests are taken together, in order of the sizes of the conditioning sets. *)
From Verif Require Import Base PyDict PyDictFacts Graph GraphSpec GraphFacts GraphInv GraphInv2 GraphInv3 GraphQ GraphMain
  GraphPaths PathSpec Actions ActionSpec ActionFacts ActionMain Generators GenSpec GenFacts Rules IndepTests Pipeline Parallel PipeFacts RuleFacts
  Construct ConstructSpec ConstructFacts Dag DagFacts DagSep SkelSpec Rows Serve SkelFacts SkelStart SkelSteps SkelMatrix SkelMain SkelMain2
  LoopFacts TotalSpec TotalFacts TotalMain TestedSpec TestedFacts TestedMain MinimalFacts MinimalMain.
Open Scope string_scope.
Open Scope list_scope.

Lemma blocks_app H dry s a b g : run_blocks H dry s (a ++ b) g = (x <- run_blocks H dry s a ;; y <- run_blocks H dry s b ;; ret (plus2 x y)) g.
Proof.
  revert g. induction a as [|f a IH]; intros g; cbn [app].
  - cbn [run_blocks]. unfold bind, ret. destruct (run_blocks H dry s b g) as [g' [[y1 y2]|e]]; reflexivity.
  - cbn [run_blocks]. unfold bind, gget in *. destruct (liftr (f g) g) as [g1 [es|e]]; [|reflexivity].
    destruct (run_chunks H dry s es g1) as [g2 [x|e]]; [|reflexivity]. rewrite IH. destruct (run_blocks H dry s a g2) as [g3 [y|e]]; [|reflexivity].
    unfold ret. destruct (run_blocks H dry s b g3) as [g4 [z|e]]; [|reflexivity]. unfold plus2. cbn [fst snd]. rewrite !app_assoc. reflexivity.
Qed.
Lemma wp_take_app E a b g (R1 R : graph -> Prop) : wp E (take_action no_hooks false a) g R1 -> (forall g, R1 g -> wp E (take_action no_hooks false b) g R) ->
  wp E (take_action no_hooks false (a ++ b)) g R.
Proof.
  unfold wp. revert g. induction a as [|o a IH]; intros g W K; cbn [app].
  - exact (K g W).
  - destruct o as [items|]; [|cbn [take_action] in *; apply IH; assumption].
    cbn [take_action] in *. unfold bind, gget, ret in *. cbn [run_pre_hooks no_hooks pre_hooks rfold] in *.
    destruct (take_items false items g) as [g1 [t|e]]; cbn [fst snd] in *; [|exact W].
    cbn [run_post_hooks no_hooks post_hooks rfold] in *. specialize (IH g1).
    destruct (take_action no_hooks false a g1) as [g2 [p|e]]; cbn [fst snd] in *; specialize (IH W K);
      destruct (take_action no_hooks false (a ++ b) g1) as [g3 [q|e']]; cbn [fst snd] in *; exact IH.
Qed.

Section Stable.
Variables (fuel : nat) (P : runner) (so : list id -> list id) (N : numerics) (g0 : graph).
Hypothesis CP : complete g0.
Hypothesis SO : set_order so.
Notation node := (SkelFacts.node g0).
Notation E := (raised N).
Notation cor := (corr g0 N).
Notation ord := (ord g0).
Hypothesis PF : forall a b, ord a b -> n_pearson N (values_of g0 a) (values_of g0 b) = Ok (cor a b).
Hypothesis HF : firm N g0 true.
Notation KC := (Kcorr g0 N).
Notation KP := (Kpart g0 N).
Notation found := (found_independent N g0 true).

Definition SepX (x y : id) (S : list id) : Prop := Sep N g0 true x y S /\
  forall T, other_variables g0 x y T -> List.length T < List.length S -> ~ found x y T.
Lemma other_sym x y T : other_variables g0 x y T -> other_variables g0 y x T.
Proof. intros [ND H]. split; [eapply Permutation_NoDup; [apply perm_swap|exact ND]|exact H]. Qed.
Lemma SepX_sym x y S : SepX x y S -> SepX y x S.
Proof. intros [A B]. split; [apply Ssym; exact A|]. intros T O L F. exact (B T (other_sym _ _ _ O) L (found_sym N g0 true y x T F)). Qed.
Lemma SepX_any x y S : SepX x y S -> good_sep g0 [] x y S. Proof. intros [A _]. apply (Sany N g0 true). exact A. Qed.
Definition Slev (j : nat) (x y : id) (S : list id) : Prop := Sep N g0 true x y S /\ List.length S = j.
Lemma Slev_sym j x y S : Slev j x y S -> Slev j y x S. Proof. intros [A B]. split; [apply Ssym; exact A|exact B]. Qed.
Lemma Slev_any j x y S : Slev j x y S -> good_sep g0 [] x y S. Proof. intros [A _]. apply (Sany N g0 true). exact A. Qed.
Notation Qs j := (proposal g0 (Slev j)).
Definition Klev (j : nat) (l : list (id * id)) : Prop := match j with 0 => KC l | 1 => KP l | _ => Ksize g0 N 4 j l end.
Definition lower (j : nat) (l : list (id * id)) : Prop := exists i p r, i < j /\ l = [p] /\ Klev i (p :: r).
Notation skx := (skel g0 [] cor SepX).
Lemma exact_minimal g j x y S : skx g -> Done (lower j) g -> directed_edge_exists g x y = true -> Slev j x y S -> SepX x y S.
Proof.
  intros K D L [A <-]. split; [exact A|]. intros T O Ln F. destruct (skel_dee_nodes g0 [] cor SepX g x y K L) as (Hx & Hy & Ne).
  assert (No : forall i r, i < List.length S -> Klev i ((x, y) :: r) \/ Klev i ((y, x) :: r) -> False).
  { intros i r Hi H. apply (gone_pair N g0 SepX g x y K L). destruct H as [H|H]; [left|right]; apply D; exists i; eexists; exists r; split; [exact Hi|split; [reflexivity|exact H]|exact Hi|split; [reflexivity|exact H]]. }
  destruct (HF x y T Hx Hy O F) as [[-> H]|[(_ & z & -> & H)|[C Al]]].
  - apply (No 0 []); [exact Ln|exact H].
  - destruct H as [H|H]; [apply (No 1 [(x, z); (y, z)] Ln (or_introl H))|apply (No 1 [(y, z); (x, z)] Ln (or_intror H))].
  - assert (C' := C). destruct C' as (_ & _ & Lm). apply (No (List.length T) (map (fun z => (x, z)) T) Ln). left.
    unfold Klev. destruct (List.length T) as [|[|n]] eqn:LT; [lia|lia|]. exists x, y, T. split; [reflexivity|]. split; [exact C|]. split; [exact Al|exact LT].
Qed.
Lemma gone_noop g x y S : skx g -> node x -> node y -> x <> y -> good_sep g0 [] x y S -> directed_edge_exists g x y = false -> apply_action (separated x y S) g = (g, Ok false).
Proof.
  intros K Hx Hy Ne Sp G. destruct (apply_action (separated x y S) g) as [g' r] eqn:R. 
  destruct (apply_action_spec g _ g' r (sk_wf _ _ _ _ _ K) R) as (_ & _ & _ & X). destruct r as [[|]|e].
  - destruct X as (Gd & _). cbn in Gd. rewrite ?(skel_ee g0 [] cor SepX g x y K), ?(skel_ee g0 [] cor SepX g y x K), G in Gd. discriminate.
  - destruct X as [-> _]. reflexivity.
  - destruct X as (Gd & _). cbn in Gd. rewrite ?(skel_ee g0 [] cor SepX g x y K), ?(skel_ee g0 [] cor SepX g y x K), G in Gd. discriminate.
Qed.
Notation Inv j := (InvT skx (Done (lower j))).
(* an action of level j either finds its edge gone or is a justified removal *)
Lemma act_cases j i g : Qs j i -> Inv j g -> proposal g0 SepX i \/ (exists x y S, i = separated x y S /\ directed_edge_exists g x y = false /\ apply_action i g = (g, Ok false)).
Proof.
  intros [A|(x & y & S & -> & Hx & Hy & Ne & Sp)] [K D]; [left; left; exact A|]. destruct (directed_edge_exists g x y) eqn:L.
  - left. right. exists x, y, S. do 4 (split; [reflexivity || assumption|]). exact (exact_minimal g j x y S K D L Sp).
  - right. exists x, y, S. split; [reflexivity|]. split; [exact L|]. apply gone_noop; try assumption. exact (Slev_any j x y S Sp).
Qed.
Lemma stage_keep j i : Qs j i -> keeps (Inv j) E (apply_action i) (fun _ _ => True).
Proof.
  intros Q g I. destruct (act_cases j i g Q I) as [Q'|(x & y & S & _ & _ & ->)].
  - exact (q_done g0 N SepX SepX_sym (lower j) i Q' g I).
  - split; [exact I|exact Logic.I].
Qed.
Lemma stage_gone j l i : Qs j i -> keeps (InvT (Inv j) (some_gone l)) E (apply_action i) (fun _ _ => True).
Proof.
  intros Q g [I G]. destruct (act_cases j i g Q I) as [Q'|(x & y & S & _ & _ & ->)].
  - exact (q_done_gone g0 N SepX SepX_sym (lower j) l i Q' g (conj I G)).
  - split; [split; assumption|exact Logic.I].
Qed.
Lemma stage_wins j l i g : Qs j i -> wins l i -> Inv j g -> some_gone l (fst (apply_action i g)).
Proof.
  intros Q W I. destruct (act_cases j i g Q I) as [Q'|(x & y & S & Ei & L & ->)].
  - exact (q_wins g0 N SepX SepX_sym l i g Q' W (proj1 I)).
  - destruct W as (p & r & -> & S' & W). exists p. split; [left; reflexivity|]. cbn [fst]. unfold gone. destruct W as [W|W]; rewrite Ei in W; injection W as <- <- _; [exact L|].
    rewrite (skel_sym_eq g0 [] cor SepX g _ _ (proj1 I)). exact L.
Qed.
(* groups of actions, one for each size *)
Inductive staged : nat -> list tresult -> Prop :=
| st_nil : forall j, staged j []
| st_app : forall j a b, Forall (Qs j) a -> (forall l, Klev j l -> by_list a l) -> staged (S j) b -> staged j (a ++ b).
Lemma stage_take j a g : Forall (Qs j) a -> (forall l, Klev j l -> by_list a l) -> Inv j g -> 
  wp E (take_action no_hooks false (map (fun i => Some [i]) a)) g (Inv (S j)).
Proof.
  intros Fa Da I.
  assert (F : Forall (goodo (Qs j)) (map (fun i => Some [i]) a)).
  { apply Forall_forall. intros o H. apply in_map_iff in H. destruct H as (i & <- & Hi). rewrite Forall_forall in Fa. constructor; [auto|constructor]. }
  assert (ST := take_I (Inv j) E (Qs j) false (fun _ => stage_keep j) _ g F I).
  assert (X := tri_all (K := list (id * id)) (Inv j) E (take_action no_hooks false (map (fun i => Some [i]) a)) g
    (heads (Klev j)) (fun l _ g => some_gone l g)).
  eapply tri_wp; [apply X|].
  - eapply tri_weaken; [exact ST|auto].
  - intros l (p & r & -> & Kl). destruct (Da _ Kl) as (i & Hi & p' & r' & Ep & W). injection Ep as <- <-.
    eapply tri_weaken; [apply (take_serve (Inv j) (some_gone [p]) E (Qs j) (wins [p]) false (fun _ => stage_keep j) (fun _ => stage_gone j [p]) (fun _ i g => stage_wins j [p] i g)
      _ (Some [i]) i F)|].
    + apply in_map_iff. exists i; auto.
    + left; reflexivity.
    + exists p, []. auto.
    + exact I.
    + intros b g' _ [[T|[Fd _]] _]; [exact T|discriminate].
  - intros b g' [K' D'] H. split; [exact K'|]. intros l (i & p & r & Hi & -> & Kl). destruct (Nat.eq_dec i j) as [->|Ne].
    + apply H. exists p, r. auto.
    + apply D'. exists i, p, r. split; [lia|auto].
Qed.
Lemma staged_take j a : staged j a -> forall g, Inv j g -> wp E (take_action no_hooks false (map (fun i => Some [i]) a)) g skx.
Proof.
  induction 1 as [j|j a b Fa Da St IH]; intros g I; [exact (proj1 I)|]. rewrite map_app. eapply wp_take_app; [apply (stage_take j a g Fa Da I)|]. exact IH.
Qed.

(* ---- the dry run ---- *)
Section Dry.
Variable g1 : graph.
Hypothesis L1 : full g0 g1.
Hypothesis K1 : skx g1.
Notation Inv1 := (fun g' : graph => g' = g1).
Lemma K1s j : skel g0 [] cor (Slev j) g1. Proof. exact (full_skel N g0 _ _ g1 K1 L1). Qed.
Lemma tri_group {m : ST acts2} j : (forall l, Klev j l -> live_list g1 l) -> tri Inv1 E m g1 (fun a _ => good2 (Qs j) a) ->
  (forall l, Klev j l -> tri Inv1 E m g1 (fun a g => served (some_gone l) (wins l) true a g)) ->
  tri Inv1 E m g1 (fun a _ => Forall (Qs j) (fst a) /\ forall l, Klev j l -> by_list (fst a) l).
Proof.
  intros LL A B. assert (X := tri_all (K := option (list (id * id))) Inv1 E m g1
    (fun o => match o with None => True | Some l => Klev j l end) (fun o a _ => match o with None => good2 (Qs j) a | Some l => by_list (fst a) l end)).
  eapply tri_weaken; [apply X|].
  - eapply tri_weaken; [exact A|auto].
  - intros [l|] H; [|eapply tri_weaken; [exact A|auto]]. destruct (B l H) as [B1 B2]. split; [exact B1|].
    destruct (snd (m g1)) as [a|e]; [|exact B2]. rewrite B1 in B2. apply (dry_by g1); [apply LL; exact H|exact B2].
  - intros a g _ H. split; [exact (proj1 (H None Logic.I))|]. intros l Kl. exact (H (Some l) Kl).
Qed.
Lemma lev_live j l : Klev j l -> live_list g1 l.
Proof.
  destruct j as [|[|j]]; cbn [Klev].
  - apply (corr_live_list N g0 CP g1 L1).
  - apply (part_live_list N g0 CP g1 L1).
  - intros (x & y & S & -> & C & A & _). apply (mat_live_list N g0 g1 L1). exists x, y, S. auto.
Qed.
Lemma dry_size j : 2 <= j -> tri Inv1 E (run_blocks no_hooks true (matrix_step so 4 N) (map (pwn_slot so None true) (pwn_slots g1 [j + 2]))) g1
  (fun a _ => Forall (Qs j) (fst a) /\ forall l, Klev j l -> by_list (fst a) l).
Proof.
  intros Hj. assert (T := size_tri g0 N so SO (Slev j) 4 ltac:(lia) true Inv1 g1 j ltac:(lia) (K1s j)).
  assert (T' : tri Inv1 E (run_blocks no_hooks true (matrix_step so 4 N) (map (pwn_slot so None true) (pwn_slots g1 [j + 2]))) g1 (fun a g' => good2 (Qs j) a /\
    forall l, Ksize g0 N 4 j l -> (forall p, In p l -> directed_edge_exists g1 (fst p) (snd p) = true) -> served (some_gone l) (wins l) true a g')).
  { apply T; try discriminate; [intros g ->; apply K1s| |reflexivity]. intros g x y S zs _ _ CS Lk Tm Pm. split; [apply (Smat N g0 true 4 x y S zs eq_refl CS Tm Pm)|].
    rewrite (Permutation_length Pm). exact Lk. }
  apply tri_group; [apply lev_live|eapply tri_weaken; [exact T'|intros a g _ [H _]; exact H]|].
  intros l Kl. eapply tri_weaken; [exact T'|]. intros a g _ [_ H]. apply H; [destruct j as [|[|j]]; [lia|lia|exact Kl]|]. exact (lev_live j l Kl).
Qed.
Lemma dry_sizes n : forall j, 2 <= j -> tri Inv1 E (run_blocks no_hooks true (matrix_step so 4 N) (map (pwn_slot so None true) (pwn_slots g1 (seq (j + 2) n)))) g1
  (fun a _ => staged j (fst a)).
Proof.
  induction n as [|n IH]; intros j Hj; cbn [seq].
  - split; [reflexivity|]. cbn. constructor.
  - rewrite slots_cons, map_app. unfold tri. rewrite blocks_app. change (tri Inv1 E (x <- run_blocks no_hooks true (matrix_step so 4 N) (map (pwn_slot so None true) (pwn_slots g1 [j + 2])) ;;
      y <- run_blocks no_hooks true (matrix_step so 4 N) (map (pwn_slot so None true) (pwn_slots g1 (seq (S (j + 2)) n))) ;; ret (plus2 x y)) g1 (fun a _ => staged j (fst a))).
    eapply tri_bind; [apply (dry_size j Hj)|]. intros a g -> [Fa Da]. eapply tri_bind; [apply (IH (S j)); lia|]. intros b g -> Sb. apply tri_ret; [reflexivity|].
    cbn [plus2 fst]. apply st_app; assumption.
Qed.
Lemma dry_matrix : tri Inv1 E (execute_step P no_hooks (matrix_step so 4 N) true) g1 (fun a _ => staged 2 (fst a)).
Proof.
  unfold execute_step. cbn [matrix_step s_parallel s_chunked s_gen]. apply tri_gget.
  change (tri Inv1 E (run_blocks no_hooks true (matrix_step so 4 N) (gen_neighbours so None true (mkCS 4 0) g1)) g1 (fun a _ => staged 2 (fst a))).
  assert (Z : tri Inv1 E (run_blocks no_hooks true (matrix_step so 4 N) []) g1 (fun a _ => staged 2 (fst a))) by (split; [reflexivity|cbn; constructor]).
  unfold gen_neighbours. cbn [cs_min]. destruct (Nat.ltb (List.length (nodes g1)) 4); [exact Z|]. destruct (Nat.ltb _ 4); [exact Z|]. destruct (Nat.ltb_spec 4 2); [lia|].
  apply (dry_sizes _ 2). lia.
Qed.
Lemma dry_all : tri Inv1 E (run_inner P no_hooks true [correlation_step N; partial_step false N; matrix_step so 4 N]) g1 (fun a _ => staged 0 (snd a)).
Proof.
  assert (S1 : tri Inv1 E (execute_step P no_hooks (correlation_step N) true) g1 (fun a _ => Forall (Qs 0) (fst a) /\ forall l, Klev 0 l -> by_list (fst a) l)).
  { assert (HC : forall x y, ord x y -> n_corr_test N (List.length (values_of g0 x)) (cor x y) = Ok true -> Slev 0 x y []) by (intros x y O T; split; [apply (Scorr N g0 CP PF true); assumption|reflexivity]).
    apply tri_group; [apply lev_live|apply (corr_tri g0 N CP (Slev 0) HC true P g1 (K1s 0) L1 Inv1 eq_refl ltac:(discriminate))|].
    intros l Kl. apply (corr_serve g0 N CP (Slev 0) HC true P g1 (K1s 0) L1 Inv1 eq_refl ltac:(discriminate) ltac:(discriminate) ltac:(discriminate) l Kl). }
  assert (S2 : tri Inv1 E (execute_step P no_hooks (partial_step false N) true) g1 (fun a _ => Forall (Qs 1) (fst a) /\ forall l, Klev 1 l -> by_list (fst a) l)).
  { assert (HT : forall x y z, ord x y -> node z -> NoDup [x; y; z] -> n_partial N (List.length (values_of g0 x)) 1 (cor x y) (cor x z) (cor y z) = Ok (Some true) -> Slev 1 x y [z])
      by (intros x y z O Hz ND T; split; [apply (Spart N g0 CP PF true); auto|reflexivity]).
    apply tri_group; [apply lev_live|apply (part_tri g0 N CP (Slev 1) (Slev_any 1) HT true P g1 (K1s 1) Inv1 eq_refl ltac:(discriminate))|].
    intros l Kl. apply (part_serve g0 N CP (Slev 1) (Slev_any 1) HT true P g1 (K1s 1) Inv1 eq_refl ltac:(discriminate) ltac:(discriminate) ltac:(discriminate) l Kl (lev_live 1 l Kl)). }
  cbn [run_inner]. eapply tri_bind; [exact S1|]. intros a1 g -> [Fa1 Da1].
  eapply (tri_bind Inv1 E _ _ g1 (fun b _ => staged 1 (snd b))).
  - eapply tri_bind; [exact S2|]. intros a2 g -> [Fa2 Da2].
    eapply (tri_bind Inv1 E _ _ g1 (fun b _ => staged 2 (snd b))).
    + eapply tri_bind; [exact dry_matrix|]. intros a3 g -> S3. apply tri_bind with (P := fun b _ => snd b = []); [apply tri_ret; reflexivity|].
      intros b g -> Eb. apply tri_ret; [reflexivity|]. cbn [snd]. rewrite Eb, app_nil_r. exact S3.
    + intros b g -> Sb. apply tri_ret; [reflexivity|]. cbn [snd]. apply st_app; assumption.
  - intros b g -> Sb. apply tri_ret; [reflexivity|]. cbn [snd]. apply st_app; assumption.
Qed.
Lemma together_sizes : wp E (run_pstep fuel P no_hooks (PTogether "ApplyActionsTogether" [correlation_step N; partial_step false N; matrix_step so 4 N])) g1 skx.
Proof.
  destruct dry_all as [T1 T2]. unfold wp. cbn [run_pstep]. unfold run_together, bind.
  destruct (run_inner P no_hooks true [correlation_step N; partial_step false N; matrix_step so 4 N] g1) as [g [a|e]]; cbn [fst snd] in *; [|exact T2]. subst g.
  assert (X := staged_take 0 (snd a) T2 g1). unfold wp in X.
  destruct (take_action no_hooks false (map (fun i => Some [i]) (snd a)) g1) as [g2 [b|e]]; cbn [fst snd] in *; [|apply X]; [cbn; apply skel_log; apply X|]; (split; [exact K1|]); intros l (i & p & r & Hi & _); lia.
Qed.
End Dry.
Lemma stable_sizes : wp E (execute_pipeline fuel P no_hooks (pc_stable_skeleton so N)) g0 skx.
Proof.
  eapply wp_cons; [apply (pearson_any fuel P N g0 CP SepX)|intros g1 [K1 F1]]. eapply wp_cons; [apply (together_sizes g1 F1 K1)|]. intros g2 K2. exact K2.
Qed.
End Stable.
