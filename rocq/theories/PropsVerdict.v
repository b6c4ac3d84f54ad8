(* Runs whose tests come to the same verdicts: C108. *)
From Verif Require Import Base PyDict PyDictFacts Graph GraphSpec GraphFacts GraphInv GraphQ Actions ActionFacts ActionMain Generators GenSpec Rules IndepTests Pipeline Parallel PipeSpec PipeFacts PipeMain PipeMain2 Construct ConstructFacts
  LoopFacts OrientTop EffectSpec EffectFacts GraphCheck DataSpec DataFacts DataMain PropsData VerdictSpec VerdictFacts.
Import ListNotations.
Open Scope string_scope.
Open Scope list_scope.

Section Start.
Variables (N N' : numerics) (t t' : id -> list Z) (ee : exn -> exn -> Prop).
Hypothesis ee_refl : forall e, ee e e.
Lemma add_edges_rel n n' (K : dkeys n' = dkeys n) l : VerdictFacts.com n n' N N' t t' ee any (add_edges l) (add_edges l).
Proof. induction l as [|[u v] l IH]; cbn [add_edges]; [apply VerdictFacts.com_ret; exact Logic.I|]. apply VerdictFacts.com_seq; [|exact IH]. apply VerdictFacts.com_add_edge; [exact K|exact ee_refl|]. constructor. Qed.
Lemma start_rel d d' g g' : start_graph d = Ok g -> start_graph d' = Ok g' -> dkeys (nodes g') = dkeys (nodes g) -> rel (nodes g) (nodes g') N N' t t' g g'.
Proof.
  intros S S' Ke. destruct (start_only d g S) as (h & O & Nn & C). destruct (start_only d' g' S') as (h' & O' & Nn' & C').
  assert (R0 : rel (nodes g) (nodes g') N N' t t' h h'). { destruct O as (E1 & E2 & E3 & E4 & _), O' as (E1' & E2' & E3' & E4' & _). split; [auto|auto|rewrite E1, E1'|rewrite E2, E2'|rewrite E3, E3'|rewrite E4, E4']; constructor. }
  assert (X := add_edges_rel (nodes g) (nodes g') Ke (ordered_pairs (dkeys (nodes g))) h h' R0).
  change (create_all_possible_edges h) with (add_edges (ordered_pairs (dkeys (nodes h))) h) in C. change (create_all_possible_edges h') with (add_edges (ordered_pairs (dkeys (nodes h'))) h') in C'. rewrite <- Nn in C. rewrite <- Nn', Ke in C'. rewrite C, C' in X. apply X.
Qed.
Lemma rel_edges n n' (K : dkeys n' = dkeys n) g g' : rel n n' N N' t t' g g' -> same_edges g g' /\ same_removals g g'.
Proof.
  intros G. split.
  - intros u v. split; [apply (VerdictFacts.q_dir n n' K N N' t t' g g' G)|]. intros _. assert (X := rel2_get N N' t t' _ _ u v (r_edges _ _ _ _ _ _ _ _ G)). destruct (dget2 (edges g) u v), (dget2 (edges g') u v); try (destruct X; fail); [|reflexivity]. cbn [option_map]. f_equal. apply X.
  - intros u v. apply (q_removals n n' N N' t t' g g' G).
Qed.
End Start.
Lemma verdict_run (ee : exn -> exn -> Prop) fuel (R : Prop) P P' d d' g0 g0' N N' l l' g r g' r' : (forall e, ee e e) -> start_graph d = Ok g0 -> start_graph d' = Ok g0' -> dkeys (nodes g0') = dkeys (nodes g0) ->
  same_verdicts ee (dkeys (nodes g0)) N N' (values_of g0) (values_of g0') -> (R -> same_regressions (dkeys (nodes g0)) N N' (values_of g0) (values_of g0')) ->
  same_pipeline R False N N' l l' -> shipped_exits l -> sequential l -> execute_pipeline fuel P no_hooks l g0 = (g, r) -> execute_pipeline fuel P' no_hooks l' g0' = (g', r') ->
  agree ee r r' /\ rel (nodes g0) (nodes g0') N N' (values_of g0) (values_of g0') g g'.
Proof.
  intros Er S S' Ke SV SR SP X Q E E'.
  destruct (VerdictFacts.com_pipeline (nodes g0) (nodes g0') Ke N N' (values_of g0) (values_of g0') ee Er (fun x _ => values_here _ g0 x eq_refl) (fun x _ => values_here _ g0' x eq_refl) SV R SR P P' fuel l l' SP X
    ltac:(intros p Hp s s' dry Hs Pa; rewrite (Q p s Hp Hs) in Pa; discriminate) g0 g0' (start_rel N N' _ _ ee Er d d' g0 g0' S S' Ke)) as [G1 G2].
  rewrite E, E' in G1, G2. cbn [fst snd] in *. split; [|exact G1]. destruct r as [[]|], r' as [[]|]; cbn in G2 |- *; try (destruct G2; fail); auto.
Qed.

(* C108: the graph a run returns depends on the data and on the routines only through the verdicts of the tests.  When every
   test comes to the same verdict on two data sets with the same variables, a pipeline returns the same edges of the same
   types on both, with the same separating sets, and raises on both or on neither: the coefficients in the metadata of the edges
   may all differ.  With eq for ee it is the same exception. *)
Theorem C108_run : forall (ee : exn -> exn -> Prop) fuel (R : Prop) P P' d d' g0 g0' N N' l l' g r g' r', (forall e, ee e e) -> start_graph d = Ok g0 -> start_graph d' = Ok g0' -> dkeys (nodes g0') = dkeys (nodes g0) ->
  same_verdicts ee (dkeys (nodes g0)) N N' (values_of g0) (values_of g0') -> (R -> same_regressions (dkeys (nodes g0)) N N' (values_of g0) (values_of g0')) ->
  same_pipeline R False N N' l l' -> shipped_exits l -> sequential l -> execute_pipeline fuel P no_hooks l g0 = (g, r) -> execute_pipeline fuel P' no_hooks l' g0' = (g', r') ->
  agree ee r r' /\ same_edges g g' /\ same_removals g g'.
Proof.
  intros ee fuel R P P' d d' g0 g0' N N' l l' g r g' r' Er S S' K SV SR SP X Q E E'. destruct (verdict_run ee fuel R P P' d d' g0 g0' N N' l l' g r g' r' Er S S' K SV SR SP X Q E E') as [A B].
  split; [exact A|]. exact (rel_edges N N' _ _ _ _ K g g' B).
Qed.
Print Assumptions C108_run.
Lemma exits_tests N so : shipped_exits (pc_skeleton so N ++ orientation_rules so) /\ shipped_exits (pc_classic_skeleton so N ++ orientation_rules so) /\ shipped_exits (pc_stable_skeleton so N ++ orientation_rules so).
Proof.
  split; [|split]; intros nm ex s Hp; unfold pc_skeleton, pc_classic_skeleton, pc_stable_skeleton, orientation_rules in Hp; cbn [app In] in Hp;
    repeat (destruct Hp as [Hp|Hp]; [first [discriminate Hp | injection Hp; intros; subst; reflexivity]|]); destruct Hp.
Qed.
(* So PC, PCClassic and PCStable return the same edges of the same types, whatever the effects they estimate and whether
   estimating them fails. *)
Theorem C108_pc : forall fuel P P' d d' g0 g0' N N' so l l' g r g' r', start_graph d = Ok g0 -> start_graph d' = Ok g0' -> dkeys (nodes g0') = dkeys (nodes g0) ->
  same_verdicts (fun _ _ => True) (dkeys (nodes g0)) N N' (values_of g0) (values_of g0') ->
  (l = pc so N /\ l' = pc so N') \/ (l = pc_classic so N /\ l' = pc_classic so N') \/ (l = pc_stable so N /\ l' = pc_stable so N') ->
  execute_pipeline fuel P no_hooks l g0 = (g, r) -> execute_pipeline fuel P' no_hooks l' g0' = (g', r') -> same_edges g g'.
Proof.
  intros fuel P P' d d' g0 g0' N N' so l l' g r g' r' S S' K SV L Ru Ru'. destruct (same_tests False False N N' so) as (T1 & T2 & T3 & _). destruct (seq_tests N so) as (Q1 & Q2 & Q3). destruct (seq_tests N' so) as (Q1' & Q2' & Q3'). destruct (exits_tests N so) as (X1 & X2 & X3).
  assert (L2 : exists l0 l0', l = l0 ++ [PStep (effect_step N)] /\ l' = l0' ++ [PStep (effect_step N')] /\ same_pipeline False False N N' l0 l0' /\ sequential l0 /\ sequential l0' /\ shipped_exits l0)
    by (destruct L as [[-> ->]|[[-> ->]|[-> ->]]]; eexists; eexists; (split; [unfold pc, pc_classic, pc_stable; rewrite app_assoc; reflexivity|split; [unfold pc, pc_classic, pc_stable; rewrite app_assoc; reflexivity|repeat split; eassumption]])).
  destruct L2 as (l0 & l0' & -> & -> & SP & Q & Q' & X). destruct (execute_pipeline fuel P no_hooks l0 g0) as [g1 r1] eqn:E1. destruct (execute_pipeline fuel P' no_hooks l0' g0') as [g1' r1'] eqn:E1'.
  destruct (C108_run (fun _ _ => True) fuel False P P' d d' g0 g0' N N' l0 l0' g1 r1 g1' r1' (fun _ => Logic.I) S S' K SV ltac:(intros []) SP X Q E1 E1') as (_ & Ed & _).
  assert (W1 : WF g1). { assert (W := run_wf fuel P l0 g0 (reached_WF _ (start_reached _ _ S))). rewrite E1 in W. apply W. intros p s Hp Hs Pa. rewrite (Q p s Hp Hs) in Pa. discriminate. }
  assert (W1' : WF g1'). { assert (W := run_wf fuel P' l0' g0' (reached_WF _ (start_reached _ _ S'))). rewrite E1' in W. apply W. intros p s Hp Hs Pa. rewrite (Q' p s Hp Hs) in Pa. discriminate. }
  assert (A := with_effects fuel P N l0 g0 g r). rewrite E1 in A. assert (B := with_effects fuel P' N' l0' g0' g' r'). rewrite E1' in B. cbn [fst] in A, B.
  apply (edges_trans g g1 g'); [apply edges_sym, A; assumption|]. apply (edges_trans g1 g1' g'); [exact Ed|apply B; assumption].
Qed.
Print Assumptions C108_pc.
(* What a step in the process pool may do after such a pipeline on one data set under some schedule, it may do on the other, but for
   the coefficients. *)
Theorem C108_schedules : forall (ee : exn -> exn -> Prop) fuel (R : Prop) P P' d d' g0 g0' N N' l l' s s' dry g1 r1 g1' r1' g r, (forall e, ee e e) -> start_graph d = Ok g0 -> start_graph d' = Ok g0' -> dkeys (nodes g0') = dkeys (nodes g0) ->
  same_verdicts ee (dkeys (nodes g0)) N N' (values_of g0) (values_of g0') -> (R -> same_regressions (dkeys (nodes g0)) N N' (values_of g0) (values_of g0')) ->
  same_pipeline R False N N' l l' -> shipped_exits l -> sequential l -> execute_pipeline fuel P no_hooks l g0 = (g1, r1) -> execute_pipeline fuel P' no_hooks l' g0' = (g1', r1') ->
  same_step R False N N' s s' -> par_exec no_hooks s dry g1 (g, r) ->
  exists g' r', par_exec no_hooks s' dry g1' (g', r') /\ same_edges g g' /\ same_removals g g' /\ match r, r' with Ok _, Ok _ => True | Err e, Err e' => ee e e' | _, _ => False end.
Proof.
  intros ee fuel R P P' d d' g0 g0' N N' l l' s s' dry g1 r1 g1' r1' g r Er S S' K SV SR SP X Q E1 E1' SS E.
  destruct (verdict_run ee fuel R P P' d d' g0 g0' N N' l l' g1 r1 g1' r1' Er S S' K SV SR SP X Q E1 E1') as [_ G1].
  destruct (VerdictFacts.exec_rel (nodes g0) (nodes g0') K N N' (values_of g0) (values_of g0') ee Er (fun x _ => values_here _ g0 x eq_refl) (fun x _ => values_here _ g0' x eq_refl) SV R SR s s' dry g1 g1' (g, r) SS G1 E) as ([g' r'] & E' & G & A).
  cbn [fst snd] in *. exists g', r'. destruct (rel_edges N N' _ _ _ _ K g g' G) as [B C]. repeat (split; [assumption|]). destruct r, r'; cbn in A; auto.
Qed.
Print Assumptions C108_schedules.

(* routines that only look at the first observations: coefficients are their products, and two variables count as independent when
   theirs is 6 or -6; with the sign of b turned round its coefficients change, and no verdict does *)
Definition signs : numerics := mkNum (fun xs ys => Ok (hd 0%Z xs * hd 0%Z ys)%Z) (fun _ c => Ok (Z.eqb (Z.abs c) 6)) (fun _ _ _ _ _ => Ok (Some false)) (fun _ => Ok (Some false)) (fun _ _ _ => Ok false)
  (fun xs _ ys => Ok (hd 0%Z ys - hd 0%Z xs)%Z).
Definition plus_b : rawdata := DDict [("a", [Some 2; Some 5]); ("b", [Some 1; Some 6]); ("c", [Some 3; Some 4])]%Z.
Definition minus_b : rawdata := DDict [("a", [Some 2; Some 5]); ("b", [Some (-1); Some 6]); ("c", [Some 3; Some 4])]%Z.
Definition corr_of (g : graph) (u v : id) : res mval := get_corr g u v.
Example C108_nonvacuous : exists g0 g0' g g', start_graph plus_b = Ok g0 /\ start_graph minus_b = Ok g0' /\ dkeys (nodes g0') = dkeys (nodes g0) /\
  same_verdicts eq (dkeys (nodes g0)) signs signs (values_of g0) (values_of g0') /\
  execute_pipeline 5 (batch_runner no_hooks) no_hooks (pc dedup signs) g0 = (g, Ok tt) /\ execute_pipeline 5 (batch_runner no_hooks) no_hooks (pc dedup signs) g0' = (g', Ok tt) /\
  corr_of g "a" "b" = Ok (MNum 2) /\ corr_of g' "a" "b" = Ok (MNum (-2)) /\ same_edges g g' /\
  only_directed_edge_exists g "a" "b" = true /\ only_directed_edge_exists g "c" "b" = true /\ edge_exists g "a" "c" = false.
Proof.
  destruct (start_graph plus_b) as [g0|] eqn:S; [|vm_compute in S; discriminate S]. destruct (start_graph minus_b) as [g0'|] eqn:S'; [|vm_compute in S'; discriminate S'].
  destruct (execute_pipeline 5 (batch_runner no_hooks) no_hooks (pc dedup signs) g0) as [g r] eqn:Ru. destruct (execute_pipeline 5 (batch_runner no_hooks) no_hooks (pc dedup signs) g0') as [g' r'] eqn:Ru'. exists g0, g0', g, g'.
  assert (G0 : g0 = match start_graph plus_b with Ok h => h | Err _ => empty_graph end) by (rewrite S; reflexivity). assert (G0' : g0' = match start_graph minus_b with Ok h => h | Err _ => empty_graph end) by (rewrite S'; reflexivity).
  vm_compute in G0, G0'. assert (Ke : dkeys (nodes g0') = dkeys (nodes g0)) by (rewrite G0, G0'; reflexivity).
  assert (Kk : dkeys (nodes g0) = ["a"; "b"; "c"]) by (rewrite G0; reflexivity).
  assert (Va : values_of g0 "a" = [2; 5]%Z /\ values_of g0 "b" = [1; 6]%Z /\ values_of g0 "c" = [3; 4]%Z) by (rewrite G0; repeat split; reflexivity).
  assert (Va' : values_of g0' "a" = [2; 5]%Z /\ values_of g0' "b" = [-1; 6]%Z /\ values_of g0' "c" = [3; 4]%Z) by (rewrite G0'; repeat split; reflexivity).
  destruct Va as (Aa & Ab & Ac), Va' as (Aa' & Ab' & Ac').
  assert (SV : forall ee : exn -> exn -> Prop, same_verdicts ee (dkeys (nodes g0)) signs signs (values_of g0) (values_of g0')).
  { intros ee. rewrite Kk. split; [intros x y _ _; exact Logic.I| |intros; reflexivity|intros; reflexivity].
    intros x y c c' Hx Hy Ne St. cbn [In] in Hx, Hy. repeat (destruct Hx as [<-|Hx]; [repeat (destruct Hy as [<-|Hy]; [try (destruct Ne; reflexivity); unfold stored in St; cbn [n_pearson signs] in St; rewrite ?Aa, ?Ab, ?Ac, ?Aa', ?Ab', ?Ac' in St;
      destruct St as [[E E']|[E E']]; cbn in E, E'; injection E as <-; injection E' as <-; reflexivity|]); destruct Hy|]). destruct Hx. }
  assert (Ok1 : r = Ok tt) by (change r with (snd (g, r)); rewrite <- Ru, G0; vm_compute; reflexivity). assert (Ok2 : r' = Ok tt) by (change r' with (snd (g', r')); rewrite <- Ru', G0'; vm_compute; reflexivity). subst r r'.
  do 3 (split; [assumption || reflexivity|]). split; [exact (SV eq)|]. split; [exact Ru|]. split; [exact Ru'|].
  split; [change g with (fst (g, Ok (A := unit) tt)); rewrite <- Ru, G0; vm_compute; reflexivity|]. split; [change g' with (fst (g', Ok (A := unit) tt)); rewrite <- Ru', G0'; vm_compute; reflexivity|].
  split; [exact (C108_pc 5 _ _ plus_b minus_b g0 g0' signs signs dedup _ _ g (Ok tt) g' (Ok tt) S S' Ke (SV _) (or_introl (conj eq_refl eq_refl)) Ru Ru')|].
  change g with (fst (g, Ok (A := unit) tt)). rewrite <- Ru, G0. split; [|split]; vm_compute; reflexivity.
Qed.
