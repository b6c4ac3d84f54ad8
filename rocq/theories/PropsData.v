(* Runs on different data: C85 and C86. *)
From Coq Require Import Reals List Permutation Lia Lra.
From Verif Require Import Base PyDict PyDictFacts Graph GraphSpec GraphFacts GraphInv GraphQ Actions ActionFacts ActionMain Generators GenSpec Rules IndepTests Pipeline Parallel PipeSpec PipeFacts PipeMain PipeMain2 Construct ConstructFacts
  LoopFacts OrientTop EffectSpec EffectFacts GraphCheck DataSpec DataFacts DataMain Numeric NumericSpec NumericFacts UnitsSpec UnitsFacts.
Import ListNotations.
Open Scope string_scope.
Open Scope list_scope.

(* C85: when the numeric routines answer alike on two data sets with the same variables, the same pipeline does the same on
   both: the same exception or none, and the same graph, metadata, edge histories and log included.  Only the data in the nodes differ. *)
Theorem C85_run : forall fuel (R E : Prop) P P' d d' g0 g0' N N' l l' g r, start_graph d = Ok g0 -> start_graph d' = Ok g0' -> dkeys (nodes g0') = dkeys (nodes g0) ->
  same_answers (dkeys (nodes g0)) N N' (values_of g0) (values_of g0') -> (R -> same_regressions (dkeys (nodes g0)) N N' (values_of g0) (values_of g0')) -> (E -> same_effects (dkeys (nodes g0)) N N' (values_of g0) (values_of g0')) ->
  same_pipeline R E N N' l l' -> sequential l -> execute_pipeline fuel P no_hooks l g0 = (g, r) ->
  nodes g = nodes g0 /\ execute_pipeline fuel P' no_hooks l' g0' = (on_nodes (nodes g0') g, r).
Proof.
  intros fuel R E P P' d d' g0 g0' N N' l l' g r S S' K SA SR SE SP Q. exact (run_same fuel R E P P' d d' g0 g0' N N' l l' g r S S' K SA SR SE SP (no_pools R E N N' _ _ P P' l Q)).
Qed.
Print Assumptions C85_run.
(* What a step in the process pool may do on one data set under some schedule, it may do on the other. *)
Theorem C85_schedules : forall (R E : Prop) d d' g0 g0' N N' s s' dry g g1 r, start_graph d = Ok g0 -> start_graph d' = Ok g0' -> dkeys (nodes g0') = dkeys (nodes g0) ->
  same_answers (dkeys (nodes g0)) N N' (values_of g0) (values_of g0') -> (R -> same_regressions (dkeys (nodes g0)) N N' (values_of g0) (values_of g0')) -> (E -> same_effects (dkeys (nodes g0)) N N' (values_of g0) (values_of g0')) ->
  same_step R E N N' s s' -> nodes g = nodes g0 -> par_exec no_hooks s dry g (g1, r) -> par_exec no_hooks s' dry (on_nodes (nodes g0') g) (on_nodes (nodes g0') g1, r).
Proof. intros R E d d' g0 g0' N N' s s' dry g g1 r S S' K SA SR SE SS G X. apply (schedule_same R E d d' g0 g0' N N' s s' dry g (g1, r) S S' K SA SR SE SS G X). Qed.
Print Assumptions C85_schedules.
(* So what a whole pipeline may do with pools on one data set, it may do on the other. *)
Theorem C85_pools : forall fuel (R E : Prop) P d d' g0 g0' N l g r, start_graph d = Ok g0 -> start_graph d' = Ok g0' -> dkeys (nodes g0') = dkeys (nodes g0) ->
  same_answers (dkeys (nodes g0)) N N (values_of g0) (values_of g0') -> (R -> same_regressions (dkeys (nodes g0)) N N (values_of g0) (values_of g0')) -> (E -> same_effects (dkeys (nodes g0)) N N (values_of g0) (values_of g0')) ->
  same_pipeline R E N N l l -> pools P l -> execute_pipeline fuel P no_hooks l g0 = (g, r) ->
  exists P', pools P' l /\ execute_pipeline fuel P' no_hooks l g0' = (on_nodes (nodes g0') g, r).
Proof.
  intros fuel R E P d d' g0 g0' N l g r S S' K SA SR SE SP Po X. destruct (moved_pools R E d d' g0 g0' N l P S S' K SA SR SE SP Po) as [A B]. exists (moved (nodes g0) (nodes g0') P). split; [exact A|].
  apply (run_same fuel R E P _ d d' g0 g0' N N l l g r S S' K SA SR SE SP B X).
Qed.
Print Assumptions C85_pools.

(* the algorithms are pipelines of this kind *)
Ltac same_alg := repeat first [apply Forall2_nil | apply Forall2_cons; [first [apply ss_step | apply ss_loop | apply ss_together | idtac]; try (split; try reflexivity; repeat constructor)|]].
Lemma same_tests (R E : Prop) N N' so : same_pipeline R E N N' (pc_skeleton so N ++ orientation_rules so) (pc_skeleton so N' ++ orientation_rules so) /\
  same_pipeline R E N N' (pc_classic_skeleton so N ++ orientation_rules so) (pc_classic_skeleton so N' ++ orientation_rules so) /\
  same_pipeline R E N N' (pc_stable_skeleton so N ++ orientation_rules so) (pc_stable_skeleton so N' ++ orientation_rules so) /\
  forall sh sh' coin, same_pipeline R E N N' (pc_parallel_skeleton so sh sh' coin N ++ orientation_rules so) (pc_parallel_skeleton so sh sh' coin N' ++ orientation_rules so).
Proof.
  split; [|split; [|split; [|intros sh sh' coin]]]; unfold same_pipeline, pc_skeleton, pc_classic_skeleton, pc_stable_skeleton, pc_parallel_skeleton, orientation_rules, orientation_steps; cbn [app]; same_alg.
Qed.
Lemma seq_tests N so : sequential (pc_skeleton so N ++ orientation_rules so) /\ sequential (pc_classic_skeleton so N ++ orientation_rules so) /\ sequential (pc_stable_skeleton so N ++ orientation_rules so).
Proof.
  split; [|split]; intros p s Hp Hs; unfold pc_skeleton, pc_classic_skeleton, pc_stable_skeleton, orientation_rules, orientation_steps in Hp; cbn [app In] in Hp;
    repeat (destruct Hp as [<-|Hp]; [cbn [steps_of In] in Hs; repeat (destruct Hs as [<-|Hs]; [reflexivity|]); destruct Hs|]); destruct Hp.
Qed.
Lemma with_effect (E : Prop) N N' l l' : E -> same_pipeline True E N N' l l' -> same_pipeline True E N N' (l ++ [PStep (effect_step N)]) (l' ++ [PStep (effect_step N')]).
Proof. intros He F. apply Forall2_app; [exact F|]. constructor; [|constructor]. apply ss_step. split; try reflexivity; [constructor|]. apply sp_effect, He. Qed.

(* C86: in exact arithmetic, other units and another order of the observations change nothing before effects are estimated. *)
Theorem C86_run : forall fuel P P' d d' g0 g0' dec code Phi th n no_inverse no_answer N l g r, start_graph d = Ok g0 -> start_graph d' = Ok g0' -> dkeys (nodes g0') = dkeys (nodes g0) ->
  (2 <= n)%nat -> retold dec n g0 g0' -> exact_on dec code Phi th n no_inverse no_answer (columns_of g0) N -> exact_on dec code Phi th n no_inverse no_answer (columns_of g0') N ->
  same_pipeline False False N N l l -> sequential l -> execute_pipeline fuel P no_hooks l g0 = (g, r) -> execute_pipeline fuel P' no_hooks l g0' = (on_nodes (nodes g0') g, r).
Proof.
  intros fuel P P' d d' g0 g0' dec code Phi th n ni na N l g r S S' K Hn RT X X' SP Q Ru.
  apply (C85_run fuel False False P P' d d' g0 g0' N N l l g r S S' K (retold_answers dec code Phi th n ni na N g0 g0' Hn K RT X X') ltac:(intros []) ltac:(intros []) SP Q Ru).
Qed.
Print Assumptions C86_run.
(* The graph PC, PCClassic and PCStable return has the same edges of the same types; *)
Theorem C86_pc : forall fuel P P' d d' g0 g0' dec code Phi th n no_inverse no_answer N so l g r g' r', start_graph d = Ok g0 -> start_graph d' = Ok g0' -> dkeys (nodes g0') = dkeys (nodes g0) ->
  (2 <= n)%nat -> retold dec n g0 g0' -> exact_on dec code Phi th n no_inverse no_answer (columns_of g0) N -> exact_on dec code Phi th n no_inverse no_answer (columns_of g0') N ->
  l = pc so N \/ l = pc_classic so N \/ l = pc_stable so N -> execute_pipeline fuel P no_hooks l g0 = (g, r) -> execute_pipeline fuel P' no_hooks l g0' = (g', r') -> same_edges g g'.
Proof.
  intros fuel P P' d d' g0 g0' dec code Phi th n ni na N so l g r g' r' S S' K Hn RT X X' L Ru Ru'. destruct (same_tests False False N N so) as (T1 & T2 & T3 & _). destruct (seq_tests N so) as (Q1 & Q2 & Q3).
  assert (L2 : exists l0, l = l0 ++ [PStep (effect_step N)] /\ same_pipeline False False N N l0 l0 /\ sequential l0) by (destruct L as [->|[->| ->]]; eexists; (split; [unfold pc, pc_classic, pc_stable; rewrite app_assoc; reflexivity|split; assumption])).
  destruct L2 as (l0 & -> & SP & Q). destruct (execute_pipeline fuel P no_hooks l0 g0) as [g1 r1] eqn:E1.
  assert (E2 := C86_run fuel P P' d d' g0 g0' dec code Phi th n ni na N l0 g1 r1 S S' K Hn RT X X' SP Q E1).
  destruct (C85_run fuel False False P P' d d' g0 g0' N N l0 l0 g1 r1 S S' K (retold_answers dec code Phi th n ni na N g0 g0' Hn K RT X X') ltac:(intros []) ltac:(intros []) SP Q E1) as [N1 _].
  assert (W1 : WF g1). { assert (W := run_wf fuel P l0 g0 (reached_WF _ (start_reached _ _ S))). rewrite E1 in W. apply W. intros p s Hp Hs Pa. rewrite (Q p s Hp Hs) in Pa. discriminate. }
  assert (K1 : dkeys (nodes g0') = dkeys (nodes g1)) by (rewrite N1; exact K).
  assert (A := with_effects fuel P N l0 g0 g r). rewrite E1 in A. assert (B := with_effects fuel P' N l0 g0' g' r'). rewrite E2 in B. cbn [fst] in A, B.
  apply (edges_trans g g1 g'); [apply edges_sym, A; assumption|]. apply (edges_trans g1 (on_nodes (nodes g0') g1) g'); [apply on_edges, K1|apply B; [apply WF_on; assumption|assumption]].
Qed.
Print Assumptions C86_pc.
(* and what ParallelPC may return on one data set, it may return on the other. *)
Theorem C86_parallel : forall fuel P d d' g0 g0' dec code Phi th n no_inverse no_answer N so sh sh' coin g r, start_graph d = Ok g0 -> start_graph d' = Ok g0' -> dkeys (nodes g0') = dkeys (nodes g0) ->
  (2 <= n)%nat -> retold dec n g0 g0' -> exact_on dec code Phi th n no_inverse no_answer (columns_of g0) N -> exact_on dec code Phi th n no_inverse no_answer (columns_of g0') N ->
  pool_runner no_hooks P -> execute_pipeline fuel P no_hooks (pc_parallel so sh sh' coin N) g0 = (g, r) ->
  exists P' g' r', pools P' (pc_parallel so sh sh' coin N) /\ execute_pipeline fuel P' no_hooks (pc_parallel so sh sh' coin N) g0' = (g', r') /\ same_edges g g'.
Proof.
  intros fuel P d d' g0 g0' dec code Phi th n ni na N so sh sh' coin g r S S' K Hn RT X X' HP Ru. destruct (same_tests False False N N so) as (_ & _ & _ & T). specialize (T sh sh' coin).
  unfold pc_parallel in *. rewrite app_assoc in *. set (l0 := pc_parallel_skeleton so sh sh' coin N ++ orientation_rules so) in *.
  destruct (execute_pipeline fuel P no_hooks l0 g0) as [g1 r1] eqn:E1. assert (SA := retold_answers dec code Phi th n ni na N g0 g0' Hn K RT X X').
  destruct (moved_pools False False d d' g0 g0' N l0 P S S' K SA ltac:(intros []) ltac:(intros []) T (fun p s dry g _ _ _ => HP s dry g)) as [A B]. set (P' := moved (nodes g0) (nodes g0') P) in *.
  destruct (run_same fuel False False P P' d d' g0 g0' N N l0 l0 g1 r1 S S' K SA ltac:(intros []) ltac:(intros []) T B E1) as [N1 E2].
  assert (W1 : WF g1). { assert (W := run_wf fuel P l0 g0 (reached_WF _ (start_reached _ _ S))). rewrite E1 in W. apply W. intros p s Hp Hs Pa. exact HP. }
  assert (K1 : dkeys (nodes g0') = dkeys (nodes g1)) by (rewrite N1; exact K).
  destruct (execute_pipeline fuel P' no_hooks (l0 ++ [PStep (effect_step N)]) g0') as [g' r'] eqn:E3. exists P', g', r'. split; [|split; [exact E3|]].
  - intros p s dry h Hp Hs Pa. apply in_app_or in Hp. destruct Hp as [Hp|[<-|[]]]; [apply (A p s dry h Hp Hs Pa)|]. destruct Hs as [<-|[]]. discriminate Pa.
  - assert (Y := with_effects fuel P N l0 g0 g r). rewrite E1 in Y. assert (Z := with_effects fuel P' N l0 g0' g' r'). rewrite E2 in Z. cbn [fst] in Y, Z.
    apply (edges_trans g g1 g'); [apply edges_sym, Y; assumption|]. apply (edges_trans g1 (on_nodes (nodes g0') g1) g'); [apply on_edges, K1|apply Z; [apply WF_on; assumption|assumption]].
Qed.
Print Assumptions C86_parallel.

(* ---- examples ---- *)
(* routines that only look at the difference of the first observations; a and c are two apart *)
Definition lead : numerics := mkNum (fun xs ys => Ok (hd 0%Z xs - hd 0%Z ys)%Z) (fun _ c => Ok (Z.eqb (Z.abs c) 2)) (fun _ _ _ _ _ => Ok (Some false)) (fun _ => Ok (Some false)) (fun _ _ _ => Ok false)
  (fun xs _ ys => Ok (hd 0%Z ys - hd 0%Z xs)%Z).
Definition low : rawdata := DDict [("a", [Some 0; Some 5]); ("b", [Some 1; Some 6]); ("c", [Some 2; Some 4])]%Z.
Definition high : rawdata := DDict [("c", [Some 12; Some 1]); ("a", [Some 10; Some 9]); ("b", [Some 11; Some 7])]%Z.
Example C85_nonvacuous : exists g0 g0' g, start_graph low = Ok g0 /\ start_graph high = Ok g0' /\ dkeys (nodes g0') = dkeys (nodes g0) /\
  same_answers (dkeys (nodes g0)) lead lead (values_of g0) (values_of g0') /\ same_effects (dkeys (nodes g0)) lead lead (values_of g0) (values_of g0') /\
  same_pipeline True True lead lead (pc dedup lead) (pc dedup lead) /\ sequential (pc dedup lead) /\ execute_pipeline 5 (batch_runner no_hooks) no_hooks (pc dedup lead) g0 = (g, Ok tt) /\
  execute_pipeline 5 (batch_runner no_hooks) no_hooks (pc dedup lead) g0' = (on_nodes (nodes g0') g, Ok tt) /\ values_of g0' "a" <> values_of g0 "a" /\
  only_directed_edge_exists g "a" "b" = true /\ only_directed_edge_exists g "c" "b" = true /\ edge_exists g "a" "c" = false.
Proof.
  destruct (start_graph low) as [g0|] eqn:S; [|vm_compute in S; discriminate S]. destruct (start_graph high) as [g0'|] eqn:S'; [|vm_compute in S'; discriminate S'].
  destruct (execute_pipeline 5 (batch_runner no_hooks) no_hooks (pc dedup lead) g0) as [g r] eqn:Ru. exists g0, g0', g.
  assert (Sp : same_pipeline True True lead lead (pc dedup lead) (pc dedup lead)) by (unfold pc; rewrite app_assoc; apply with_effect; [exact Logic.I|apply (same_tests True True lead lead dedup)]).
  assert (Sq : sequential (pc dedup lead)). { unfold pc. rewrite app_assoc. intros p s Hp Hs. apply in_app_or in Hp. destruct Hp as [Hp|[<-|[]]]; [apply (proj1 (seq_tests lead dedup) p s Hp Hs)|destruct Hs as [<-|[]]; reflexivity]. }
  assert (G0 : g0 = match start_graph low with Ok h => h | Err _ => empty_graph end) by (rewrite S; reflexivity). assert (G0' : g0' = match start_graph high with Ok h => h | Err _ => empty_graph end) by (rewrite S'; reflexivity).
  vm_compute in G0, G0'. assert (Ke : dkeys (nodes g0') = dkeys (nodes g0)) by (rewrite G0, G0'; reflexivity).
  assert (Kk : dkeys (nodes g0) = ["a"; "b"; "c"]) by (rewrite G0; reflexivity).
  assert (SA : same_answers (dkeys (nodes g0)) lead lead (values_of g0) (values_of g0')).
  { rewrite Kk. split; [|intros x c _; reflexivity|intros x k a b c _; reflexivity|intros l _ _; reflexivity]. intros x y Hx Hy. rewrite G0, G0'. cbn [In] in Hx, Hy. repeat (destruct Hx as [<-|Hx]; [repeat (destruct Hy as [<-|Hy]; [reflexivity|]); destruct Hy|]). destruct Hx. }
  assert (SE : same_effects (dkeys (nodes g0)) lead lead (values_of g0) (values_of g0')).
  { rewrite Kk. intros x y l Hx Hy _. rewrite G0, G0'. cbn [In] in Hx, Hy. repeat (destruct Hx as [<-|Hx]; [repeat (destruct Hy as [<-|Hy]; [reflexivity|]); destruct Hy|]). destruct Hx. }
  assert (SR : same_regressions (dkeys (nodes g0)) lead lead (values_of g0) (values_of g0')) by (intros x y l _ _ _; reflexivity).
  destruct (C85_run 5 True True (batch_runner no_hooks) (batch_runner no_hooks) low high g0 g0' lead lead _ _ g r S S' Ke SA (fun _ => SR) (fun _ => SE) Sp Sq Ru) as [_ Ru'].
  assert (Ok1 : r = Ok tt) by (change r with (snd (g, r)); rewrite <- Ru, G0; vm_compute; reflexivity). subst r.
  split; [reflexivity|]. split; [reflexivity|]. split; [exact Ke|]. split; [exact SA|]. split; [exact SE|]. split; [exact Sp|]. split; [exact Sq|]. split; [exact Ru|]. split; [exact Ru'|].
  split; [rewrite G0, G0'; discriminate|]. change g with (fst (g, Ok (A := unit) tt)). rewrite <- Ru, G0. split; [|split]; vm_compute; reflexivity.
Qed.

(* two variables in other units, last observation first *)
Section Two.
Open Scope R_scope.
Lemma inverse_two P C : inverts 2 P C -> C 0%nat 0%nat * C 1%nat 1%nat - C 0%nat 1%nat * C 1%nat 0%nat <> 0 /\
  let D := C 0%nat 0%nat * C 1%nat 1%nat - C 0%nat 1%nat * C 1%nat 0%nat in P 0%nat 0%nat = C 1%nat 1%nat / D /\ P 0%nat 1%nat = - C 0%nat 1%nat / D /\ P 1%nat 1%nat = C 0%nat 0%nat / D.
Proof.
  intros I. assert (A := I 0%nat 0%nat ltac:(lia) ltac:(lia)). assert (B := I 0%nat 1%nat ltac:(lia) ltac:(lia)). assert (E := I 1%nat 0%nat ltac:(lia) ltac:(lia)). assert (F := I 1%nat 1%nat ltac:(lia) ltac:(lia)).
  cbn in A, B, E, F. set (p := P 0%nat 0%nat) in *. set (q := P 0%nat 1%nat) in *. set (s := P 1%nat 0%nat) in *. set (t := P 1%nat 1%nat) in *. set (a := C 0%nat 0%nat) in *. set (b := C 0%nat 1%nat) in *. set (c := C 1%nat 0%nat) in *. set (e := C 1%nat 1%nat) in *.
  assert (H1 : p * (a * e - b * c) = e) by (replace e with (e * (0 + p * a + q * c) - c * (0 + p * b + q * e)) at 2 by (rewrite A, B; ring); ring).
  assert (H2 : q * (a * e - b * c) = - b) by (replace (- b) with (- b * (0 + p * a + q * c) + a * (0 + p * b + q * e)) by (rewrite A, B; ring); ring).
  assert (H3 : t * (a * e - b * c) = a) by (replace a with (a * (0 + s * b + t * e) - b * (0 + s * a + t * c)) at 2 by (rewrite E, F; ring); ring).
  assert (D : a * e - b * c <> 0). { intros Z. rewrite Z in H1, H2, H3. rewrite Rmult_0_r in H1, H2, H3. rewrite <- H1 in F. assert (b = 0) by lra. rewrite H in F. lra. }
  split; [exact D|]. cbv zeta. repeat split; [rewrite <- H1 at 1|rewrite <- H2 at 1|rewrite <- H3 at 1]; field; exact D.
Qed.
Lemma twins_singular m P C i j : (i < m)%nat -> (j < m)%nat -> i <> j -> (forall k, (k < m)%nat -> C k i = C k j) -> ~ inverts m P C.
Proof.
  intros Hi Hj Ne E I. assert (A := I i i Hi Hi). assert (B := I i j Hi Hj). destruct (Nat.eq_dec i i) as [_|]; [|contradiction]. destruct (Nat.eq_dec i j) as [|_]; [contradiction|].
  rewrite (sumn_ext m _ (fun k => P i k * C k j)) in A by (intros k Hk; rewrite (E k Hk); reflexivity). rewrite A in B. lra.
Qed.
Definition to_code (o : option R) : Z := match o with Some r => up (1000 * r) | None => 0%Z end.
Variables (Phi : R -> R) (th : R) (n : nat) (no_answer : res (option bool)).
Definition inverse2 (C : matrix) : matrix := fun i j => let D := C 0%nat 0%nat * C 1%nat 1%nat - C 0%nat 1%nat * C 1%nat 0%nat in
  match i, j with O, O => C 1%nat 1%nat / D | S O, S O => C 0%nat 0%nat / D | O, _ => - C 0%nat 1%nat / D | _, _ => - C 1%nat 0%nat / D end.
(* exact routines for two variables *)
Definition exact2 : numerics := mkNum (fun x y => Ok (to_code (pearson (map IZR x) (map IZR y)))) (fun _ c => Ok (Z.ltb (Z.abs c) 500)) (fun _ _ _ _ _ => Ok None)
  (fun l => match l with
            | [x; y] => let C := cov [map IZR x; map IZR y] in
                if Req_EM_T (C 0%nat 0%nat * C 1%nat 1%nat - C 0%nat 1%nat * C 1%nat 0%nat) 0 then Ok None else answer no_answer (fisher_test Phi th n 0 (matrix_par 2 (inverse2 C)))
            | _ => Ok None end) (fun _ _ _ => Ok false) (fun _ _ _ => Ok 0%Z).
Lemma exact2_exact (u v : list Z) (cols : list Z -> Prop) : (2 <= n)%nat -> (forall x, cols x -> List.length (map IZR x) = n /\ (x = u \/ x = v)) -> exact_on IZR to_code Phi th n (Ok None) no_answer cols exact2.
Proof.
  intros Hn Cu. assert (Tw : forall l, (3 <= List.length l)%nat -> (forall x, In x l -> cols x) -> forall P, ~ inverts (List.length l) P (cov (map (map IZR) l))).
  { intros [|x [|y [|z l]]] L3 Al P; cbn in L3; try lia. destruct (Cu x ltac:(apply Al; left; reflexivity)) as [_ Cx], (Cu y ltac:(apply Al; right; left; reflexivity)) as [_ Cy], (Cu z ltac:(apply Al; right; right; left; reflexivity)) as [_ Cz].
    assert (Q : x = y \/ x = z \/ y = z) by (destruct Cx, Cy, Cz; subst; auto).
    destruct Q as [<-|[<-|<-]]; [apply (twins_singular _ P _ 0%nat 1%nat)|apply (twins_singular _ P _ 0%nat 2%nat)|apply (twins_singular _ P _ 1%nat 2%nat)]; try (cbn; lia); intros k _; reflexivity. }
  split.
  - intros x y _ _. reflexivity.
  - intros l P Al L2 I. destruct (Nat.le_gt_cases 3 (List.length l)) as [L3|L3]; [exfalso; exact (Tw l L3 Al P I)|]. destruct l as [|x [|y [|z l]]]; cbn [List.length] in *; try lia. change (map (map IZR) [x; y]) with [map IZR x; map IZR y] in I. destruct (inverse_two P _ I) as (D & H0 & H1 & H2).
    cbn [exact2 n_matrix]. destruct (Req_EM_T _ 0) as [Z|_]; [contradiction|]. cbn [Nat.sub]. do 2 f_equal.
    assert (Ob : observations n [map IZR x; map IZR y]) by (intros w [<-|[<-|[]]]; apply Cu, Al; [left|right; left]; reflexivity).
    assert (Ps : forall i, (i < 2)%nat -> 0 < P i i) by (apply (P_pos n 2 (/ (INR n - 1)) (fun k => at_ (center (nth k [map IZR x; map IZR y] []))) P (s_pos n Hn)); exact (inv_ip n _ [map IZR x; map IZR y] P Hn eq_refl Ob I)).
    assert (P0 := Ps 0%nat ltac:(lia)). assert (P1 := Ps 1%nat ltac:(lia)). rewrite !matrix_par_plain; try assumption; try lia; unfold inverse2; try (rewrite <- ?H0, <- ?H2; assumption). rewrite H0, H1, H2. reflexivity.
  - intros l Al L2 No. destruct l as [|x [|y [|z l]]]; cbn [List.length] in *; try lia; [|reflexivity]. cbn [exact2 n_matrix]. change (map (map IZR) [x; y]) with [map IZR x; map IZR y] in No. destruct (Req_EM_T _ 0) as [_|D]; [reflexivity|]. exfalso. apply (No (inverse2 (cov [map IZR x; map IZR y]))).
    set (C := cov [map IZR x; map IZR y]) in *. intros i j Hi Hj. destruct i as [|[|i]]; try lia; destruct j as [|[|j]]; try lia; cbn [Nat.eq_dec sumn]; unfold inverse2; destruct (Nat.eq_dec _ _); try lia; field; exact D.
Qed.
End Two.
Definition metres : rawdata := DDict [("a", [Some 0; Some 1; Some 2; Some 3]); ("b", [Some 1; Some 0; Some 5; Some 2])]%Z.
Definition feet : rawdata := DDict [("a", [Some 10; Some 7; Some 4; Some 1]); ("b", [Some 3; Some 9; Some (-1); Some 1])]%Z.
Example C86_nonvacuous : forall Phi th, exists g0 g0', start_graph metres = Ok g0 /\ start_graph feet = Ok g0' /\ dkeys (nodes g0') = dkeys (nodes g0) /\ retold IZR 4 g0 g0' /\
  exact_on IZR to_code Phi th 4 (Ok None) (Err ValueError) (columns_of g0) (exact2 Phi th 4 (Err ValueError)) /\ exact_on IZR to_code Phi th 4 (Ok None) (Err ValueError) (columns_of g0') (exact2 Phi th 4 (Err ValueError)) /\
  values_of g0' "a" <> values_of g0 "a".
Proof.
  intros Phi th. destruct (start_graph metres) as [g0|] eqn:S; [|vm_compute in S; discriminate S]. destruct (start_graph feet) as [g0'|] eqn:S'; [|vm_compute in S'; discriminate S'].
  vm_compute in S, S'. injection S as S. injection S' as S'. exists g0, g0'.
  assert (V : values_of g0 "a" = [0; 1; 2; 3]%Z /\ values_of g0 "b" = [1; 0; 5; 2]%Z /\ dkeys (nodes g0) = ["a"; "b"]) by (rewrite <- S; repeat split; reflexivity).
  assert (V' : values_of g0' "a" = [10; 7; 4; 1]%Z /\ values_of g0' "b" = [3; 9; -1; 1]%Z /\ dkeys (nodes g0') = ["a"; "b"]) by (rewrite <- S'; repeat split; reflexivity). clear S S'.
  destruct V as (Va & Vb & K), V' as (Va' & Vb' & K'). split; [reflexivity|]. split; [reflexivity|]. split; [congruence|]. split; [|split; [|split; [|rewrite Va, Va'; discriminate]]].
  - exists [3; 2; 1; 0]%nat. split; [apply Permutation_sym; exact (Permutation_rev [0; 1; 2; 3]%nat)|]. intros x Hx. rewrite K in Hx. destruct Hx as [<-|[<-|[]]].
    + rewrite Va, Va'. split; [reflexivity|]. exists 3%R, 1%R. split; [lra|]. cbn. repeat (f_equal; [lra|]). f_equal; lra.
    + rewrite Vb, Vb'. split; [reflexivity|]. exists 2%R, (-1)%R. split; [lra|]. cbn. repeat (f_equal; [lra|]). f_equal; lra.
  - apply (exact2_exact Phi th 4 (Err ValueError) [0; 1; 2; 3]%Z [1; 0; 5; 2]%Z); [lia|]. intros x (v & Hv & ->). rewrite K in Hv. destruct Hv as [<-|[<-|[]]]; rewrite ?Va, ?Vb; auto.
  - apply (exact2_exact Phi th 4 (Err ValueError) [10; 7; 4; 1]%Z [3; 9; -1; 1]%Z); [lia|]. intros x (v & Hv & ->). rewrite K' in Hv. destruct Hv as [<-|[<-|[]]]; rewrite ?Va', ?Vb'; auto.
Qed.
