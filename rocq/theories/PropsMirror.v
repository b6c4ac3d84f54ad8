(* Runs on data with variables turned round: C109. *)
From Coq Require Import Reals List Permutation Lia Lra.
From Verif Require Import Base PyDict PyDictFacts Graph GraphSpec GraphFacts GraphInv GraphQ Actions ActionFacts ActionMain Generators GenSpec Rules IndepTests Pipeline Parallel PipeSpec PipeFacts PipeMain PipeMain2 Construct ConstructFacts
  LoopFacts OrientTop EffectSpec EffectFacts GraphCheck DataSpec DataFacts DataMain Numeric NumericSpec NumericFacts Nan UnitsSpec UnitsFacts PropsData VerdictSpec VerdictFacts PropsVerdict MirrorSpec MirrorFacts.
Import ListNotations.
Open Scope string_scope.
Open Scope list_scope.

(* C109: in exact arithmetic it does not matter which way a variable is counted.  On data in which every variable is in other
   units, turned round or not, and the observations are in another order, a pipeline returns the same edges of the same types with
   the same separating sets, and raises on both or on neither, although correlations change their signs. *)
Theorem C109_run : forall fuel P P' d d' g0 g0' dec code Phi th n no_inverse no_answer N l g r g' r', start_graph d = Ok g0 -> start_graph d' = Ok g0' -> dkeys (nodes g0') = dkeys (nodes g0) ->
  (2 <= n)%nat -> remade dec n g0 g0' -> exact_all dec code Phi th n no_inverse no_answer (values_of g0) (dkeys (nodes g0)) N -> exact_all dec code Phi th n no_inverse no_answer (values_of g0') (dkeys (nodes g0')) N ->
  same_pipeline False False N N l l -> shipped_exits l -> sequential l -> execute_pipeline fuel P no_hooks l g0 = (g, r) -> execute_pipeline fuel P' no_hooks l g0' = (g', r') ->
  (r = Ok tt <-> r' = Ok tt) /\ same_edges g g' /\ same_removals g g'.
Proof.
  intros fuel P P' d d' g0 g0' dec code Phi th n ni na N l g r g' r' S S' K Hn RM EX EX' SP X Q E E'.
  destruct (C108_run ok_or fuel False P P' d d' g0 g0' N N l l g r g' r' (fun _ => Logic.I) S S' K (remade_verdicts dec code Phi th n ni na N g0 g0' Hn K RM EX EX') ltac:(intros []) SP X Q E E') as (A & B & C).
  split; [|split; assumption]. destruct r as [[]|], r' as [[]|]; cbn in A; try (destruct A; fail); split; congruence.
Qed.
Print Assumptions C109_run.
(* So do PC, PCClassic and PCStable, effects included. *)
Theorem C109_pc : forall fuel P P' d d' g0 g0' dec code Phi th n no_inverse no_answer N so l g r g' r', start_graph d = Ok g0 -> start_graph d' = Ok g0' -> dkeys (nodes g0') = dkeys (nodes g0) ->
  (2 <= n)%nat -> remade dec n g0 g0' -> exact_all dec code Phi th n no_inverse no_answer (values_of g0) (dkeys (nodes g0)) N -> exact_all dec code Phi th n no_inverse no_answer (values_of g0') (dkeys (nodes g0')) N ->
  l = pc so N \/ l = pc_classic so N \/ l = pc_stable so N -> execute_pipeline fuel P no_hooks l g0 = (g, r) -> execute_pipeline fuel P' no_hooks l g0' = (g', r') -> same_edges g g'.
Proof.
  intros fuel P P' d d' g0 g0' dec code Phi th n ni na N so l g r g' r' S S' K Hn RM EX EX' L E E'.
  apply (C108_pc fuel P P' d d' g0 g0' N N so l l g r g' r' S S' K (remade_verdicts dec code Phi th n ni na N g0 g0' Hn K RM EX EX')); [|exact E|exact E']. destruct L as [->|[->| ->]]; auto.
Qed.
Print Assumptions C109_pc.

(* ---- the exception may be another one ---- *)
Section Exception.
Open Scope R_scope.
Lemma std_two a b : std [a; b] = Rabs (a - b) / 2.
Proof.
  unfold std, center, mean. cbn [map vsum vmul List.length INR]. replace ((((a - (a + (b + 0)) / (1 + 1)) * (a - (a + (b + 0)) / (1 + 1)) + ((b - (a + (b + 0)) / (1 + 1)) * (b - (a + (b + 0)) / (1 + 1)) + 0)) / (1 + 1))) with ((a - b) / 2 * ((a - b) / 2)) by field.
  change (sqrt (Rsqr ((a - b) / 2)) = Rabs (a - b) / 2). rewrite sqrt_Rsqr_abs. unfold Rdiv. rewrite Rabs_mult, (Rabs_right (/ 2)) by lra. reflexivity.
Qed.
Lemma pearson_two s t : (s = [0; 1] \/ s = [1; 0]) -> (t = [0; 1] \/ t = [1; 0]) -> pearson s t = Some (if list_eq_dec Req_EM_T s t then 1 else -1).
Proof.
  assert (A1 : Rabs (0 - 1) = 1) by (rewrite Rabs_left; lra). assert (A2 : Rabs (1 - 0) = 1) by (rewrite Rabs_right; lra).
  assert (C1 : clamp 1 = 1) by (unfold clamp; destruct (Rlt_dec 1 (-1)); [lra|]; destruct (Rlt_dec 1 1); lra). assert (C2 : clamp (-1) = -1) by (unfold clamp; destruct (Rlt_dec (-1) (-1)); [lra|]; destruct (Rlt_dec 1 (-1)); lra).
  assert (N1 : [0; 1] <> [1; 0]) by (intros E; assert (0 = 1) by congruence; lra). assert (N2 : [1; 0] <> [0; 1]) by (intros E; apply N1; symmetry; exact E).
  intros [-> | ->] [-> | ->]; unfold pearson; cbv zeta; rewrite !std_two, ?A1, ?A2; (destruct (Req_EM_T (1 / 2 * (1 / 2)) 0); [exfalso; lra|]); destruct (list_eq_dec _ _ _) as [E|E]; try contradiction; f_equal; unfold center, mean; cbn [map vsum vmul List.length INR];
    match goal with |- clamp ?x = 1 => replace x with 1 by field; exact C1 | |- clamp ?x = -1 => replace x with (-1) by field; exact C2 end.
Qed.
Lemma line_singular m P C i j s : (i < m)%nat -> (j < m)%nat -> i <> j -> (forall k, (k < m)%nat -> C k i = s * C k j) -> ~ inverts m P C.
Proof.
  intros Hi Hj Ne E I. assert (A := I i i Hi Hi). assert (B := I i j Hi Hj). destruct (Nat.eq_dec i i) as [_|]; [|contradiction]. destruct (Nat.eq_dec i j) as [|_]; [contradiction|].
  rewrite (sumn_ext m _ (fun k => s * (P i k * C k j))) in A by (intros k Hk; rewrite (E k Hk); ring). rewrite sumn_scale, B in A. lra.
Qed.
Lemma center_two s : s = [0; 1] \/ s = [1; 0] -> exists e, (e = 1 \/ e = -1) /\ center s = [- (1 / 2) * e; 1 / 2 * e] /\ List.length s = 2%nat.
Proof. intros [-> | ->]; [exists 1|exists (-1)]; (split; [auto|split; [|reflexivity]]); unfold center, mean; cbn [map vsum List.length INR]; repeat (f_equal; try field). Qed.
Definition sign_code (o : option R) : Z := match o with Some r => if Req_EM_T r 1 then 1%Z else if Req_EM_T r (-1) then (-1)%Z else 0%Z | None => 0%Z end.
(* two observations: correlations are 1 or -1 *)
Definition two_rows : numerics := mkNum (fun xs ys => Ok (if list_eq_dec Z.eq_dec xs ys then 1 else -1)%Z) (fun _ c => if Z.eqb c 1 then Err ZeroDivisionError else Err ValueError) (fun _ _ _ _ _ => Ok None)
  (fun _ => Ok None) (fun _ _ _ => Ok false) (fun _ _ _ => Ok 0%Z).
Lemma two_rows_exact Phi th vals ns : (forall x, In x ns -> vals x = [0; 1]%Z \/ vals x = [1; 0]%Z) -> (forall x, In x ns -> x = "a" \/ x = "b") -> exact_all IZR sign_code Phi th 2 (Ok None) (Ok None) vals ns two_rows.
Proof.
  intros V AB. assert (M : forall x, In x ns -> map IZR (vals x) = [0; 1] \/ map IZR (vals x) = [1; 0]) by (intros x Hx; destruct (V x Hx) as [-> | ->]; auto).
  assert (C : forall x y, In x ns -> In y ns -> sign_code (pearson (map IZR (vals x)) (map IZR (vals y))) = (if list_eq_dec Z.eq_dec (vals x) (vals y) then 1 else -1)%Z /\
    (pearson (map IZR (vals x)) (map IZR (vals y)) = Some (if list_eq_dec Z.eq_dec (vals x) (vals y) then 1 else -1))).
  { intros x y Hx Hy. assert (E : pearson (map IZR (vals x)) (map IZR (vals y)) = Some (if list_eq_dec Z.eq_dec (vals x) (vals y) then 1 else -1)).
    { rewrite (pearson_two _ _ (M x Hx) (M y Hy)). f_equal. destruct (list_eq_dec Z.eq_dec (vals x) (vals y)) as [E|E], (list_eq_dec Req_EM_T _ _) as [F|F]; try reflexivity; exfalso; [apply F; congruence|].
      apply E. destruct (V x Hx) as [H1|H1], (V y Hy) as [H2|H2]; rewrite H1, H2 in *; try reflexivity; cbn in F; exfalso; assert (G := f_equal (fun l => nth 0 l 0) F); cbn in G; lra. }
    split; [|exact E]. rewrite E. cbn [sign_code]. destruct (list_eq_dec Z.eq_dec (vals x) (vals y)); [destruct (Req_EM_T 1 1); [reflexivity|lra]|destruct (Req_EM_T (-1) 1); [lra|]; destruct (Req_EM_T (-1) (-1)); [reflexivity|lra]]. }
  split.
  - intros x y Hx Hy. rewrite (proj1 (C x y Hx Hy)). reflexivity.
  - intros x y Hx Hy Ne. destruct (C x y Hx Hy) as [-> ->]. cbn [two_rows n_corr_test]. destruct (list_eq_dec _ _ _); unfold fisher_py; cbn [Z.eqb Pos.eqb].
    + destruct (Req_EM_T (1 - 1) 0); [reflexivity|lra].
    + destruct (Req_EM_T (1 - -1) 0); [lra|]. replace ((1 + -1) / (1 - -1)) with 0 by field. destruct (Rle_dec 0 0); [reflexivity|lra].
  - intros k x y z Hx Hy Hz ND. exfalso. inversion ND as [|? ? I1 N1]; subst. inversion N1 as [|? ? I2 _]; subst. destruct (AB x Hx), (AB y Hy), (AB z Hz); subst; cbn in *; tauto.
  - intros l P Al L2 I. exfalso. revert I. destruct l as [|x [|y l]]; cbn in L2; try lia.
    destruct (center_two _ (M x (Al x (or_introl eq_refl)))) as (e & He & Ce & _), (center_two _ (M y (Al y (or_intror (or_introl eq_refl))))) as (f & Hf & Cf & _).
    apply (line_singular _ _ _ 0%nat 1%nat (e * f)); [cbn; lia|cbn; lia|lia|]. intros k Hk. unfold cov. cbn [map nth]. rewrite Ce, Cf.
    match goal with |- context[dot ?w [_; _]] => assert (Ew : exists h, w = [- (1 / 2) * h; 1 / 2 * h]) end.
    { assert (Ik : In (nth k (map (fun v => map IZR (vals v)) (x :: y :: l)) []) (map (fun v => map IZR (vals v)) (x :: y :: l))) by (apply nth_In; rewrite map_length; exact Hk).
      apply in_map_iff in Ik. destruct Ik as (v & Ev & Iv). destruct (center_two _ (M v (Al v Iv))) as (h & _ & Eh & _). exists h. rewrite Ev in Eh. exact Eh. }
    destruct Ew as (h & ->). assert (F2 : f * f = 1) by (destruct Hf as [-> | ->]; lra).
    assert (D : dot [- (1 / 2) * h; 1 / 2 * h] [- (1 / 2) * e; 1 / 2 * e] = e * f * dot [- (1 / 2) * h; 1 / 2 * h] [- (1 / 2) * f; 1 / 2 * f]) by (unfold dot; cbn [vmul vsum]; transitivity (/ 2 * h * e * (f * f)); [rewrite F2; field|field]).
    rewrite D. unfold Rdiv. ring.
  - intros l Al L2 No. reflexivity.
Qed.
End Exception.
Definition alike : rawdata := DDict [("a", [Some 0; Some 1]); ("b", [Some 0; Some 1])]%Z.
Definition opposed : rawdata := DDict [("a", [Some 0; Some 1]); ("b", [Some 1; Some 0])]%Z.
(* Which exception is raised does depend on the sign: a correlation of 1 divides by zero, one of -1 takes the logarithm of 0. *)
Theorem C109_exception_refuted : exists d d' g0 g0' N, start_graph d = Ok g0 /\ start_graph d' = Ok g0' /\ dkeys (nodes g0') = dkeys (nodes g0) /\ remade IZR 2 g0 g0' /\
  (forall Phi th, exact_all IZR sign_code Phi th 2 (Ok None) (Ok None) (values_of g0) (dkeys (nodes g0)) N /\ exact_all IZR sign_code Phi th 2 (Ok None) (Ok None) (values_of g0') (dkeys (nodes g0')) N) /\
  snd (execute_pipeline 5 (batch_runner no_hooks) no_hooks (pc dedup N) g0) = Err ZeroDivisionError /\ snd (execute_pipeline 5 (batch_runner no_hooks) no_hooks (pc dedup N) g0') = Err ValueError.
Proof.
  exists alike, opposed. destruct (start_graph alike) as [g0|] eqn:S; [|vm_compute in S; discriminate S]. destruct (start_graph opposed) as [g0'|] eqn:S'; [|vm_compute in S'; discriminate S'].
  assert (G0 : g0 = match start_graph alike with Ok h => h | Err _ => empty_graph end) by (rewrite S; reflexivity). assert (G0' : g0' = match start_graph opposed with Ok h => h | Err _ => empty_graph end) by (rewrite S'; reflexivity). vm_compute in G0, G0'. clear S S'.
  exists g0, g0', two_rows.
  assert (V : values_of g0 "a" = [0; 1]%Z /\ values_of g0 "b" = [0; 1]%Z /\ dkeys (nodes g0) = ["a"; "b"]) by (rewrite G0; repeat split; reflexivity).
  assert (V' : values_of g0' "a" = [0; 1]%Z /\ values_of g0' "b" = [1; 0]%Z /\ dkeys (nodes g0') = ["a"; "b"]) by (rewrite G0'; repeat split; reflexivity).
  destruct V as (Va & Vb & K), V' as (Va' & Vb' & K').
  split; [reflexivity|]. split; [reflexivity|]. split; [congruence|]. split; [|split; [|split; [rewrite G0|rewrite G0']; vm_compute; reflexivity]].
  - exists [0; 1]%nat. split; [reflexivity|]. intros x Hx. rewrite K in Hx. destruct Hx as [<-|[<-|[]]].
    + rewrite Va, Va'. split; [reflexivity|]. exists 1%R, 0%R. split; [lra|]. cbn. repeat (f_equal; [lra|]). f_equal; lra.
    + rewrite Vb, Vb'. split; [reflexivity|]. exists (-1)%R, 1%R. split; [lra|]. cbn. repeat (f_equal; [lra|]). f_equal; lra.
  - intros Phi th. split; apply two_rows_exact; intros x Hx; [rewrite K in Hx|rewrite K in Hx|rewrite K' in Hx|rewrite K' in Hx]; destruct Hx as [<-|[<-|[]]]; auto.
Qed.
Print Assumptions C109_exception_refuted.

(* ---- an example without exceptions: a correlation of 3/5, turned into one of -3/5 ---- *)
Section Fifths.
Open Scope R_scope.
Lemma four_std x : x = [0; 1; 2; 3] \/ x = [1; 0; 3; 2] \/ x = [2; 3; 0; 1] -> std x = sqrt (5 / 4).
Proof. intros [-> | [-> | ->]]; unfold std, center, mean; cbn [map vsum vmul List.length INR]; f_equal; field. Qed.
Lemma five_pearson y s : y = [1; 0; 3; 2] /\ s = 3 / 5 \/ y = [2; 3; 0; 1] /\ s = - (3 / 5) -> pearson [0; 1; 2; 3] y = Some s /\ pearson y [0; 1; 2; 3] = Some s.
Proof.
  assert (Q : sqrt (5 / 4) * sqrt (5 / 4) = 5 / 4) by (apply sqrt_sqrt; lra).
  assert (Cl : forall c, -1 <= c <= 1 -> clamp c = c) by (intros c Hc; unfold clamp; destruct (Rlt_dec c (-1)); [lra|]; destruct (Rlt_dec 1 c); lra).
  intros H. assert (Sy : std y = sqrt (5 / 4)) by (apply four_std; destruct H as [[-> _]|[-> _]]; auto).
  unfold pearson. cbv zeta. rewrite Sy, (four_std [0; 1; 2; 3]) by auto. rewrite Q. destruct (Req_EM_T (5 / 4) 0); [lra|].
  destruct H as [[-> ->]|[-> ->]]; (split; f_equal; unfold center, mean; cbn [map vsum vmul List.length INR]; match goal with |- clamp ?x = ?y => replace x with y by field; apply Cl; lra end).
Qed.
Definition code5 (o : option R) : Z := match o with Some r => if Req_EM_T r (3 / 5) then 1%Z else if Req_EM_T r (- (3 / 5)) then 2%Z else 0%Z | None => 0%Z end.
Variables (Phi : R -> R) (th : R).
Definition exact5 : numerics := mkNum (fun x y => Ok (code5 (pearson (map IZR x) (map IZR y)))) (fun _ c => fisher_py Phi th 4 0 (Some (if Z.eqb c 1 then 3 / 5 else - (3 / 5)))) (fun _ _ _ _ _ => Ok None)
  (n_matrix (exact2 Phi th 4 (Err ValueError))) (fun _ _ _ => Ok false) (fun _ _ _ => Ok 0%Z).
Lemma exact5_exact vals ns w : (w = [1; 0; 3; 2] \/ w = [2; 3; 0; 1])%Z -> vals "a" = [0; 1; 2; 3]%Z -> vals "b" = w -> ns = ["a"; "b"] -> exact_all IZR code5 Phi th 4 (Ok None) (Err ValueError) vals ns exact5.
Proof.
  intros Hw Va Vb ->. assert (I2 : forall x, In x ["a"; "b"] -> x = "a" \/ x = "b") by (intros x [<-|[<-|[]]]; auto).
  set (cols := fun v : list Z => v = [0; 1; 2; 3]%Z \/ v = w). assert (Vc : forall x, In x ["a"; "b"] -> cols (vals x)) by (intros x Hx; destruct (I2 x Hx) as [-> | ->]; [left; exact Va|right; exact Vb]).
  assert (E2 : exact_on IZR to_code Phi th 4 (Ok None) (Err ValueError) cols (exact2 Phi th 4 (Err ValueError))).
  { apply (exact2_exact Phi th 4 (Err ValueError) [0; 1; 2; 3]%Z w cols); [lia|]. intros x [-> | ->]; (split; [|auto]); [reflexivity|destruct Hw as [-> | ->]; reflexivity]. }
  assert (P5 : exists s, (s = 3 / 5 \/ s = - (3 / 5)) /\ pearson (map IZR (vals "a")) (map IZR (vals "b")) = Some s /\ pearson (map IZR (vals "b")) (map IZR (vals "a")) = Some s).
  { rewrite Va, Vb. destruct Hw as [-> | ->]; [exists (3 / 5)|exists (- (3 / 5))]; (split; [auto|apply five_pearson; auto]). }
  assert (In2 : forall l v, (forall x, In x l -> In x ["a"; "b"]) -> In v (map vals l) -> cols v) by (intros l v Al Hv; apply in_map_iff in Hv; destruct Hv as (x & <- & Hx); auto).
  split.
  - intros x y _ _. reflexivity.
  - intros x y Hx Hy Ne. destruct P5 as (s & Hs & P1 & P2). assert (E : pearson (map IZR (vals x)) (map IZR (vals y)) = Some s) by (destruct (I2 x Hx) as [-> | ->], (I2 y Hy) as [-> | ->]; try contradiction; assumption).
    rewrite E. cbn [exact5 n_corr_test code5]. do 2 f_equal. destruct (Req_EM_T s (3 / 5)) as [->|F]; [reflexivity|]. destruct Hs as [->|Hs]; [contradiction|]. destruct (Req_EM_T s (- (3 / 5))); [cbn; congruence|contradiction].
  - intros k x y z Hx Hy Hz ND. exfalso. inversion ND as [|? ? I1 N1]; subst. inversion N1 as [|? ? J2 _]; subst. destruct (I2 x Hx), (I2 y Hy), (I2 z Hz); subst; cbn in *; tauto.
  - intros l P Al L2 I. cbn [exact5 n_matrix]. rewrite <- map_map with (f := vals) (g := map IZR) in I. assert (E := ex_matrix _ _ _ _ _ _ _ _ _ E2 (map vals l) P (fun v => In2 l v Al)). rewrite map_length in E. exact (E L2 I).
  - intros l Al L2 No. cbn [exact5 n_matrix]. rewrite <- map_map with (f := vals) (g := map IZR) in No. assert (E := ex_singular _ _ _ _ _ _ _ _ _ E2 (map vals l) (fun v => In2 l v Al)). rewrite map_length in E. exact (E L2 No).
Qed.
End Fifths.
Definition rising : rawdata := DDict [("a", [Some 0; Some 1; Some 2; Some 3]); ("b", [Some 1; Some 0; Some 3; Some 2])]%Z.
Definition falling : rawdata := DDict [("a", [Some 0; Some 1; Some 2; Some 3]); ("b", [Some 2; Some 3; Some 0; Some 1])]%Z.
Example C109_nonvacuous : forall Phi th, exists g0 g0', start_graph rising = Ok g0 /\ start_graph falling = Ok g0' /\ dkeys (nodes g0') = dkeys (nodes g0) /\ remade IZR 4 g0 g0' /\
  exact_all IZR code5 Phi th 4 (Ok None) (Err ValueError) (values_of g0) (dkeys (nodes g0)) (exact5 Phi th) /\ exact_all IZR code5 Phi th 4 (Ok None) (Err ValueError) (values_of g0') (dkeys (nodes g0')) (exact5 Phi th) /\
  pearson (map IZR (values_of g0 "a")) (map IZR (values_of g0 "b")) = Some (3 / 5)%R /\ pearson (map IZR (values_of g0' "a")) (map IZR (values_of g0' "b")) = Some (- (3 / 5))%R.
Proof.
  intros Phi th. destruct (start_graph rising) as [g0|] eqn:S; [|vm_compute in S; discriminate S]. destruct (start_graph falling) as [g0'|] eqn:S'; [|vm_compute in S'; discriminate S'].
  vm_compute in S, S'. injection S as S. injection S' as S'. exists g0, g0'.
  assert (V : values_of g0 "a" = [0; 1; 2; 3]%Z /\ values_of g0 "b" = [1; 0; 3; 2]%Z /\ dkeys (nodes g0) = ["a"; "b"]) by (rewrite <- S; repeat split; reflexivity).
  assert (V' : values_of g0' "a" = [0; 1; 2; 3]%Z /\ values_of g0' "b" = [2; 3; 0; 1]%Z /\ dkeys (nodes g0') = ["a"; "b"]) by (rewrite <- S'; repeat split; reflexivity). clear S S'.
  destruct V as (Va & Vb & K), V' as (Va' & Vb' & K'). split; [reflexivity|]. split; [reflexivity|]. split; [congruence|]. split; [|split; [|split; [|split]]].
  - exists [0; 1; 2; 3]%nat. split; [reflexivity|]. intros x Hx. rewrite K in Hx. destruct Hx as [<-|[<-|[]]].
    + rewrite Va, Va'. split; [reflexivity|]. exists 1%R, 0%R. split; [lra|]. cbn. repeat (f_equal; [lra|]). f_equal; lra.
    + rewrite Vb, Vb'. split; [reflexivity|]. exists (-1)%R, 3%R. split; [lra|]. cbn. repeat (f_equal; [lra|]). f_equal; lra.
  - apply (exact5_exact Phi th _ _ [1; 0; 3; 2]%Z); auto.
  - apply (exact5_exact Phi th _ _ [2; 3; 0; 1]%Z); auto.
  - rewrite Va, Vb. apply five_pearson. auto.
  - rewrite Va', Vb'. apply five_pearson. auto.
Qed.
