(* Estimated effects when columns are recorded in other units and observations are moved or repeated: C116. *)
From Coq Require Import Reals List Lia Lra Permutation.
From Verif Require Import Base PyDict PyDictFacts Graph GraphSpec GraphFacts GraphInv GraphCheck PathSpec Actions ActionFacts ActionMain IndepTests Pipeline Parallel PipeSpec PipeMain2 Construct ConstructFacts
  SampleGen SampleSpec Dag SkelSpec SkelStart Schedules OrientSpec OrientTop PropsPC EffectSpec EffectFacts PropsEffect PropsAgain DataSpec DataFacts DataMain UnitsSpec UnitsFacts PropsData
  Numeric NumericSpec NumericFacts NumericFacts2 PropsNumeric LinearSpec LinearFacts LinearFacts2 LinearFacts3 LinearThree PropsLinear LinearEffectSpec PropsLinearEffect EffectUnitsSpec EffectUnitsFacts.
Import ListNotations.
Open Scope R_scope.

(* C116: two runs on the same observations, in the second of which each is repeated k times, in some order, and every column
   is in units of its own: if the runs draw the same edges at v and the regressions are exact, the estimated effect of u on
   v is the same quantity in the units of v per unit of u. *)
Theorem C116_effects : forall fuel fuel' P P' d d' g0 g0' dec code n k a N l l' g g', start_graph d = Ok g0 -> start_graph d' = Ok g0' -> pool_runner no_hooks P -> pool_runner no_hooks P' ->
  (1 <= k)%nat -> rescaled dec n k a g0 g0' -> exact_effects dec code n (values_of g0) (dkeys (nodes g0)) N -> exact_effects dec code (k * n) (values_of g0') (dkeys (nodes g0')) N ->
  execute_pipeline fuel P no_hooks (l ++ [PStep (effect_step N)]) g0 = (g, Ok tt) -> execute_pipeline fuel' P' no_hooks (l' ++ [PStep (effect_step N)]) g0' = (g', Ok tt) ->
  forall u v, one_way g u v -> one_way g' u v -> (forall p, directed_edge_exists g' p v = directed_edge_exists g p v) -> separable dec n g0 g v ->
  exists beta, stored_effect g u v (code beta) /\ stored_effect g' u v (code (beta * a v / a u)).
Proof.
  intros fuel fuel' P P' d d' g0 g0' dec code n k a N l l' g g' S S' HP HP' Hk (p & Pe & Co) EE EE' Ru Ru' u v O O' Sm (qs & NDq & Hq & Ind).
  destruct (effect_stored fuel P l N d g0 g S HP Ru) as [_ F]. destruct (effect_stored fuel' P' l' N d' g0' g' S' HP' Ru') as [_ F'].
  destruct (F u v O) as (ps & c & ND & Hp & Iv & Ip & Ef & St). destruct (F' u v O') as (ps' & c' & ND' & Hp' & Iv' & Ip' & Ef' & St'). clear F F'.
  set (col := fun w => map dec (values_of g0 w)) in *. set (col' := fun w => map dec (values_of g0' w)) in *.
  assert (Lu : directed_edge_exists g u v = true) by (unfold one_way, only_directed_edge_exists in O; apply andb_true_iff in O; tauto).
  assert (Lv : directed_edge_exists g v v = false). { destruct (directed_edge_exists g v v) eqn:Q; [|reflexivity]. exfalso. assert (Wg := run_wf fuel P (l ++ [PStep (effect_step N)]) g0 (reached_WF _ (start_reached _ _ S)) ltac:(intros q s _ _ _; exact HP)). rewrite Ru in Wg. cbn [fst] in Wg. destruct (live_entry g v v Wg Q) as (e & _ & _ & _ & _ & Ne). exact (Ne eq_refl). }
  assert (NDu : NoDup (u :: ps)) by (constructor; [intros I; apply Hp in I; destruct I as [I _]; exact (I eq_refl)|exact ND]).
  assert (NDu' : NoDup (u :: ps')) by (constructor; [intros I; apply Hp' in I; destruct I as [I _]; exact (I eq_refl)|exact ND']).
  assert (M : forall x, In x (u :: ps) <-> directed_edge_exists g x v = true). { intros x. cbn [In]. rewrite Hp. split; [intros [<-|[_ Q]]; assumption|]. intros Q. destruct (string_dec u x) as [|Ne]; [left; assumption|right; split; [congruence|exact Q]]. }
  assert (M' : forall x, In x (u :: ps') <-> directed_edge_exists g x v = true). { intros x. cbn [In]. rewrite Hp', Sm. split; [intros [<-|[_ Q]]; assumption|]. intros Q. destruct (string_dec u x) as [|Ne]; [left; assumption|right; split; [congruence|exact Q]]. }
  assert (P1 : Permutation (u :: ps) (u :: ps')) by (apply NoDup_Permutation; [assumption|assumption|intros x; rewrite M, M'; reflexivity]).
  assert (P2 : Permutation qs (u :: ps)) by (apply NoDup_Permutation; [assumption|assumption|intros x; rewrite M, Hq; reflexivity]).
  assert (I1 := independent_perm n col qs (u :: ps) NDq P2 Ind). destruct (best n col (u :: ps) (col v) NDu) as [b LS].
  exists (b u).
  assert (Pos : forall w, In w (dkeys (nodes g0)) -> 0 < a w) by (intros w I; apply Co; exact I).
  assert (Cl : forall w, In w (dkeys (nodes g0)) -> col' w = map (fun i => a w * at_ (col w) i) p) by (intros w I; apply Co; exact I).
  assert (L2 := moved_least n k p col col' a Pe (dkeys (nodes g0)) Pos Cl v b (u :: ps) NDu Iv Ip LS).
  assert (I2 := moved_independent n k p col col' a Hk Pe (dkeys (nodes g0)) Pos Cl (u :: ps) NDu Ip I1).
  assert (L3 := least_perm (k * n) (col' v) col' (u :: ps) (u :: ps') _ NDu P1 L2). assert (I3 := independent_perm (k * n) col' (u :: ps) (u :: ps') NDu P1 I2).
  assert (A := EE u ps v (map b (u :: ps))). rewrite A in Ef; [injection Ef as <-|constructor; [rewrite M, Lv; discriminate|exact NDu]|intros z [<-|I]; [exact Iv|apply Ip; exact I]|exact I1|exact LS].
  assert (B := EE' u ps' v (map (fun w => b w * a v / a w) (u :: ps'))). rewrite B in Ef'; [injection Ef' as <-|constructor; [rewrite M', Lv; discriminate|exact NDu']|intros z [<-|I]; [exact Iv'|apply Ip'; exact I]|exact I3|exact L3].
  split; [exact St|exact St'].
Qed.
Print Assumptions C116_effects.
(* The algorithms PC, PCClassic and PCStable do draw the same edges if nothing is repeated, so that what they report is the
   same in all units and for all orders of the rows. *)
Theorem C116_units : forall fuel P P' d d' g0 g0' dec code ecode Phi th n no_inverse no_answer a N so l g g', start_graph d = Ok g0 -> start_graph d' = Ok g0' -> dkeys (nodes g0') = dkeys (nodes g0) ->
  pool_runner no_hooks P -> pool_runner no_hooks P' -> (2 <= n)%nat -> rescaled dec n 1 a g0 g0' ->
  exact_on dec code Phi th n no_inverse no_answer (columns_of g0) N -> exact_on dec code Phi th n no_inverse no_answer (columns_of g0') N ->
  exact_effects dec ecode n (values_of g0) (dkeys (nodes g0)) N -> exact_effects dec ecode n (values_of g0') (dkeys (nodes g0')) N ->
  l = pc so N \/ l = pc_classic so N \/ l = pc_stable so N -> execute_pipeline fuel P no_hooks l g0 = (g, Ok tt) -> execute_pipeline fuel P' no_hooks l g0' = (g', Ok tt) ->
  same_edges g g' /\ forall u v, one_way g u v -> separable dec n g0 g v -> exists beta, stored_effect g u v (ecode beta) /\ stored_effect g' u v (ecode (beta * a v / a u)).
Proof.
  intros fuel P P' d d' g0 g0' dec code ecode Phi th n ni na a N so l g g' S S' K HP HP' Hn R X X' EE EE' L Ru Ru'.
  assert (RT : retold dec n g0 g0').
  { destruct R as (p & Pe & Co). cbn [repeat List.concat] in Pe. rewrite app_nil_r in Pe. exists p. split; [exact Pe|]. intros x I. destruct (Co x I) as (A & B & C). split; [exact B|]. exists (a x), 0. split; [exact A|]. rewrite C. apply map_ext. intros i. ring. }
  assert (SE := C86_pc fuel P P' d d' g0 g0' dec code Phi th n ni na N so l g (Ok tt) g' (Ok tt) S S' K Hn RT X X' L Ru Ru'). split; [exact SE|].
  assert (D : forall x y, directed_edge_exists g' x y = directed_edge_exists g x y) by (intros x y; apply SE).
  assert (L2 : exists l0, l = l0 ++ [PStep (effect_step N)]) by (destruct L as [->|[->| ->]]; eexists; unfold pc, pc_classic, pc_stable; rewrite app_assoc; reflexivity). destruct L2 as [l0 ->].
  intros u v O Sp. apply (C116_effects fuel fuel P P' d d' g0 g0' dec ecode n 1 a N l0 l0 g g' S S' HP HP' (le_n 1) R EE); try assumption.
  - rewrite Nat.mul_1_l. exact EE'.
  - unfold one_way, only_directed_edge_exists in *. rewrite !D. exact O.
  - intros q. apply D.
Qed.
Print Assumptions C116_units.

(* ---- three variables, eight observations: the tables joint, other units with the last row first, and another zero ---- *)
Open Scope string_scope.
Open Scope list_scope.
(* exact routines for tables without linear dependence and without vanishing partial correlations *)
Definition exact3u : numerics := mkNum (n_pearson exact3) (n_corr_test exact3) (n_partial exact3)
  (fun l => if ListDec.NoDup_dec (list_eq_dec Z.eq_dec) l then match l with [x; y] => Ok (Some (Z.eqb (zc x y) 0)) | _ => Ok (Some false) end else Ok None) (n_regress exact3) (fun x zs y => Ok (effect3 x zs y)).
Section Exact3u.
Variable vals : id -> list Z.
Notation colf := (fun v => map IZR (vals v)).
Hypothesis Len : forall v, In v names3 -> List.length (vals v) = 8%nat.
Hypothesis Var : forall v, In v names3 -> (0 < zc (vals v) (vals v))%Z.
Hypothesis Par : forall x y z, In x names3 -> In y names3 -> In z names3 -> NoDup [x; y; z] -> (zc (vals x) (vals y) * zc (vals z) (vals z) <> zc (vals x) (vals z) * zc (vals y) (vals z))%Z.
Hypothesis Inv : forall vs, NoDup vs -> (forall v, In v vs -> In v names3) -> exists P, inverts (List.length vs) P (cov (map colf vs)).
Lemma twice (l : list (list Z)) : ~ NoDup l -> exists x l1 l2 l3, l = l1 ++ x :: l2 ++ x :: l3.
Proof.
  induction l as [|y l IH]; intros H; [destruct (H (NoDup_nil _))|]. destruct (in_dec (list_eq_dec Z.eq_dec) y l) as [I|I].
  - destruct (in_split y l I) as (l2 & l3 & ->). exists y, [], l2, l3. reflexivity.
  - destruct IH as (x & l1 & l2 & l3 & ->); [intros ND; apply H; constructor; assumption|]. exists x, (y :: l1), l2, l3. reflexivity.
Qed.
Lemma twins l P : ~ NoDup l -> ~ inverts (List.length l) P (cov (map (map IZR) l)).
Proof.
  intros ND. destruct (twice l ND) as (x & l1 & l2 & l3 & ->).
  apply (twins_singular _ P _ (List.length l1) (List.length (l1 ++ x :: l2))); [rewrite app_length; cbn [List.length]; lia|rewrite !app_length; cbn [List.length]; rewrite app_length; cbn [List.length]; lia|rewrite app_length; cbn [List.length]; lia|].
  intros k _. unfold cov. do 3 f_equal. rewrite map_app. rewrite app_nth2 by (rewrite map_length; lia). rewrite map_length, Nat.sub_diag. cbn [map nth].
  assert (E : map (map IZR) l1 ++ map IZR x :: map (map IZR) (l2 ++ x :: l3) = map (map IZR) (l1 ++ x :: l2) ++ map IZR x :: map (map IZR) l3) by (rewrite !map_app; cbn [map]; rewrite <- app_assoc; reflexivity). rewrite E, app_nth2 by (rewrite map_length; lia). rewrite map_length, Nat.sub_diag. reflexivity.
Qed.
Lemma named l (cols : list Z -> Prop) : (forall x, cols x -> exists v, In v names3 /\ x = vals v) -> (forall x, In x l -> cols x) -> exists vs, l = map vals vs /\ forall v, In v vs -> In v names3.
Proof.
  intros Cu. induction l as [|x l IH]; intros Al; [exists []; split; [reflexivity|intros v []]|]. destruct (IH ltac:(intros y I; apply Al; right; exact I)) as (vs & -> & H). destruct (Cu x (Al x (or_introl eq_refl))) as (v & I & ->). exists (v :: vs). split; [reflexivity|]. intros w [<-|J]; [exact I|apply H; exact J].
Qed.
Lemma exact3u_on (cols : list Z -> Prop) : (forall x, cols x -> exists v, In v names3 /\ x = vals v) -> exact_on IZR code3 Phi3 (1 / 100) 8 (Ok None) (Ok None) cols exact3u.
Proof.
  intros Cu. split.
  - intros u v Cx Cy. destruct (Cu u Cx) as (x & Ix & ->), (Cu v Cy) as (y & Iy & ->). cbn [exact3u n_pearson exact3]. destruct (pearson (map IZR (vals x)) (map IZR (vals y))) as [r|] eqn:E; [|rewrite (pearson3 vals Len Var x y Ix Iy) in E; discriminate]. assert (H := pearson3_zero vals Len Var x y r Ix Iy E). cbn [code3].
    destruct (Z.eqb_spec (zc (vals x) (vals y)) 0) as [Q|Q], (Req_EM_T r 0) as [W|W]; try reflexivity; exfalso; tauto.
  - intros l P Al L2 I. cbn [exact3u n_matrix]. destruct (ListDec.NoDup_dec _ l) as [ND|ND]; [|destruct (twins l P ND I)]. destruct (named l cols Cu Al) as (vs & -> & Iv). assert (NDv := NoDup_map_inv _ _ ND). rewrite map_map in I. rewrite map_length in *.
    destruct vs as [|x [|y vs]]; cbn [List.length] in L2; try lia. destruct (sets3 x y vs NDv Iv) as [->|[z ->]]; cbn [map List.length] in *.
    + change (cov [map IZR (vals x); map IZR (vals y)]) with (cov (map (fun v => map IZR (vals v)) [x; y])) in I. assert (St := matrix_par_strict 8 (map IZR (vals x)) (map IZR (vals y)) [] P ltac:(lia) (obs3 vals Len [x; y] Iv) I). cbn [List.length] in St.
      cbn [Nat.sub]. rewrite fisher3 by (exact St || lia). cbn [answer]. do 2 f_equal.
      assert (Ix : In x names3) by (apply Iv; left; reflexivity). assert (Iy : In y names3) by (apply Iv; right; left; reflexivity).
      destruct (inverse_two P _ I) as (D & H0 & H1 & H2). assert (Ps : forall i, (i < 2)%nat -> 0 < P i i) by (apply (P_pos 8 2 (/ (INR 8 - 1)) (fun k => at_ (center (nth k [map IZR (vals x); map IZR (vals y)] []))) P (s_pos 8 ltac:(lia))); exact (inv_ip 8 _ [map IZR (vals x); map IZR (vals y)] P ltac:(lia) eq_refl (obs3 vals Len [x; y] Iv) I)).
      assert (P0 := Ps 0%nat ltac:(lia)). assert (P1 := Ps 1%nat ltac:(lia)). assert (Q := Rmult_lt_0_compat _ _ P0 P1). assert (Sq := sqrt_lt_R0 _ Q).
      assert (C01 : cov (map (fun v => map IZR (vals v)) [x; y]) 0%nat 1%nat = IZR (zc (vals x) (vals y)) / 8 / (INR 8 - 1)).
      { unfold cov. cbn [map nth]. rewrite (dot_ip _ _ 8) by (rewrite center_length, map_length; apply Len; assumption). rewrite (zc_R (vals x) (vals y) (Len x Ix) (Len y Iy)), map_length, (Len x Ix). reflexivity. }
      assert (M : matrix_par 2 P = 0 <-> zc (vals x) (vals y) = 0%Z).
      { rewrite matrix_par_plain by (assumption || lia). split.
        - intros Z. unfold Rdiv in Z. apply Rmult_integral in Z. destruct Z as [Z|Z]; [|apply Rinv_neq_0_compat in Z; [destruct Z|lra]]. assert (Z1 : P 0%nat 1%nat = 0) by lra. rewrite Z1 in H1. symmetry in H1. unfold Rdiv in H1. apply Rmult_integral in H1. destruct H1 as [H1|H1]; [|apply Rinv_neq_0_compat in H1; [destruct H1|exact D]].
          rewrite C01 in H1. apply eq_IZR. cbn in H1. lra.
        - intros Z. rewrite Z in C01. rewrite C01 in H1. rewrite H1. unfold Rdiv. ring. }
      destruct (Z.eqb_spec (zc (vals x) (vals y)) 0) as [W|W], (Req_EM_T (matrix_par 2 P) 0) as [V|V]; try reflexivity; exfalso; tauto.
    + destruct (matrix3 vals Len Var Par x y z P NDv Iv I) as [Nz St]. cbn [Nat.sub]. rewrite fisher3 by (exact St || lia). cbn [answer]. destruct (Req_EM_T _ 0); [contradiction|reflexivity].
  - intros l Al L2 No. cbn [exact3u n_matrix]. destruct (ListDec.NoDup_dec _ l) as [ND|ND]; [|reflexivity]. exfalso. destruct (named l cols Cu Al) as (vs & -> & Iv). destruct (Inv vs (NoDup_map_inv _ _ ND) Iv) as [P H]. rewrite map_map, map_length in No. exact (No P H).
Qed.
Lemma exact3u_effects : exact_effects IZR ecode3 8 vals names3 exact3u.
Proof. intros u ps v cs A B C D. exact (effect3_exact vals Len u ps v cs A B C D). Qed.
End Exact3u.
(* a and c in halves, b in thirds, last row first *)
Definition halves : rawdata := DDict [("a", map Some [-2; -2; -2; -2; 2; 2; 2; 2]); ("b", map Some [-3; -3; 3; 3; -3; -3; 3; 3]); ("c", map Some [-6; -2; -2; 2; -2; 2; 2; 6])]%Z.
Definition halves_es : list (sedge R) := [mkSE "a" 0%Z "c" 1; mkSE "b" 0%Z "c" (2 / 3)].
Definition own2 (v : id) : list Z := if eqb v "a" then [-2; -2; -2; -2; 2; 2; 2; 2]%Z else if eqb v "b" then [-3; -3; 3; 3; -3; -3; 3; 3]%Z else [-2; 2; -2; 2; -2; 2; -2; 2]%Z.
Lemma own2_facts : (forall u v, In u names3 -> In v names3 -> u <> v -> zc (own2 u) (own2 v) = 0%Z) /\ (forall v, In v names3 -> zc (own2 v) (own2 v) <> 0%Z).
Proof. split; [intros u v Iu Iv Ne|intros v Iv]; each_name; try contradiction; vm_compute; congruence. Qed.
Lemma halves_facts : start_graph halves = Ok (start halves) /\ dkeys (nodes (start halves)) = names3 /\
  values_of (start halves) "a" = [-2; -2; -2; -2; 2; 2; 2; 2]%Z /\ values_of (start halves) "b" = [-3; -3; 3; 3; -3; -3; 3; 3]%Z /\ values_of (start halves) "c" = [-6; -2; -2; 2; -2; 2; 2; 6]%Z.
Proof. repeat (split; [vm_compute; reflexivity|]). vm_compute. reflexivity. Qed.
Section Halves.
Variable vals : id -> list Z.
Hypothesis Va : vals "a" = [-2; -2; -2; -2; 2; 2; 2; 2]%Z.
Hypothesis Vb : vals "b" = [-3; -3; 3; 3; -3; -3; 3; 3]%Z.
Hypothesis Vc : vals "c" = [-6; -2; -2; 2; -2; 2; 2; 6]%Z.
Lemma halves_linear : linear_data 8 names3 halves_es (fun v => map IZR (vals v)) /\ (forall v, In v names3 -> varies 8 (noise halves_es (fun v => map IZR (vals v)) v)).
Proof.
  destruct own2_facts as [O1 O2]. apply (table_linear halves_es vals own2); [apply dag_by_order; [exact nodup3|reflexivity]|intros v I; each_name; rewrite ?Va, ?Vb, ?Vc; split; reflexivity| |exact O1|exact O2].
  intros v t I Ht. unfold noise. each_name.
  - change (incoming halves_es "a") with (@nil (sedge R)). rewrite Va. change (own2 "a") with [-2; -2; -2; -2; 2; 2; 2; 2]%Z. unfold at_. eight t Ht.
  - change (incoming halves_es "b") with (@nil (sedge R)). rewrite Vb. change (own2 "b") with [-3; -3; 3; 3; -3; -3; 3; 3]%Z. unfold at_. eight t Ht.
  - change (incoming halves_es "c") with halves_es. cbn [halves_es map vsum se_value se_from]. rewrite Va, Vb, Vc. change (own2 "c") with [-2; 2; -2; 2; -2; 2; -2; 2]%Z. unfold at_. eight t Ht.
Qed.
Lemma halves_len : forall v, In v names3 -> List.length (vals v) = 8%nat.
Proof. intros v I. each_name; rewrite ?Va, ?Vb, ?Vc; reflexivity. Qed.
Lemma halves_var : forall v, In v names3 -> (0 < zc (vals v) (vals v))%Z.
Proof. intros v I. each_name; rewrite ?Va, ?Vb, ?Vc; reflexivity. Qed.
Lemma halves_par : forall x y z, In x names3 -> In y names3 -> In z names3 -> NoDup [x; y; z] -> (zc (vals x) (vals y) * zc (vals z) (vals z) <> zc (vals x) (vals z) * zc (vals y) (vals z))%Z.
Proof. intros x y z Ix Iy Iz ND. destruct (distinct3 x y z ND) as (N1 & N2 & N3). clear ND. each_name; try contradiction; rewrite ?Va, ?Vb, ?Vc; vm_compute; congruence. Qed.
End Halves.
Lemma joint_independent vals : vals "a" = [1; 1; 1; 1; -1; -1; -1; -1]%Z -> vals "b" = [1; 1; -1; -1; 1; 1; -1; -1]%Z -> independent_columns 8 (map (fun w => map IZR (vals w)) ["a"; "b"]).
Proof.
  intros Va Vb cs L H. destruct cs as [|x [|y [|z cs]]]; try discriminate L. assert (A := H 0%nat ltac:(lia)). assert (B := H 2%nat ltac:(lia)). unfold lin in A, B. cbn [map List.length sumn nth] in A, B. rewrite Va, Vb in A, B. cbn in A, B.
  intros j Hj. destruct j as [|[|j]]; cbn in Hj |- *; lra || lia.
Qed.
Lemma live_columns fuel P l d g0 g r u v : start_graph d = Ok g0 -> pool_runner no_hooks P -> execute_pipeline fuel P no_hooks l g0 = (g, r) -> directed_edge_exists g u v = true -> In u (dkeys (nodes g0)) /\ In v (dkeys (nodes g0)).
Proof.
  intros S HP E D. assert (X := pipeline_n fuel P no_hooks l g0 HP (reached_WF _ (start_reached _ _ S))). rewrite E in X. destruct X as [W Nn]. cbn [fst] in W, Nn. rewrite <- Nn. destruct (live_entry g u v W D) as (e & _ & _ & A & B & _). rewrite <- !dmem_In. split; assumption.
Qed.
(* the unit of each column *)
Definition unit3 (v : id) : R := if eqb v "b" then 3 else 2.
Example C116_nonvacuous : exists g0 g0' g g', start_graph joint = Ok g0 /\ start_graph halves = Ok g0' /\ dkeys (nodes g0') = dkeys (nodes g0) /\ rescaled IZR 8 1 unit3 g0 g0' /\
  exact_on IZR code3 Phi3 (1 / 100) 8 (Ok None) (Ok None) (columns_of g0) exact3u /\ exact_on IZR code3 Phi3 (1 / 100) 8 (Ok None) (Ok None) (columns_of g0') exact3u /\
  exact_effects IZR ecode3 8 (values_of g0) (dkeys (nodes g0)) exact3u /\ exact_effects IZR ecode3 8 (values_of g0') (dkeys (nodes g0')) exact3u /\
  execute_pipeline 11 (batch_runner no_hooks) no_hooks (pc dedup exact3u) g0 = (g, Ok tt) /\ execute_pipeline 11 (batch_runner no_hooks) no_hooks (pc dedup exact3u) g0' = (g', Ok tt) /\
  one_way g "a" "c" /\ one_way g "b" "c" /\ separable IZR 8 g0 g "c" /\ stored_effect g "a" "c" 1 /\ stored_effect g' "a" "c" 1 /\ stored_effect g "b" "c" 1 /\ stored_effect g' "b" "c" 0.
Proof.
  destruct joint_facts as (S & K & Va & Vb & Vc). destruct halves_facts as (S' & K' & Va' & Vb' & Vc'). destruct (joint_linear (values_of (start joint)) Va Vb Vc) as [LD Vr]. destruct (halves_linear (values_of (start halves)) Va' Vb' Vc') as [LD' Vr'].
  assert (Iv : forall vs, NoDup vs -> (forall v, In v vs -> In v names3) -> exists P, inverts (List.length vs) P (cov (map (fun v => map IZR (values_of (start joint) v)) vs))) by (intros vs N1 N2; exact (C91_invertible 8 names3 joint_es _ vs ltac:(lia) nodup3 LD Vr N1 N2)).
  assert (Iv' : forall vs, NoDup vs -> (forall v, In v vs -> In v names3) -> exists P, inverts (List.length vs) P (cov (map (fun v => map IZR (values_of (start halves) v)) vs))) by (intros vs N1 N2; exact (C91_invertible 8 names3 halves_es _ vs ltac:(lia) nodup3 LD' Vr' N1 N2)).
  destruct (execute_pipeline 11 (batch_runner no_hooks) no_hooks (pc dedup exact3u) (start joint)) as [g r] eqn:Run. assert (G : (g, r) = execute_pipeline 11 (batch_runner no_hooks) no_hooks (pc dedup exact3u) (start joint)) by (symmetry; exact Run). vm_compute in G. injection G as Gg Gr.
  exists (start joint), (start halves), g. eexists. split; [exact S|]. split; [exact S'|]. split; [rewrite K, K'; reflexivity|]. split.
  { exists (rev (seq 0 8)). split; [cbn [repeat List.concat]; rewrite app_nil_r; apply Permutation_sym, Permutation_rev|].
    assert (Ua : unit3 "a" = 2) by reflexivity. assert (Ub : unit3 "b" = 3) by reflexivity. assert (Uc : unit3 "c" = 2) by reflexivity.
    rewrite K. intros v I. each_name; rewrite ?Va, ?Vb, ?Vc, ?Va', ?Vb', ?Vc', ?Ua, ?Ub, ?Uc; (split; [cbn; lra|]); (split; [reflexivity|]); cbn; repeat (apply f_equal2; [lra|]); reflexivity. }
  split; [apply (exact3u_on (values_of (start joint)) (joint_len _ Va Vb Vc) (joint_var _ Va Vb Vc) (joint_par _ Va Vb Vc) Iv); intros x (v & I & ->); rewrite K in I; exists v; split; [exact I|reflexivity]|].
  split; [apply (exact3u_on (values_of (start halves)) (halves_len _ Va' Vb' Vc') (halves_var _ Va' Vb' Vc') (halves_par _ Va' Vb' Vc') Iv'); intros x (v & I & ->); rewrite K' in I; exists v; split; [exact I|reflexivity]|].
  split; [rewrite K; apply exact3u_effects, (joint_len _ Va Vb Vc)|]. split; [rewrite K'; apply exact3u_effects, (halves_len _ Va' Vb' Vc')|].
  split; [rewrite Run, Gr; reflexivity|]. split; [vm_compute; reflexivity|]. split; [rewrite Gg; vm_compute; reflexivity|]. split; [rewrite Gg; vm_compute; reflexivity|].
  split; [|rewrite Gg; repeat (split; [eexists; split; vm_compute; reflexivity|]); eexists; split; vm_compute; reflexivity].
  exists ["a"; "b"]. split; [repeat constructor; cbn; intuition discriminate|]. split; [|exact (joint_independent (values_of (start joint)) Va Vb)].
  intros p. split; [intros [<-|[<-|[]]]; rewrite Gg; vm_compute; reflexivity|]. intros D. assert (Ip : In p names3) by (rewrite <- K; exact (proj1 (live_columns _ _ _ _ _ _ _ _ _ S (batch_pool no_hooks) Run D))). rewrite Gg in D. each_name; [left; reflexivity|right; left; reflexivity|]. vm_compute in D. discriminate D.
Qed.


(* The zero of the scale does matter, because the regression has no intercept: with 1 added to a and 2 added to c the same
   edges are found, but another effect of a on c. *)
Theorem C116_shift_refuted : exists d d' g0 g0' N g g', start_graph d = Ok g0 /\ start_graph d' = Ok g0' /\ dkeys (nodes g0') = dkeys (nodes g0) /\ retold IZR 8 g0 g0' /\
  exact_on IZR code3 Phi3 (1 / 100) 8 (Ok None) (Ok None) (columns_of g0) N /\ exact_on IZR code3 Phi3 (1 / 100) 8 (Ok None) (Ok None) (columns_of g0') N /\
  exact_effects IZR ecode3 8 (values_of g0) (dkeys (nodes g0)) N /\ exact_effects IZR ecode3 8 (values_of g0') (dkeys (nodes g0')) N /\
  execute_pipeline 11 (batch_runner no_hooks) no_hooks (pc dedup N) g0 = (g, Ok tt) /\ execute_pipeline 11 (batch_runner no_hooks) no_hooks (pc dedup N) g0' = (g', Ok tt) /\ same_edges g g' /\
  one_way g "a" "c" /\ stored_effect g "a" "c" 1 /\ stored_effect g' "a" "c" 0.
Proof.
  destruct joint_facts as (S & K & Va & Vb & Vc). destruct shifted_facts as (S' & K' & Va' & Vb' & Vc'). destruct (joint_linear (values_of (start joint)) Va Vb Vc) as [LD Vr]. destruct (shifted_linear (values_of (start shifted)) Va' Vb' Vc') as [LD' Vr'].
  assert (Iv : forall vs, NoDup vs -> (forall v, In v vs -> In v names3) -> exists P, inverts (List.length vs) P (cov (map (fun v => map IZR (values_of (start joint) v)) vs))) by (intros vs N1 N2; exact (C91_invertible 8 names3 joint_es _ vs ltac:(lia) nodup3 LD Vr N1 N2)).
  assert (Iv' : forall vs, NoDup vs -> (forall v, In v vs -> In v names3) -> exists P, inverts (List.length vs) P (cov (map (fun v => map IZR (values_of (start shifted) v)) vs))) by (intros vs N1 N2; exact (C91_invertible 8 names3 joint_es _ vs ltac:(lia) nodup3 LD' Vr' N1 N2)).
  destruct (execute_pipeline 11 (batch_runner no_hooks) no_hooks (pc dedup exact3u) (start joint)) as [g r] eqn:Run. assert (G : (g, r) = execute_pipeline 11 (batch_runner no_hooks) no_hooks (pc dedup exact3u) (start joint)) by (symmetry; exact Run). vm_compute in G. injection G as Gg Gr.
  destruct (execute_pipeline 11 (batch_runner no_hooks) no_hooks (pc dedup exact3u) (start shifted)) as [g' r'] eqn:Run'. assert (G : (g', r') = execute_pipeline 11 (batch_runner no_hooks) no_hooks (pc dedup exact3u) (start shifted)) by (symmetry; exact Run'). vm_compute in G. injection G as Gg' Gr'.
  assert (X1 : exact_on IZR code3 Phi3 (1 / 100) 8 (Ok None) (Ok None) (columns_of (start joint)) exact3u) by (apply (exact3u_on (values_of (start joint)) (joint_len _ Va Vb Vc) (joint_var _ Va Vb Vc) (joint_par _ Va Vb Vc) Iv); intros x (v & I & ->); rewrite K in I; exists v; split; [exact I|reflexivity]).
  assert (X2 : exact_on IZR code3 Phi3 (1 / 100) 8 (Ok None) (Ok None) (columns_of (start shifted)) exact3u) by (apply (exact3u_on (values_of (start shifted)) (shifted_len _ Va' Vb' Vc') (shifted_var _ Va' Vb' Vc') (shifted_par _ Va' Vb' Vc') Iv'); intros x (v & I & ->); rewrite K' in I; exists v; split; [exact I|reflexivity]).
  assert (RT : retold IZR 8 (start joint) (start shifted)).
  { exists (seq 0 8). split; [apply Permutation_refl|]. rewrite K. intros v I. each_name; rewrite ?Va, ?Vb, ?Vc, ?Va', ?Vb', ?Vc'; (split; [reflexivity|]).
    - exists 1, 1. split; [lra|]. cbn. repeat (apply f_equal2; [lra|]). reflexivity.
    - exists 1, 0. split; [lra|]. cbn. repeat (apply f_equal2; [lra|]). reflexivity.
    - exists 1, 2. split; [lra|]. cbn. repeat (apply f_equal2; [lra|]). reflexivity. }
  assert (KK : dkeys (nodes (start shifted)) = dkeys (nodes (start joint))) by (rewrite K, K'; reflexivity).
  exists joint, shifted, (start joint), (start shifted), exact3u, g, g'. split; [exact S|]. split; [exact S'|]. split; [exact KK|]. split; [exact RT|]. split; [exact X1|]. split; [exact X2|].
  split; [rewrite K; apply exact3u_effects, (joint_len _ Va Vb Vc)|]. split; [rewrite K'; apply exact3u_effects, (shifted_len _ Va' Vb' Vc')|].
  split; [rewrite Run, Gr; reflexivity|]. split; [rewrite Run', Gr'; reflexivity|].
  split; [exact (C86_pc 11 _ _ joint shifted _ _ IZR code3 Phi3 (1 / 100) 8 (Ok None) (Ok None) exact3u dedup _ g r g' r' S S' KK ltac:(lia) RT X1 X2 (or_introl eq_refl) Run Run')|].
  rewrite Gg, Gg'. split; [vm_compute; reflexivity|]. split; eexists; split; vm_compute; reflexivity.
Qed.
Print Assumptions C116_shift_refuted.
