(* What the skeleton phase keeps and removes, whatever the tests answer: C87, C88. *)
From Verif Require Import Base PyDict PyDictFacts Graph GraphSpec GraphFacts GraphInv GraphQ PathSpec Actions ActionSpec Generators GenSpec GenFacts Rules IndepTests Pipeline Parallel
  PipeSpec PipeFacts PipeMain PipeMain2 GraphCheck Construct Dag SkelSpec Serve SkelFacts SkelStart SkelSteps SkelTop Schedules Toy TotalSpec TotalFacts TotalMain TestedSpec TestedFacts TestedMain.
Open Scope string_scope.
Open Scope list_scope.
Open Scope nat_scope.

(* C87: for every two variables without an edge after the skeleton phase, the recorded separator is a set of
   other variables given which one of the tests found them independent *)
Theorem C87_removed : forall fuel P so N b sks d g0 g, start_graph d = Ok g0 -> set_order so -> skeleton_of P so N b sks ->
  execute_pipeline fuel P no_hooks sks g0 = (g, Ok tt) ->
  forall x y, In x (dkeys (nodes g0)) -> In y (dkeys (nodes g0)) -> x <> y -> edge_exists g x y = false ->
  exists S, recorded_separator g x y S /\ other_variables g0 x y S /\ found_independent N g0 b x y S.
Proof.
  intros fuel P so N b sks d g0 g S0 SO A R x y Hx Hy Ne L. assert (CP := complete_start d g0 S0).
  destruct (top fuel P so N g0 CP SO b sks g A R) as (PF & K & _). apply dmem_In in Hx, Hy. rewrite (skel_ee _ _ _ _ g x y K) in L.
  destruct (sk_gone _ _ _ _ _ K x y Hx Hy Ne L) as (u & v & S & H & _ & ((G1 & G2 & G3 & _) & ND & F)). exists S.
  split; [exists (separated u v S); eexists; split; [|split; reflexivity]|].
  { unfold retrieve_edge_history. change (filter _ _) with (removals (history g (x, y))) || idtac. unfold history, removals in H. destruct (dget (ehist g) (x, y)); cbn in *; [f_equal; exact H|discriminate]. }
  split; [|exact F]. split; [constructor; [intros [->|I]; [congruence|contradiction]|constructor; assumption]|]. intros z Hz. apply dmem_In. exact (G1 z Hz).
Qed.
Print Assumptions C87_removed.

(* no edge survives a test that was bound to be asked *)
Theorem C87_kept : forall fuel P so N b sks d g0 g, start_graph d = Ok g0 -> set_order so -> skeleton_of P so N b sks ->
  execute_pipeline fuel P no_hooks sks g0 = (g, Ok tt) ->
  forall x y, edge_exists g x y = true ->
  (earlier g0 x y -> ~ corr_answer N g0 x y true) /\
  (b = true -> forall z, edge_exists g x z = true -> edge_exists g y z = true -> earlier g0 x y -> answers_triple N g0 x y z ->
     ~ partial_answer N g0 x y z (Some true)) /\
  (forall S, other_variables g0 x y S -> (forall z, In z S -> edge_exists g x z = true) -> (if b then 2 else 1) <= List.length S ->
     ~ always_independent N g0 x y S).
Proof.
  intros fuel P so N b sks d g0 g S0 SO A R x y L. assert (CP := complete_start d g0 S0).
  destruct (top fuel P so N g0 CP SO b sks g A R) as (PF & K & D). assert (EE := fun u v => skel_ee _ _ _ _ g u v K). rewrite EE in L.
  destruct (skel_dee_nodes _ _ _ _ g x y K L) as (Hx & Hy & Ne).
  split; [|split].
  - intros B T. destruct (D [(x, y)]) as (p & [<-|[]] & G); [|unfold gone in G; cbn in G; congruence].
    destruct b; cbn; [left; left|left]; apply (kc_of N g0 CP PF); assumption.
  - intros -> z Lx Ly B An T. rewrite EE in Lx, Ly. destruct (D [(x, y); (x, z); (y, z)]) as (p & Hp & G); [left; right; apply (kp_of N g0 CP PF); assumption|].
    unfold gone in G. destruct Hp as [<-|[<-|[<-|[]]]]; cbn in G; congruence.
  - intros S OV LS Ln Al. destruct (D (star x y S)) as (p & Hp & G).
    + destruct b; cbn; right; apply km_of; try assumption; lia.
    + unfold gone in G. destruct Hp as [<-|Hp]; [cbn in G; congruence|]. apply in_map_iff in Hp. destruct Hp as (z & <- & Hz). cbn in G. rewrite <- EE, (LS z Hz) in G. discriminate.
Qed.
Print Assumptions C87_kept.

(* C88: PCStable asks all tests on the complete graph, so the conditioning sets range over all other variables *)
Theorem C88_stable_kept : forall fuel P so N d g0 g, start_graph d = Ok g0 -> set_order so ->
  execute_pipeline fuel P no_hooks (pc_stable_skeleton so N) g0 = (g, Ok tt) ->
  forall x y, edge_exists g x y = true ->
  (earlier g0 x y -> ~ corr_answer N g0 x y true) /\
  (forall z, earlier g0 x y -> answers_triple N g0 x y z -> ~ partial_answer N g0 x y z (Some true)) /\
  (forall S, other_variables g0 x y S -> 2 <= List.length S -> ~ always_independent N g0 x y S).
Proof.
  intros fuel P so N d g0 g S0 SO R x y L. assert (CP := complete_start d g0 S0).
  destruct (top_stable fuel P so N g0 CP SO g R) as (PF & K & D). rewrite (skel_ee _ _ _ _ g x y K) in L.
  destruct (skel_dee_nodes _ _ _ _ g x y K L) as (Hx & Hy & Ne).
  assert (NO : forall r, ~ kept_list N g0 true ((x, y) :: r)).
  { intros r Kr. destruct (D [(x, y)]) as (p & [<-|[]] & G); [exists (x, y), r; auto|]. unfold gone in G; cbn in G; congruence. }
  split; [|split].
  - intros B T. apply (NO []). left; left. apply (kc_of N g0 CP PF); assumption.
  - intros z B An T. apply (NO [(x, z); (y, z)]). left; right. apply (kp_of N g0 CP PF); assumption.
  - intros S OV Ln Al. apply (NO (map (fun z => (x, z)) S)). right. apply (km_of N g0 4 x y S Hx Hy OV); [lia|exact Al].
Qed.
Print Assumptions C88_stable_kept.

(* exactly the pairs independent by the values of the data lose their edge *)
Theorem C88_stable : forall fuel P so N d g0 g, start_graph d = Ok g0 -> set_order so -> regular_tests N (dkeys (nodes g0)) (values_of g0) ->
  execute_pipeline fuel P no_hooks (pc_stable_skeleton so N) g0 = (g, Ok tt) ->
  forall x y, In x (dkeys (nodes g0)) -> In y (dkeys (nodes g0)) -> x <> y ->
  (edge_exists g x y = false <-> independent_by_values N (dkeys (nodes g0)) (values_of g0) x y).
Proof.
  intros fuel P so N d g0 g S0 SO [RL RP RT RM] R x y Hx Hy Ne. assert (CP := complete_start d g0 S0).
  assert (Co : forall u v a, coefficient N g0 u v a -> n_pearson N (values_of g0 u) (values_of g0 v) = Ok a /\ In u (dkeys (nodes g0)) /\ In v (dkeys (nodes g0)) /\ u <> v).
  { intros u v a H. destruct (coefficient_nodes N g0 CP u v a H) as (Hu & Hv & Nuv). apply dmem_In in Hu, Hv. split; [|auto].
    destruct H as [[_ H]|[_ H]]; [exact H|]. rewrite (RP u v Hu Hv). exact H. }
  destruct (top_stable fuel P so N g0 CP SO g R) as (PF & K & D). split.
  - intros L. destruct (C87_removed fuel P so N true _ d g0 g S0 SO (so_stable P so N) R x y Hx Hy Ne L) as (S & _ & [ND OV] & F).
    assert (PN : forall u v w (H1 : n_pearson N (values_of g0 u) (values_of g0 v) = Ok w), In u (dkeys (nodes g0)) -> In v (dkeys (nodes g0)) -> n_pearson N (values_of g0 v) (values_of g0 u) = Ok w).
    { intros u v w H Hu Hv. rewrite (RP v u Hv Hu). exact H. }
    destruct F as [B (a & Ca & T)|B (a & Ca & T)|z _ B (a & b & c & Ca & Cb & Cc & T)|z _ B (a & b & c & Ca & Cb & Cc & T)|S S' Pm Ln T].
    + left. exists a. split; [apply Co; exact Ca|exact T].
    + left. exists a. split; [apply PN; [apply Co; exact Ca|assumption|assumption]|]. rewrite (RL x y Hx Hy). exact T.
    + right; left. exists z, a, b, c. destruct (Co _ _ _ Ca) as (P1 & _). destruct (Co _ _ _ Cb) as (P2 & _). destruct (Co _ _ _ Cc) as (P3 & _ & Hz & _). split; [exact Hz|]. split; [exact ND|]. auto.
    + right; left. exists z, a, c, b. destruct (Co _ _ _ Ca) as (P1 & _). destruct (Co _ _ _ Cb) as (P2 & _). destruct (Co _ _ _ Cc) as (P3 & _ & Hz & _). split; [exact Hz|]. split; [exact ND|].
      split; [apply PN; assumption|]. split; [exact P3|]. split; [exact P2|]. rewrite (RL x y Hx Hy).
      assert (ND' : NoDup [y; x; z]) by (eapply Permutation_NoDup; [apply perm_swap|exact ND]). rewrite <- (proj1 (RT y x z a b c Hy Hx Hz ND' P1 P2 P3)). exact T.
    + right; right. exists S. split; [exact ND|]. split; [exact OV|]. split; [exact Ln|].
      assert (HI : forall z, In z (x :: y :: S) -> In z (dkeys (nodes g0))) by (intros z [<-|[<-|Hz]]; auto).
      destruct (RM x y S S' HI ND (Permutation_sym Pm)) as [M1 M2]. destruct T as [T|T]; unfold matrix_answer in T; [rewrite M1; exact T|]. rewrite M2.
      assert (ND' : NoDup (y :: x :: S)) by (eapply Permutation_NoDup; [apply perm_swap|exact ND]).
      rewrite (proj1 (RM y x S S' ltac:(intros z [<-|[<-|Hz]]; auto) ND' (Permutation_sym Pm))). exact T.
  - intros I. destruct (edge_exists g x y) eqn:L; [exfalso|reflexivity].
    assert (L' : edge_exists g y x = true) by (rewrite (skel_ee _ _ _ _ g x y K) in L; rewrite (skel_ee _ _ _ _ g y x K); apply (sk_sym _ _ _ _ _ K); exact L).
    destruct (C88_stable_kept fuel P so N d g0 g S0 SO R x y L) as (A1 & A2 & A3). destruct (C88_stable_kept fuel P so N d g0 g S0 SO R y x L') as (B1 & B2 & _).
    assert (Nx := proj2 (dmem_In _ _) Hx). assert (Ny := proj2 (dmem_In _ _) Hy).
    assert (AT : forall u v w, answers_triple N g0 u v w).
    { intros u v w u' v' w' _ _ (a & b & c & Ca & Cb & Cc & T). destruct (Co _ _ _ Ca) as (P1 & U1 & U2 & U3). destruct (Co _ _ _ Cb) as (P2 & _ & U4 & U5). destruct (Co _ _ _ Cc) as (P3 & _ & _ & U6).
      exact (proj2 (RT u' v' w' a b c U1 U2 U4 ltac:(apply three'; assumption) P1 P2 P3) T). }
    assert (CC : forall u v a, In u (dkeys (nodes g0)) -> In v (dkeys (nodes g0)) -> u <> v -> n_pearson N (values_of g0 u) (values_of g0 v) = Ok a -> coefficient N g0 u v a).
    { intros u v a Hu Hv Nuv H. assert (X := corr_coeff N g0 CP u v PF (proj2 (dmem_In _ _) Hu) (proj2 (dmem_In _ _) Hv) Nuv). assert (Y := proj1 (Co _ _ _ X)). rewrite Y in H. injection H as <-. exact X. }
    destruct (pairs_In g0 g0 x y (cp_wf _ CP) eq_refl Nx Ny Ne) as [O|O]; apply ord_before in O;
      (destruct I as [(a & Pa & T)|[(z & a & b & c & Hz & ND & Pa & Pb & Pc & T)|(S & ND & OV & Ln & T)]]).
    + apply (A1 O). exists a. split; [apply CC; assumption|exact T].
    + destruct (three x y z ND) as (_ & N2 & N3). apply (A2 z O (AT _ _ _)). exists a, b, c. repeat (split; [apply CC; assumption|]). exact T.
    + apply (A3 S (conj ND OV) Ln). intros S' Pm. unfold matrix_answer. rewrite <- (proj1 (RM x y S S' ltac:(intros z [<-|[<-|Hz]]; auto) ND (Permutation_sym Pm))). exact T.
    + apply (B1 O). exists a. split; [apply CC; [assumption|assumption|congruence|rewrite (RP y x Hy Hx); exact Pa]|]. rewrite (RL y x Hy Hx). exact T.
    + destruct (three x y z ND) as (_ & N2 & N3). apply (B2 z O (AT _ _ _)). exists a, c, b. split; [apply CC; [assumption|assumption|congruence|rewrite (RP y x Hy Hx); exact Pa]|]. repeat (split; [apply CC; assumption|]).
      rewrite (RL y x Hy Hx). rewrite <- (proj1 (RT x y z a b c Hx Hy Hz ND Pa Pb Pc)). exact T.
    + apply (A3 S (conj ND OV) Ln). intros S' Pm. unfold matrix_answer. rewrite <- (proj1 (RM x y S S' ltac:(intros z [<-|[<-|Hz]]; auto) ND (Permutation_sym Pm))). exact T.
Qed.
Print Assumptions C88_stable.

(* the names of the columns, and with them their order, do not matter *)
Theorem C88_names : forall fuel fuel' P P' so so' N d d' g0 g0' g g' s, start_graph d = Ok g0 -> start_graph d' = Ok g0' -> set_order so -> set_order so' ->
  regular_tests N (dkeys (nodes g0)) (values_of g0) -> renamed s g0 g0' ->
  (forall x y, In x (dkeys (nodes g0)) -> In y (dkeys (nodes g0)) -> s x = s y -> x = y) ->
  execute_pipeline fuel P no_hooks (pc_stable_skeleton so N) g0 = (g, Ok tt) ->
  execute_pipeline fuel' P' no_hooks (pc_stable_skeleton so' N) g0' = (g', Ok tt) ->
  forall x y, In x (dkeys (nodes g0)) -> In y (dkeys (nodes g0)) -> x <> y -> edge_exists g' (s x) (s y) = edge_exists g x y.
Proof.
  intros fuel fuel' P P' so so' N d d' g0 g0' g g' s S0 S0' SO SO' RT [RN RV] Inj R R' x y Hx Hy Ne.
  set (ids := dkeys (nodes g0)) in *. set (ids' := dkeys (nodes g0')) in *.
  assert (Into : forall z, In z ids -> In (s z) ids') by (intros z Hz; eapply Permutation_in; [apply Permutation_sym; exact RN|apply in_map; exact Hz]).
  assert (From : forall z, In z ids' -> exists w, In w ids /\ s w = z).
  { intros z Hz. assert (X := Permutation_in _ RN Hz). apply in_map_iff in X. destruct X as (w & <- & Hw). eauto. }
  assert (FromL : forall l, (forall z, In z l -> In z ids') -> exists m, l = map s m /\ forall z, In z m -> In z ids).
  { induction l as [|z l IH]; intros H; [exists []; split; [reflexivity|intros z []]|]. destruct (From z (H z (or_introl eq_refl))) as (w & Hw & <-).
    destruct (IH (fun u Hu => H u (or_intror Hu))) as (m & -> & Hm). exists (w :: m). split; [reflexivity|]. intros u [<-|Hu]; auto. }
  assert (MapV : forall l, (forall z, In z l -> In z ids) -> map (values_of g0') (map s l) = map (values_of g0) l).
  { intros l Hl. rewrite map_map. apply map_ext_in. intros z Hz. apply RV, Hl, Hz. }
  assert (ND1 : forall l, NoDup (map s l) -> NoDup l) by (intros l; apply NoDup_map_inv).
  assert (ND2 : forall l, (forall z, In z l -> In z ids) -> NoDup l -> NoDup (map s l)).
  { induction l as [|z l IH]; intros Hl ND; [constructor|]. inversion ND as [|? ? N1 ND']; subst. cbn. constructor; [|apply IH; [intros u Hu; apply Hl; right; exact Hu|exact ND']].
    intros H. apply in_map_iff in H. destruct H as (w & Ew & Hw). apply N1. rewrite <- (Inj w z (Hl w (or_intror Hw)) (Hl z (or_introl eq_refl)) Ew). exact Hw. }
  assert (RT' : regular_tests N ids' (values_of g0')).
  { destruct RT as [RL RP RT RM]. constructor.
    - intros u v Hu Hv. destruct (From u Hu) as (u' & Hu' & <-). destruct (From v Hv) as (v' & Hv' & <-). rewrite !RV by assumption. auto.
    - intros u v Hu Hv. destruct (From u Hu) as (u' & Hu' & <-). destruct (From v Hv) as (v' & Hv' & <-). rewrite !RV by assumption. auto.
    - intros u v w a b c Hu Hv Hw ND. destruct (From u Hu) as (u' & Hu' & <-). destruct (From v Hv) as (v' & Hv' & <-). destruct (From w Hw) as (w' & Hw' & <-). rewrite !RV by assumption.
      apply RT; try assumption. exact (ND1 [u'; v'; w'] ND).
    - intros u v S S' HI ND Pm. destruct (FromL (u :: v :: S) HI) as (m & Em & Hm). destruct m as [|u' [|v' m]]; try discriminate. injection Em as -> -> ->.
      apply Permutation_sym, Permutation_map_inv in Pm. destruct Pm as (m' & -> & Pm).
      change (s u' :: s v' :: map s m) with (map s (u' :: v' :: m)) in *. change (s v' :: s u' :: map s m) with (map s (v' :: u' :: m)). change (s u' :: s v' :: map s m') with (map s (u' :: v' :: m')).
      rewrite !MapV; [apply RM; [exact Hm|exact (ND1 _ ND)|exact Pm]| | |exact Hm].
      + intros z [<-|[<-|Hz]]; apply Hm; cbn; auto.
      + intros z [<-|[<-|Hz]]; [apply Hm; cbn; auto|apply Hm; cbn; auto|]. apply Hm. right; right. eapply Permutation_in; [apply Permutation_sym; exact Pm|exact Hz]. }
  assert (X := C88_stable fuel P so N d g0 g S0 SO RT R x y Hx Hy Ne).
  assert (Y := C88_stable fuel' P' so' N d' g0' g' S0' SO' RT' R' (s x) (s y) (Into x Hx) (Into y Hy) (fun h => Ne (Inj x y Hx Hy h))).
  assert (Z : independent_by_values N ids' (values_of g0') (s x) (s y) <-> independent_by_values N ids (values_of g0) x y).
  { unfold independent_by_values. rewrite !RV by assumption. split.
    - intros [H|[(z & a & b & c & Hz & ND & Pa & Pb & Pc & T)|(S & ND & OV & Ln & T)]]; [left; exact H|right; left|right; right].
      + destruct (From z Hz) as (w & Hw & <-). rewrite RV in * by assumption. exists w, a, b, c. split; [exact Hw|]. split; [exact (ND1 [x; y; w] ND)|]. auto.
      + destruct (FromL S OV) as (m & -> & Hm). exists m. split; [exact (ND1 (x :: y :: m) ND)|]. split; [exact Hm|]. rewrite map_length in Ln. split; [exact Ln|].
        rewrite <- (MapV (x :: y :: m)); [exact T|intros z [<-|[<-|Hz]]; auto].
    - intros [H|[(z & a & b & c & Hz & ND & Pa & Pb & Pc & T)|(S & ND & OV & Ln & T)]]; [left; exact H|right; left|right; right].
      + exists (s z), a, b, c. rewrite RV by assumption. split; [auto|]. split; [apply (ND2 [x; y; z]); [intros u [<-|[<-|[<-|[]]]]; assumption|exact ND]|]. auto.
      + exists (map s S). assert (HI : forall z, In z (x :: y :: S) -> In z ids) by (intros z [<-|[<-|Hz]]; auto). split; [exact (ND2 (x :: y :: S) HI ND)|].
        split; [intros z Hz; apply in_map_iff in Hz; destruct Hz as (w & <- & Hw); auto|]. rewrite map_length. split; [exact Ln|].
        change (s x :: s y :: map s S) with (map s (x :: y :: S)). rewrite MapV; assumption. }
  destruct (edge_exists g x y), (edge_exists g' (s x) (s y)); try reflexivity.
  - destruct Y as [Y _]. destruct X as [_ X]. discriminate (X (proj1 Z (Y eq_refl))).
  - destruct X as [X _]. destruct Y as [_ Y]. discriminate (Y (proj2 Z (X eq_refl))).
Qed.
Print Assumptions C88_names.

(* Four variables with the values 1, 2, 3, 4.  2 and 3 are independent; 1 and 2 given 3 and 4; 1 and 3 given 2 and 4. *)
Definition tests4 : numerics := toy (table_ci [(2, 3, []); (1, 2, [3; 4]); (1, 3, [2; 4])]%Z).
Definition data4 : rawdata := DDict [("a", [Some 1%Z]); ("b", [Some 2%Z]); ("c", [Some 3%Z]); ("d", [Some 4%Z])].
(* the same columns, two of them under each other's name *)
Definition data4' : rawdata := DDict [("a", [Some 1%Z]); ("b", [Some 3%Z]); ("c", [Some 2%Z]); ("d", [Some 4%Z])].
Definition swap_bc (x : id) : id := if eqb x "b" then "c" else if eqb x "c" then "b" else x.
Definition start4 (d : rawdata) : graph := match start_graph d with Ok g => g | Err _ => empty_graph end.

Lemma table_perm t x y s s' : Permutation s s' -> table_ci t x y s = table_ci t x y s'.
Proof.
  intros Pm. assert (EX : forall f, existsb f s = existsb f s').
  { intros f. apply eq_true_iff_eq. rewrite !existsb_exists. split; intros (z & Hz & H); exists z; (split; [|exact H]); [eapply Permutation_in; eassumption|eapply Permutation_in; [apply Permutation_sym|]; eassumption]. }
  unfold table_ci. induction t as [|[[a b] l] t IH]; [reflexivity|]. cbn [existsb]. rewrite IH. f_equal. f_equal; [f_equal|].
  - induction l as [|z l IHl]; [reflexivity|]. cbn [forallb]. rewrite EX, IHl. reflexivity.
  - apply eq_true_iff_eq. rewrite !forallb_forall. split; intros H z Hz; apply H; [eapply Permutation_in; [apply Permutation_sym|]; eassumption|eapply Permutation_in; eassumption].
Qed.
Lemma ids4 : dkeys (nodes (start4 data4)) = ["a"; "b"; "c"; "d"]. Proof. vm_compute; reflexivity. Qed.
Lemma vals4 : map (values_of (start4 data4)) ["a"; "b"; "c"; "d"] = [[1]; [2]; [3]; [4]]%Z. Proof. vm_compute; reflexivity. Qed.
Lemma regular4 : regular_tests tests4 (dkeys (nodes (start4 data4))) (values_of (start4 data4)).
Proof.
  assert (V4 := vals4). rewrite ids4. revert V4. generalize (values_of (start4 data4)) as vals. intros vals V4. cbn [map] in V4. injection V4 as Va Vb Vc Vd.
  assert (V : forall x, In x ["a"; "b"; "c"; "d"] -> exists k, vals x = [k]).
  { intros x Hx. destruct Hx as [<-|[<-|[<-|[<-|[]]]]]; eauto. }
  constructor.
  - intros x y Hx Hy. destruct (V x Hx) as (a & ->). destruct (V y Hy) as (b & ->). reflexivity.
  - intros x y Hx Hy. destruct (V x Hx) as (a & ->). destruct (V y Hy) as (b & ->). cbn [tests4 toy n_pearson]. rewrite Z.min_comm, Z.max_comm. reflexivity.
  - intros x y z a b c Hx Hy Hz ND Pa Pb Pc. split; [|discriminate]. destruct (three x y z ND) as (N1 & N2 & N3). clear V ND.
    revert Pa Pb Pc N1 N2 N3. destruct Hx as [<-|[<-|[<-|[<-|[]]]]], Hy as [<-|[<-|[<-|[<-|[]]]]], Hz as [<-|[<-|[<-|[<-|[]]]]]; intros Pa Pb Pc N1 N2 N3;
      try (exfalso; congruence); rewrite ?Va, ?Vb, ?Vc, ?Vd in *; vm_compute in Pa, Pb, Pc; injection Pa as <-; injection Pb as <-; injection Pc as <-; vm_compute; reflexivity.
  - intros x y S S' HI ND Pm. destruct (V x (HI x (or_introl eq_refl))) as (a & Ha). destruct (V y (HI y (or_intror (or_introl eq_refl)))) as (b & Hb).
    cbn [map tests4 toy n_matrix]. rewrite Ha, Hb. cbn [List.concat app]. split; [|rewrite Z.min_comm, Z.max_comm; reflexivity]. f_equal. f_equal. apply table_perm.
    rewrite <- !flat_map_concat_map. apply Permutation_flat_map. exact Pm.
Qed.
Lemma renamed4 : renamed swap_bc (start4 data4) (start4 data4').
Proof.
  split; [vm_compute; constructor; apply perm_swap|]. rewrite ids4. intros x Hx. destruct Hx as [<-|[<-|[<-|[<-|[]]]]]; vm_compute; reflexivity.
Qed.
Lemma swap_inj x y : swap_bc x = swap_bc y -> x = y.
Proof.
  unfold swap_bc. destruct (eqb_spec x "b"), (eqb_spec x "c"), (eqb_spec y "b"), (eqb_spec y "c"); subst; congruence.
Qed.
Example C87_nonvacuous : exists g, start_graph data4 = Ok (start4 data4) /\ skeleton_of (batch_runner no_hooks) dedup tests4 true (pc_skeleton dedup tests4) /\
  execute_pipeline 9 (batch_runner no_hooks) no_hooks (pc_skeleton dedup tests4) (start4 data4) = (g, Ok tt) /\
  edge_exists g "a" "b" = false /\ recorded_separator g "a" "b" ["c"; "d"] /\ found_independent tests4 (start4 data4) true "a" "b" ["c"; "d"] /\
  edge_exists g "a" "d" = true /\ edge_exists g "a" "c" = true /\ edge_exists g "c" "d" = true /\ other_variables (start4 data4) "a" "d" ["c"] /\
  earlier (start4 data4) "a" "d" /\ corr_answer tests4 (start4 data4) "a" "d" false /\ partial_answer tests4 (start4 data4) "a" "d" "c" (Some false) /\
  answers_triple tests4 (start4 data4) "a" "d" "c".
Proof.
  assert (Ca : coefficient tests4 (start4 data4) "a" "d" 104%Z) by (left; split; [exists [], ["b"; "c"], []; vm_compute; reflexivity|vm_compute; reflexivity]).
  eexists. split; [vm_compute; reflexivity|]. split; [constructor|]. split; [vm_compute; reflexivity|]. split; [vm_compute; reflexivity|].
  split; [eexists; eexists; split; [vm_compute; reflexivity|split; reflexivity]|].
  split; [apply (fi_set _ _ _ _ _ _ ["c"; "d"]); [reflexivity|cbn; lia|left; vm_compute; reflexivity]|].
  repeat (split; [vm_compute; reflexivity|]).
  split; [split; [apply three'; discriminate|intros z [<-|[]]; vm_compute; auto]|].
  split; [exists [], ["b"; "c"], []; vm_compute; reflexivity|]. split; [exists 104%Z; split; [exact Ca|vm_compute; reflexivity]|].
  split.
  - exists 104%Z, 103%Z, 304%Z. split; [exact Ca|]. split; [left; split; [exists [], ["b"], ["d"]; vm_compute; reflexivity|vm_compute; reflexivity]|].
    split; [right; split; [exists ["a"; "b"], [], []; vm_compute; reflexivity|vm_compute; reflexivity]|vm_compute; reflexivity].
  - intros u v w _ _ (a & b & c & _ & _ & _ & T). discriminate.
Qed.
Example C88_nonvacuous : exists g g', start_graph data4 = Ok (start4 data4) /\ start_graph data4' = Ok (start4 data4') /\
  regular_tests tests4 (dkeys (nodes (start4 data4))) (values_of (start4 data4)) /\ renamed swap_bc (start4 data4) (start4 data4') /\
  execute_pipeline 9 (batch_runner no_hooks) no_hooks (pc_stable_skeleton dedup tests4) (start4 data4) = (g, Ok tt) /\
  execute_pipeline 9 (batch_runner no_hooks) no_hooks (pc_stable_skeleton dedup tests4) (start4 data4') = (g', Ok tt) /\
  edge_exists g "a" "b" = false /\ edge_exists g "a" "c" = false /\ edge_exists g "b" "d" = true /\
  independent_by_values tests4 (dkeys (nodes (start4 data4))) (values_of (start4 data4)) "a" "c".
Proof.
  eexists. eexists. split; [vm_compute; reflexivity|]. split; [vm_compute; reflexivity|]. split; [exact regular4|]. split; [exact renamed4|].
  repeat (split; [vm_compute; reflexivity|]).
  right; right. exists ["b"; "d"]. split; [repeat constructor; cbn; intuition discriminate|]. split; [intros z [<-|[<-|[]]]; rewrite ids4; cbn; auto|]. split; [cbn; lia|vm_compute; reflexivity].
Qed.

(* In PC and PCClassic the edges that remain depend on the names of the columns. *)
Theorem C88_pc_refuted : exists N d d' g0 g0' s, start_graph d = Ok g0 /\ start_graph d' = Ok g0' /\
  regular_tests N (dkeys (nodes g0)) (values_of g0) /\ renamed s g0 g0' /\ (forall x y, s x = s y -> x = y) /\
  forall sks, sks = pc_skeleton dedup N \/ sks = pc_classic_skeleton dedup N -> exists g g' x y,
    execute_pipeline 9 (batch_runner no_hooks) no_hooks sks g0 = (g, Ok tt) /\
    execute_pipeline 9 (batch_runner no_hooks) no_hooks sks g0' = (g', Ok tt) /\
    In x (dkeys (nodes g0)) /\ In y (dkeys (nodes g0)) /\ x <> y /\ edge_exists g x y = false /\ edge_exists g' (s x) (s y) = true.
Proof.
  exists tests4, data4, data4', (start4 data4), (start4 data4'), swap_bc. split; [vm_compute; reflexivity|]. split; [vm_compute; reflexivity|].
  split; [exact regular4|]. split; [exact renamed4|]. split; [exact swap_inj|].
  intros sks [-> | ->]; eexists; eexists; exists "a", "b"; (split; [vm_compute; reflexivity|]); (split; [vm_compute; reflexivity|]);
    (split; [rewrite ids4; left; reflexivity|]); (split; [rewrite ids4; right; left; reflexivity|]); (split; [discriminate|]); split; vm_compute; reflexivity.
Qed.
Print Assumptions C88_pc_refuted.
