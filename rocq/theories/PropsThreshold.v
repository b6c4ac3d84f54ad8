(* What a lower threshold does to the edges that remain: C105. *)
From Coq Require Import QArith.
From Verif Require Import Base PyDict PyDictFacts Graph GraphQ Actions Rules IndepTests Pipeline Parallel
  GraphCheck Construct PathSpec SkelSpec SkelSteps PipeMain2 Toy TotalSpec TestedSpec TestedMain PropsTested ThresholdSpec.
Open Scope string_scope.
Open Scope list_scope.
Open Scope nat_scope.

Lemma exceeds_lower th th' p : (th <= th')%Q -> exceeds th' p = true -> exceeds th p = true.
Proof.
  intros L. destruct p as [q|]; [cbn|discriminate]. destruct (Qle_bool q th) eqn:E; [|reflexivity]. apply Qle_bool_iff in E.
  rewrite (proj2 (Qle_bool_iff q th') (Qle_trans _ _ _ E L)). discriminate.
Qed.
Lemma regular_at T ids vals th : regular_p T ids vals -> regular_tests (at_threshold T th) ids vals.
Proof.
  intros [RL RP RT RM]. constructor; cbn [at_threshold n_pearson n_partial n_matrix]; [exact RL|exact RP| |].
  - intros x y z a b c Hx Hy Hz ND Pa Pb Pc. destruct (RT x y z a b c Hx Hy Hz ND Pa Pb Pc) as [E NN]. rewrite <- E. split; [reflexivity|].
    destruct (p_partial T (List.length (vals x)) 1 a b c) as [[p|]|e]; cbn; congruence.
  - intros x y S S' HI ND Pm. destruct (RM x y S S' HI ND Pm) as [E1 E2]. rewrite <- E1, <- E2. auto.
Qed.
Lemma lower_independent T ids vals th th' x y : (th <= th')%Q ->
  independent_by_values (at_threshold T th') ids vals x y -> independent_by_values (at_threshold T th) ids vals x y.
Proof.
  intros L. assert (O : forall r : res (option pvalue), rbind r (fun o => Ok (option_map (exceeds th') o)) = Ok (Some true) -> rbind r (fun o => Ok (option_map (exceeds th) o)) = Ok (Some true)).
  { intros [[p|]|e]; cbn; try discriminate. intros H. injection H as H. rewrite (exceeds_lower th th' p L H). reflexivity. }
  intros [(a & Pa & H)|[(z & a & b & c & Hz & ND & Pa & Pb & Pc & H)|(S & ND & HS & Ln & H)]]; cbn [at_threshold n_pearson n_corr_test n_partial n_matrix] in *.
  - left. exists a. split; [exact Pa|]. cbn. destruct (p_corr T (List.length (vals x)) a) as [p|e]; [cbn in *|discriminate]. injection H as H. rewrite (exceeds_lower th th' p L H). reflexivity.
  - right; left. exists z, a, b, c. repeat (split; [assumption|]). exact (O _ H).
  - right; right. exists S. repeat (split; [assumption|]). exact (O _ H).
Qed.

(* C105: in PCStable an edge that remains at a threshold remains at every higher one *)
Theorem C105_stable : forall fuel fuel' P P' so so' T th th' d g0 g g', start_graph d = Ok g0 -> set_order so -> set_order so' -> (th <= th')%Q ->
  regular_p T (dkeys (nodes g0)) (values_of g0) ->
  execute_pipeline fuel P no_hooks (pc_stable_skeleton so (at_threshold T th)) g0 = (g, Ok tt) ->
  execute_pipeline fuel' P' no_hooks (pc_stable_skeleton so' (at_threshold T th')) g0 = (g', Ok tt) ->
  forall x y, In x (dkeys (nodes g0)) -> In y (dkeys (nodes g0)) -> x <> y -> edge_exists g x y = true -> edge_exists g' x y = true.
Proof.
  intros fuel fuel' P P' so so' T th th' d g0 g g' S0 SO SO' L RP R R' x y Hx Hy Ne E.
  destruct (edge_exists g' x y) eqn:E'; [reflexivity|exfalso].
  assert (I' := proj1 (C88_stable fuel' P' so' _ d g0 g' S0 SO' (regular_at T _ _ th' RP) R' x y Hx Hy Ne) E').
  assert (I := proj2 (C88_stable fuel P so _ d g0 g S0 SO (regular_at T _ _ th RP) R x y Hx Hy Ne) (lower_independent T _ _ th th' x y L I')). congruence.
Qed.
Print Assumptions C105_stable.

(* In every algorithm the variables found independent by the correlation test at a threshold are so at every
   lower one: none of their edges remains. *)
Theorem C105_marginal : forall fuel P so T th th' b sks d g0 g, start_graph d = Ok g0 -> set_order so -> (th <= th')%Q ->
  skeleton_of P so (at_threshold T th) b sks -> execute_pipeline fuel P no_hooks sks g0 = (g, Ok tt) ->
  forall x y, earlier g0 x y -> corr_answer (at_threshold T th') g0 x y true -> edge_exists g x y = false.
Proof.
  intros fuel P so T th th' b sks d g0 g S0 SO L A R x y O (a & Ca & H). destruct (edge_exists g x y) eqn:E; [exfalso|reflexivity].
  apply (proj1 (C87_kept fuel P so (at_threshold T th) b sks d g0 g S0 SO A R x y E) O). exists a. split; [exact Ca|]. cbn in *.
  destruct (p_corr T (List.length (values_of g0 x)) a) as [p|e]; [cbn in *|discriminate]. injection H as H. rewrite (exceeds_lower th th' p L H). reflexivity.
Qed.
Print Assumptions C105_marginal.

(* Columns with the single values 1, 2, 3, and p-values read off a table. *)
Definition ptoy (p : Z -> Z -> list Z -> Q) : ptests :=
  mkPTests
    (fun a b => match a, b with [x], [y] => Ok (Z.min x y * 100 + Z.max x y)%Z | _, _ => Err ValueError end)
    (fun _ c => Ok (Some (p (c / 100) (c mod 100) [])%Z))
    (fun _ _ a b _ => let x := (a / 100)%Z in let y := (a mod 100)%Z in
       let z := if orb (Z.eqb (b / 100) x) (Z.eqb (b / 100) y) then (b mod 100)%Z else (b / 100)%Z in
       Ok (Some (Some (p x y [z]))))
    (fun l => match List.concat l with x :: y :: zs => Ok (Some (Some (p (Z.min x y) (Z.max x y) zs))) | _ => Ok None end)
    (fun _ _ _ => Ok false)
    (fun _ _ _ => Ok 0%Z).
(* Fisher's test for 100 rows whose correlations are 0.32 between the first two and 0.3 for the other two pairs
   (rounded to four digits) *)
Definition p3 (x y : Z) (s : list Z) : Q :=
  match s with
  | [] => if Z.eqb x 1 && Z.eqb y 2 then 11 # 10000 else 23 # 10000
  | _ => if Z.eqb x 1 && Z.eqb y 2 then 114 # 10000 else 244 # 10000
  end.
Definition data3 : rawdata := DDict [("a", [Some 1%Z]); ("b", [Some 2%Z]); ("c", [Some 3%Z])].
Lemma regular3 p :
  regular_p (ptoy p) (dkeys (nodes (start4 data3))) (values_of (start4 data3)).
Proof.
  assert (I3 : dkeys (nodes (start4 data3)) = ["a"; "b"; "c"]) by (vm_compute; reflexivity).
  assert (V3 : map (values_of (start4 data3)) ["a"; "b"; "c"] = [[1]; [2]; [3]]%Z) by (vm_compute; reflexivity).
  rewrite I3. revert V3. generalize (values_of (start4 data3)) as vals. intros vals V3. cbn [map] in V3. injection V3 as Va Vb Vc.
  assert (V : forall x, In x ["a"; "b"; "c"] -> exists k, vals x = [k]) by (intros x Hx; destruct Hx as [<-|[<-|[<-|[]]]]; eauto).
  constructor.
  - intros x y Hx Hy. destruct (V x Hx) as (a & ->). destruct (V y Hy) as (b & ->). reflexivity.
  - intros x y Hx Hy. destruct (V x Hx) as (a & ->). destruct (V y Hy) as (b & ->). cbn [ptoy p_pearson]. rewrite Z.min_comm, Z.max_comm. reflexivity.
  - intros x y z a b c Hx Hy Hz ND Pa Pb Pc. split; [|discriminate]. destruct (three x y z ND) as (N1 & N2 & N3). clear V ND.
    revert Pa Pb Pc N1 N2 N3. destruct Hx as [<-|[<-|[<-|[]]]], Hy as [<-|[<-|[<-|[]]]], Hz as [<-|[<-|[<-|[]]]]; intros Pa Pb Pc N1 N2 N3;
      try (exfalso; congruence); rewrite ?Va, ?Vb, ?Vc in *; vm_compute in Pa, Pb, Pc; injection Pa as <-; injection Pb as <-; injection Pc as <-; vm_compute; reflexivity.
  - intros x y S S' HI ND Pm. destruct (V x (HI x (or_introl eq_refl))) as (a & Ha). destruct (V y (HI y (or_intror (or_introl eq_refl)))) as (b & Hb).
    assert (Ln : List.length (x :: y :: S) <= List.length ["a"; "b"; "c"]) by (apply NoDup_incl_length; [exact ND|exact HI]). cbn in Ln.
    assert (E : S' = S). { destruct S as [|z [|z' S]]; cbn in Ln; [apply Permutation_nil in Pm; congruence|apply Permutation_length_1_inv in Pm; congruence|lia]. }
    rewrite E. split; [reflexivity|]. cbn [map ptoy p_matrix]. rewrite Ha, Hb. cbn [List.concat app]. rewrite Z.min_comm, Z.max_comm. reflexivity.
Qed.
(* all edges are kept at the default threshold but the last, which goes at the lower one *)
Definition p3' (x y : Z) (s : list Z) : Q := if Z.eqb y 3 then 23 # 10000 else 1 # 10000.
Example C105_nonvacuous : exists g g', start_graph data3 = Ok (start4 data3) /\ regular_p (ptoy p3') (dkeys (nodes (start4 data3))) (values_of (start4 data3)) /\ (2 # 1000 <= 1 # 100)%Q /\
  execute_pipeline 9 (batch_runner no_hooks) no_hooks (pc_stable_skeleton dedup (at_threshold (ptoy p3') (2 # 1000))) (start4 data3) = (g, Ok tt) /\
  execute_pipeline 9 (batch_runner no_hooks) no_hooks (pc_stable_skeleton dedup (at_threshold (ptoy p3') (1 # 100))) (start4 data3) = (g', Ok tt) /\
  edge_exists g "a" "b" = true /\ edge_exists g "b" "c" = false /\ edge_exists g' "b" "c" = true /\
  corr_answer (at_threshold (ptoy p3') (2 # 1000)) (start4 data3) "b" "c" true.
Proof.
  eexists; eexists. split; [vm_compute; reflexivity|]. split; [apply regular3|]. split; [vm_compute; discriminate|]. repeat (split; [vm_compute; reflexivity|]).
  exists 203%Z. split; [left; split; [exists ["a"], [], []; vm_compute; reflexivity|vm_compute; reflexivity]|vm_compute; reflexivity].
Qed.

(* In PC and PCClassic a lower threshold can add an edge: with it a and c, and b and c, are found independent,
   and a and b are no longer tested given c. *)
Theorem C105_pc_refuted : exists T th th' d g0, start_graph d = Ok g0 /\ regular_p T (dkeys (nodes g0)) (values_of g0) /\ (th < th')%Q /\
  forall sks, (forall N, sks N = pc_skeleton dedup N) \/ (forall N, sks N = pc_classic_skeleton dedup N) -> exists g g' x y,
    execute_pipeline 9 (batch_runner no_hooks) no_hooks (sks (at_threshold T th)) g0 = (g, Ok tt) /\
    execute_pipeline 9 (batch_runner no_hooks) no_hooks (sks (at_threshold T th')) g0 = (g', Ok tt) /\
    edge_exists g x y = true /\ edge_exists g' x y = false.
Proof.
  exists (ptoy p3), (2 # 1000)%Q, (1 # 100)%Q, data3, (start4 data3). split; [vm_compute; reflexivity|]. split; [apply regular3|]. split; [vm_compute; reflexivity|].
  intros sks [E|E]; rewrite !E; eexists; eexists; exists "a", "b"; (do 3 (split; [vm_compute; reflexivity|])); vm_compute; reflexivity.
Qed.
Print Assumptions C105_pc_refuted.
