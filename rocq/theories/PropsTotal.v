(* Runs of the PC algorithms whatever the tests answer: C38, C64, C65. *)
From Verif Require Import Base PyDict PyDictFacts Graph GraphSpec GraphFacts GraphInv PathSpec Actions ActionSpec Generators GenSpec GenFacts Rules IndepTests Pipeline Parallel
  PipeSpec PipeMain PipeMain2 GraphCheck Construct Dag SkelSpec SkelFacts SkelStart SkelSteps SkelTop Schedules Toy TotalSpec TotalFacts TotalMain.
Open Scope string_scope.
Open Scope list_scope.
Open Scope nat_scope.

(* C38: a run ends normally or with an exception of a numeric function, nothing else *)
Theorem C38_only_numeric_errors : forall fuel P so N sk l d g0 g r,
  start_graph d = Ok g0 -> set_order so -> pc_algorithm P so N sk l -> List.length (nodes g0) * List.length (nodes g0) + 2 <= fuel ->
  execute_pipeline fuel P no_hooks l g0 = (g, r) -> r = Ok tt \/ exists e, r = Err e /\ raised N e.
Proof.
  intros fuel P so N sk l d g0 g r S0 SO A Fu R. assert (W := run_total fuel P so N g0 (complete_start d g0 S0) SO sk l A Fu). unfold wp in W. rewrite R in W. cbn in W.
  destruct r as [[]|e]; [left; reflexivity|right; eauto].
Qed.
Print Assumptions C38_only_numeric_errors.
Theorem C38_no_crash : forall fuel P so N sk l d g0,
  start_graph d = Ok g0 -> set_order so -> pc_algorithm P so N sk l -> List.length (nodes g0) * List.length (nodes g0) + 2 <= fuel ->
  (forall e, ~ raised N e) -> exists g, execute_pipeline fuel P no_hooks l g0 = (g, Ok tt).
Proof.
  intros fuel P so N sk l d g0 S0 SO A Fu H. destruct (execute_pipeline fuel P no_hooks l g0) as [g r] eqn:R.
  destruct (C38_only_numeric_errors fuel P so N sk l d g0 g r S0 SO A Fu R) as [->|(e & _ & X)]; [eauto|destruct (H e X)].
Qed.
Print Assumptions C38_no_crash.

(* Tests that answer by parity, some undecided: the answers follow no DAG. *)
Definition wild : numerics :=
  mkNum (fun a b => Ok (fold_right Z.add 0 a * 7 + fold_right Z.add 0 b)%Z)
        (fun _ c => Ok (Z.even (c / 3)))
        (fun _ _ a b c => if Z.even a then Ok None else Ok (Some (Z.even (b + c))))
        (fun l => match l with [[x]; _; [z]; _] => if (z =? 1)%Z then Ok None else Ok (Some (Z.even (x + z))) | _ => Ok (Some true) end)
        (fun _ _ _ => Ok false)
        (fun _ _ _ => Ok 5%Z).
Lemma wild_ok e : ~ raised wild e.
Proof. intros [? ? H|? ? H|? ? a ? ? H|l H|? ? ? H]; cbn in H; try discriminate; [destruct (Z.even a); discriminate|]. repeat (match goal with H : context [match ?x with _ => _ end] |- _ => destruct x end; try discriminate). Qed.
Definition names5t : list id := ["a"; "b"; "c"; "d"; "e"].
(* the same tests, but the regression raises when d is the effect variable *)
Definition wild_err : numerics :=
  mkNum (n_pearson wild) (n_corr_test wild) (n_partial wild) (n_matrix wild) (n_regress wild) (fun _ _ ys => match ys with [4%Z] => Err ZeroDivisionError | _ => Ok 5%Z end).
Example C38_nonvacuous : start_graph (DDict (toy_table names5t)) = Ok (toy_start names5t) /\
  pc_algorithm (batch_runner no_hooks) dedup wild (pc_stable_skeleton dedup wild) (pc_stable dedup wild) /\
  (exists g, execute_pipeline 27 (batch_runner no_hooks) no_hooks (pc dedup wild) (toy_start names5t) = (g, Ok tt) /\
     map (fun p => edge_exists g (fst p) (snd p)) [("a", "b"); ("a", "c"); ("b", "c"); ("d", "e")] = [false; true; true; true]) /\
  (exists g, execute_pipeline 27 (batch_runner no_hooks) no_hooks (pc dedup wild_err) (toy_start names5t) = (g, Err ZeroDivisionError)) /\
  raised wild_err ZeroDivisionError.
Proof.
  split; [vm_compute; reflexivity|]. split; [constructor|]. split; [eexists; split; vm_compute; reflexivity|]. split; [eexists; vm_compute; reflexivity|].
  apply raised_effect with (xs := []) (zs := []) (ys := [4%Z]). reflexivity.
Qed.

(* C64: the correlation step gives the edge of every two variables, in both directions, the coefficient of
   their values as its only metadata, and removes nothing *)
Theorem C64_coefficients : forall fuel P N d g0 g, start_graph d = Ok g0 -> run_pstep fuel P no_hooks (PStep (calculate_pearson N)) g0 = (g, Ok tt) ->
  forall x y, In x (dkeys (nodes g0)) -> In y (dkeys (nodes g0)) -> x <> y -> exists z e e', coefficient N g0 x y z /\
    undirected_edge_exists g x y = true /\
    get_edge g x y = Ok e /\ e_meta e = Some [("correlation", MNum z)] /\ get_edge g y x = Ok e' /\ e_meta e' = Some [("correlation", MNum z)].
Proof.
  intros fuel P N d g0 g S0 R x y Hx Hy Ne. apply dmem_In in Hx, Hy. assert (CP := complete_start d g0 S0).
  assert (D := pearson_done fuel P N g0 CP). unfold wp in D. rewrite R in D. cbn [fst snd] in D. destruct D as [T PF].
  destruct (T x y Hx Hy Ne) as (L1 & e & E1 & E2). destruct (T y x Hy Hx (fun h => Ne (eq_sym h))) as (L2 & e' & E3 & E4).
  exists (corr g0 N x y), e, e'. split; [apply corr_coeff; assumption|]. split; [unfold undirected_edge_exists; rewrite L1, L2; reflexivity|].
  split; [exact (live_get_edge g x y e L1 E1)|]. split; [exact E2|]. split; [exact (live_get_edge g y x e' L2 E3)|]. rewrite E4. unfold cmeta. rewrite (corr_sym g0 N CP y x). reflexivity.
Qed.
Print Assumptions C64_coefficients.

(* C65: after the skeleton phase, whatever the tests answered, two variables are connected both ways or not
   at all; a connected pair still carries its coefficient and no removal is recorded for it; for any other
   pair exactly one removal is recorded, with a set of other variables *)
Theorem C65_separators : forall fuel P so N sk l d g0 g, start_graph d = Ok g0 -> set_order so -> pc_algorithm P so N sk l ->
  execute_pipeline fuel P no_hooks sk g0 = (g, Ok tt) ->
  dkeys (nodes g) = dkeys (nodes g0) /\
  forall x y, In x (dkeys (nodes g0)) -> In y (dkeys (nodes g0)) -> x <> y ->
    (undirected_edge_exists g x y = true /\ retrieve_edge_history g x y (Some REMOVE_EDGE_UNDIRECTED) = Ok [] /\
       exists e m z, get_edge g x y = Ok e /\ e_meta e = Some m /\ dget m "correlation" = Some (MNum z) /\ coefficient N g0 x y z) \/
    (edge_exists g x y = false /\
       exists S, recorded_separator g x y S /\ forall v, In v S -> In v (dkeys (nodes g0)) /\ v <> x /\ v <> y).
Proof.
  intros fuel P so N sk l d g0 g S0 SO A R. assert (CP := complete_start d g0 S0). assert (K := skel_total fuel P so N g0 CP SO sk l A). unfold wp in K. rewrite R in K. cbn in K.
  assert (PF := skel_pearson fuel P so N g0 CP sk l g A R). split; [rewrite (sk_nodes _ _ _ _ _ K); reflexivity|]. intros x y Hx Hy Ne. apply dmem_In in Hx, Hy.
  assert (RH : forall l, removals (history g (x, y)) = l -> retrieve_edge_history g x y (Some REMOVE_EDGE_UNDIRECTED) = Ok l).
  { intros l0 <-. unfold retrieve_edge_history, history, removals. destruct (dget (ehist g) (x, y)); reflexivity. }
  destruct (directed_edge_exists g x y) eqn:L.
  - left. assert (L2 := sk_sym _ _ _ _ _ K x y L). split; [unfold undirected_edge_exists; rewrite L, L2; reflexivity|]. split; [exact (RH _ (sk_live _ _ _ _ _ K x y L))|].
    destruct (sk_corr _ _ _ _ _ K x y L) as (e & m & E1 & E2 & E3). exists e, m, (corr g0 N x y). split; [exact (live_get_edge g x y e L E1)|]. split; [exact E2|]. split; [exact E3|].
    apply corr_coeff; assumption.
  - right. split; [rewrite (skel_ee _ _ _ _ g x y K); exact L|]. destruct (sk_gone _ _ _ _ _ K x y Hx Hy Ne L) as (a & b & S & H & _ & (G1 & G2 & G3 & _)).
    exists S. split; [exists (separated a b S); eexists; split; [exact (RH _ H)|split; reflexivity]|]. intros v Hv. split; [apply dmem_In; exact (G1 v Hv)|]. split; intros ->; contradiction.
Qed.
Print Assumptions C65_separators.
(* for C64 and C65 *)
Example C65_nonvacuous : exists g, execute_pipeline 27 (batch_runner no_hooks) no_hooks (pc_skeleton dedup wild) (toy_start names5t) = (g, Ok tt) /\
  undirected_edge_exists g "a" "c" = true /\ recorded_separator g "a" "b" ["c"; "d"] /\
  exists g1, run_pstep 3 (batch_runner no_hooks) no_hooks (PStep (calculate_pearson wild)) (toy_start names5t) = (g1, Ok tt) /\
    before (dkeys (nodes (toy_start names5t))) "b" "d" /\ coefficient wild (toy_start names5t) "d" "b" 18%Z.
Proof.
  eexists. split; [vm_compute; reflexivity|]. split; [vm_compute; reflexivity|]. split; [eexists; eexists; split; [vm_compute; reflexivity|split; reflexivity]|].
  eexists. split; [vm_compute; reflexivity|]. split; [exists ["a"], ["c"], ["e"]; vm_compute; reflexivity|]. right. split; [exists ["a"], ["c"], ["e"]; vm_compute; reflexivity|vm_compute; reflexivity].
Qed.
