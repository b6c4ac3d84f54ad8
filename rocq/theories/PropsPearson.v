(* The correlation step on graphs that carry data already: C72. *)
From Verif Require Import Base PyDict PyDictFacts Graph GraphSpec GraphFacts GraphInv PathSpec Actions ActionSpec ActionFacts ActionMain Generators GenSpec GenFacts Rules IndepTests Pipeline Parallel
  PipeSpec PipeMain PipeMain2 Schedules Construct ConstructFacts TotalSpec Serve TotalFacts TotalMain Toy PearsonStep.
Open Scope string_scope.
Open Scope list_scope.

(* C72: on a graph in which every two nodes are connected both ways the correlation step succeeds unless the
   coefficient function raises; the edges of x and y (x first in the graph) both get the data of x -> y with
   the coefficient of x and y in it, and keep everything else *)
Theorem C72_correlations : forall P N g g1 r, reached g -> all_connected g -> execute_step P no_hooks (calculate_pearson N) false g = (g1, r) ->
  nodes g1 = nodes g /\
  match r with
  | Ok _ => forall x y, before (dkeys (nodes g)) x y -> exists z e e' m m',
      n_pearson N (values_of g x) (values_of g y) = Ok z /\ entry g x y = Some e /\ entry g y x = Some e' /\ e_meta e = Some m /\ with_correlation z m m' /\
      entry g1 x y = Some (mkEdge (e_u e) (e_v e) (e_type e) (Some m') (e_del e)) /\
      entry g1 y x = Some (mkEdge (e_u e') (e_v e') (e_type e') (Some m') (e_del e'))
  | Err e => exists x y, before (dkeys (nodes g)) x y /\ n_pearson N (values_of g x) (values_of g y) = Err e
  end.
Proof.
  intros P N g g1 r R AC X. assert (W := reached_WF g R). destruct (pearson_any g N W AC P) as [K T]. rewrite X in K, T. cbn [fst snd] in K, T.
  split; [exact (qs_nodes _ _ K)|]. destruct r as [a|e]; [|exact T]. intros x y B. assert (O := before_ord g x y B). destruct (T x y O) as [[Q1 Q2] (z & Ez)].
  destruct (o_ok g W x y O) as (Hx & Hy & Ne). destruct (g0_edge g W AC x y Hx Hy Ne) as (e & G1 & M & _). destruct (g0_edge g W AC y x Hy Hx (fun h => Ne (eq_sym h))) as (e' & G2 & _).
  rewrite G1 in Q1. rewrite G2 in Q2. cbn in Q1, Q2. exists z, e, e', (oldmeta g x y), (newmeta g N x y). rewrite !entry_eget.
  repeat (split; [assumption|]). split; [unfold newmeta; rewrite Ez; apply dset_with|]. split; assumption.
Qed.
Print Assumptions C72_correlations.

(* three variables whose edges carry data of their own, different in the two directions of a - b *)
Definition noted : graph := fst (apply_action (mkT "b" "a" UPDATE_EDGE_DIRECTED (Some [("note", MNum 2)]))
  (fst (apply_action (mkT "a" "b" UPDATE_EDGE_DIRECTED (Some [("note", MNum 1); ("correlation", MNum 100)])) (toy_start ["a"; "b"; "c"])))).
Definition summed : numerics := mkNum (fun a b => Ok (fold_right Z.add 0 a * 7 + fold_right Z.add 0 b)%Z) (fun _ _ => Ok true) (fun _ _ _ _ _ => Ok None) (fun _ => Ok None) (fun _ _ _ => Ok false) (fun _ _ _ => Ok 0%Z).
Lemma noted_reached : reached noted.
Proof. unfold noted. apply rd_act, rd_act. apply (start_reached (DDict (toy_table ["a"; "b"; "c"]))). vm_compute. reflexivity. Qed.
Lemma noted_connected : all_connected noted.
Proof.
  intros u v Hu Hv Ne. change (dkeys (nodes noted)) with ["a"; "b"; "c"] in Hu, Hv.
  destruct Hu as [<-|[<-|[<-|[]]]], Hv as [<-|[<-|[<-|[]]]]; try (destruct (Ne eq_refl)); (split; [vm_compute; reflexivity|eexists; eexists; split; vm_compute; reflexivity]).
Qed.
Example C72_nonvacuous : reached noted /\ all_connected noted /\
  exists g1 a, execute_step (batch_runner no_hooks) no_hooks (calculate_pearson summed) false noted = (g1, Ok a) /\
    before (dkeys (nodes noted)) "a" "c" /\ option_map e_meta (entry g1 "a" "b") = Some (Some [("note", MNum 1); ("correlation", MNum 9)]) /\
    option_map e_meta (entry g1 "c" "a") = Some (Some [("correlation", MNum 10)]).
Proof.
  split; [exact noted_reached|]. split; [exact noted_connected|]. eexists. eexists. split; [vm_compute; reflexivity|].
  split; [exists [], ["b"], []; vm_compute; reflexivity|]. split; vm_compute; reflexivity.
Qed.

(* what the edge of the other direction carried is lost: it gets the data of x -> y *)
Theorem C72_other_direction_refuted : exists P N g g1 a x y e e1 m m1, reached g /\ all_connected g /\
  execute_step P no_hooks (calculate_pearson N) false g = (g1, Ok a) /\
  entry g y x = Some e /\ e_meta e = Some m /\ entry g1 y x = Some e1 /\ e_meta e1 = Some m1 /\ dget m "note" = Some (MNum 2) /\ dget m1 "note" = Some (MNum 1).
Proof.
  exists (batch_runner no_hooks), summed, noted. eexists. eexists. exists "a", "b". do 4 eexists. split; [exact noted_reached|]. split; [exact noted_connected|].
  split; [vm_compute; reflexivity|]. repeat (split; [vm_compute; reflexivity|]). vm_compute; reflexivity.
Qed.
Print Assumptions C72_other_direction_refuted.
