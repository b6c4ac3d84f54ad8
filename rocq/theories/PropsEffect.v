(* Direct effect estimation: C59 and C60. *)
From Verif Require Import Base PyDict PyDictFacts Graph GraphSpec GraphFacts GraphInv GraphQ GraphCheck Actions ActionSpec ActionFacts ActionMain Generators GenSpec GenFacts
  Rules IndepTests Pipeline PipeSpec PipeFacts PipeMain2 Parallel Construct ConstructFacts PathSpec Dag SkelSpec Ideal OrientSpec LoopFacts OrientTop EffectSpec EffectFacts ColliderFacts DsepDec PropsPC PropsOrient.
Open Scope string_scope.
Open Scope list_scope.
Open Scope nat_scope.

(* C59: the estimation step changes no edge, and when it completes every one-way edge carries its effect and
   every two-way edge has the data it had. *)
Theorem C59_effects : forall N P g g' r, reached g -> execute_step P no_hooks (effect_step N) false g = (g', r) ->
  nodes g' = nodes g /\
  (forall a b, directed_edge_exists g' a b = directed_edge_exists g a b) /\
  match r with
  | Ok _ => (forall u v, one_way g u v -> effect_of N g g' u v) /\
            (forall u v, two_way g u v -> edge_value g' u v = edge_value g u v)
  | Err _ => True
  end.
Proof. intros N P g g' r R. exact (effects_main N P g g' r (reached_WF _ R)). Qed.
Print Assumptions C59_effects.


(* At the end of a run with perfect tests the effect of u on v comes from the regression on u, the other
   causes of v in D, and the nodes whose edge with v was left undirected. *)
Theorem C59_run : forall fuel P l g0 D N g, perfect_run fuel P l g0 D N -> execute_pipeline fuel P no_hooks l g0 = (g, Ok tt) ->
  forall u v, one_way g u v -> exists ps c, NoDup ps /\ (forall p, In p ps <-> p <> u /\ (edge_in D p v \/ two_way g p v)) /\
    n_effect N (values_of g0 u) (map (values_of g0) ps) (values_of g0 v) = Ok c /\ stored_effect g u v c.
Proof. exact effect_pipeline. Qed.
Print Assumptions C59_run.
(* So if v has no undirected edge, the covariates are exactly the causes of v. *)
Theorem C60_causes_partial : forall fuel P l g0 D N g, perfect_run fuel P l g0 D N -> execute_pipeline fuel P no_hooks l g0 = (g, Ok tt) ->
  forall u v, one_way g u v -> (forall p, ~ two_way g p v) -> exists ps c, NoDup ps /\ (forall p, In p ps <-> p <> u /\ edge_in D p v) /\
    n_effect N (values_of g0 u) (map (values_of g0) ps) (values_of g0 v) = Ok c /\ stored_effect g u v c.
Proof.
  intros fuel P l g0 D N g H R u v O T. destruct (effect_pipeline fuel P l g0 D N g H R u v O) as (ps & c & A & B & C). exists ps, c.
  split; [exact A|]. split; [|exact C]. intros p. rewrite B. specialize (T p). tauto.
Qed.
Print Assumptions C60_causes_partial.

(* x -> u <- y, u -> v, u -> w, v -> w: the edge of v and w stays undirected, and w, which v causes, is used as a
   covariate for the effect of u on v.  The regression here answers 1000 * cause + sum of the covariates. *)
Definition sum_effect (N : numerics) : numerics := mkNum (n_pearson N) (n_corr_test N) (n_partial N) (n_matrix N) (n_regress N)
  (fun x zs _ => Ok (1000 * hd 0 x + fold_right Z.add 0 (map (hd 0) zs))%Z).
Lemma sum_perfect N vals ns D c : perfect_tests N vals ns D c -> perfect_tests (sum_effect N) vals ns D c.
Proof. intros [A B C E F]. constructor; assumption. Qed.
Definition names5e : list id := ["x"; "y"; "u"; "v"; "w"].
Definition dag5e : list (id * id) := [("x", "u"); ("y", "u"); ("u", "v"); ("u", "w"); ("v", "w")].
Lemma nodup5e : NoDup names5e.
Proof. repeat constructor; cbn; intuition discriminate. Qed.
Lemma dag5e_dag : dag_over names5e dag5e.
Proof. apply dag_by_order; [exact nodup5e|reflexivity]. Qed.
Theorem C60_causes_refuted : exists fuel P l g0 D N g u v c, perfect_run fuel P l g0 D N /\ execute_pipeline fuel P no_hooks l g0 = (g, Ok tt) /\
  one_way g u v /\ stored_effect g u v c /\
  forall ps, NoDup ps -> (forall p, In p ps <-> p <> u /\ edge_in D p v) -> n_effect N (values_of g0 u) (map (values_of g0) ps) (values_of g0 v) <> Ok c.
Proof.
  destruct (ideal_exists names5e dag5e nodup5e dag5e_dag) as (g0 & S0 & _ & DG & PT).
  assert (G0 := S0). vm_compute in G0. injection G0 as G0.
  exists 30, (batch_runner no_hooks), (pc dedup (sum_effect (ideal names5e dag5e))), g0, dag5e, (sum_effect (ideal names5e dag5e)). eexists. exists "u", "v", 3005%Z.
  split.
  { split; [eexists; exact S0|exact DG|exists (ideal_corr names5e); exact (sum_perfect _ _ _ _ _ PT)|exists dedup; split; [exact dedup_order|apply ea_pc]|]. rewrite <- G0. vm_compute. lia. }
  split; [rewrite <- G0; vm_compute; reflexivity|]. split; [vm_compute; reflexivity|].
  split; [eexists; split; vm_compute; reflexivity|]. intros ps ND H.
  destruct ps as [|p ps]; [rewrite <- G0; vm_compute; discriminate|]. exfalso. clear -H.
  destruct (proj1 (H p) (or_introl eq_refl)) as [Ne Ed].
  unfold edge_in in Ed. cbn in Ed. destruct Ed as [X|[X|[X|[X|[X|[]]]]]]; try discriminate. injection X as X. congruence.
Qed.
Print Assumptions C60_causes_refuted.

(* a -> c <- b, c -> d *)
Example C59_nonvacuous : exists g0 N g, perfect_run 18 (batch_runner no_hooks) (pc dedup N) g0 dag4o N /\
  execute_pipeline 18 (batch_runner no_hooks) no_hooks (pc dedup N) g0 = (g, Ok tt) /\
  stored_effect g "a" "c" 1002 /\ stored_effect g "b" "c" 2001 /\ stored_effect g "c" "d" 3000 /\ (forall p, ~ two_way g p "c").
Proof.
  destruct (ideal_exists names4o dag4o nodup4o dag4o_dag) as (g0 & S0 & _ & DG & PT).
  assert (G0 := S0). vm_compute in G0. injection G0 as G0.
  exists g0, (sum_effect (ideal names4o dag4o)). eexists. split.
  { split; [eexists; exact S0|exact DG|exists (ideal_corr names4o); exact (sum_perfect _ _ _ _ _ PT)|exists dedup; split; [exact dedup_order|apply ea_pc]|]. rewrite <- G0. vm_compute. lia. }
  split; [rewrite <- G0; vm_compute; reflexivity|]. 
  split; [eexists; split; vm_compute; reflexivity|]. split; [eexists; split; vm_compute; reflexivity|]. split; [eexists; split; vm_compute; reflexivity|].
  intros p T. assert (T' := T). unfold two_way, undirected_edge_exists in T. apply andb_true_iff in T. destruct T as [T _]. apply dee_iff0 in T. destruct T as (Hp & _).
  apply dmem_In in Hp. vm_compute in Hp. clear -Hp T'. destruct Hp as [<-|[<-|[<-|[<-|[]]]]]; vm_compute in T'; discriminate.
Qed.
