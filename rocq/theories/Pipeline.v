(* causy/graph_model.py: executing pipeline steps; common_pipeline_steps/logic.py and exit_conditions.py;
   algorithms/pc.py. *)
From Verif Require Import Base PyDict Graph Actions Generators Rules IndepTests.
Open Scope string_scope.
Open Scope list_scope.

(* interfaces.py:341-391 (PipelineStepInterface): the fields the executor reads. *)
Record step := mkStep {
  s_name : string;
  s_gen : graph -> lazyg;
  s_chunked : bool;            (* generator.chunked *)
  s_parallel : bool;
  s_unapplied : bool;          (* needs_unapplied_actions *)
  s_sync : bool;               (* apply_synchronous *)
  s_proc : proc }.

(* interfaces.py:413-426 (__call__) *)
Definition call (s : step) (g : graph) (ns : list id) (us : option (list outcome)) : res outcome :=
  s_proc s g ns (if s_unapplied s then us else None).

(* [*c] for a string c: its characters *)
Definition chars (s : string) : list id := map (fun a => String a EmptyString) (list_ascii_of_string s).

(* [*i] of what a generator yields when the executor expects node combinations.  A chunk gives lists in
   place of node ids; looking one up raises TypeError (unhashable). *)
Definition as_args (e : emission) : res (list id) :=
  match e with One ns => Ok ns | Chunk [] => Ok [] | Chunk _ => Err TypeError end.
(* the argument lists when the executor expects chunks: a single node combination is iterated too *)
Definition as_chunk (e : emission) : list (list id) :=
  match e with Chunk c => c | One ns => map chars ns end.

(* [f(a) for a in l] *)
Fixpoint rmap {A B} (f : A -> res B) (l : list A) : res (list B) :=
  match l with
  | [] => Ok []
  | a :: r => rbind (f a) (fun b => rbind (rmap f r) (fun t => Ok (b :: t)))
  end.

Definition liftr {A} (r : res A) : ST A := match r with Ok a => ret a | Err e => raise e end.

(* taken and proposed actions *)
Definition acts2 := (list tresult * list tresult)%type.
Definition plus2 (a b : acts2) : acts2 := (fst a ++ fst b, snd a ++ snd b)%list.

(* graph_model.py:474-484: chunked generator.  The next chunk is generated after the actions of the
   previous one were taken. *)
Fixpoint run_chunks (H : hooks) (dry : bool) (s : step) (es : list emission) : ST acts2 :=
  match es with
  | [] => ret ([], [])
  | e :: r =>
      g <- gget ;;
      rs <- liftr (rmap (fun ns => call s g ns None) (as_chunk e)) ;;
      a <- take_action H dry rs ;;
      b <- run_chunks H dry s r ;;
      ret (plus2 a b)
  end.
Fixpoint run_blocks (H : hooks) (dry : bool) (s : step) (bs : lazyg) : ST acts2 :=
  match bs with
  | [] => ret ([], [])
  | f :: r =>
      g <- gget ;;
      es <- liftr (f g) ;;
      a <- run_chunks H dry s es ;;
      b <- run_blocks H dry s r ;;
      ret (plus2 a b)
  end.

(* graph_model.py:503-509 and 518-524: all calls first, actions at the end; each call may see the
   results collected before it *)
Fixpoint collect (s : step) (g : graph) (es : list emission) (local : list outcome) : res (list outcome) :=
  match es with
  | [] => Ok local
  | e :: r => rbind (as_args e) (fun ns => rbind (call s g ns (Some local)) (fun o => collect s g r (local ++ [o])%list))
  end.
(* graph_model.py:503-517 with apply_synchronous: actions after each call *)
Fixpoint run_sync (H : hooks) (dry : bool) (s : step) (es : list emission) : ST acts2 :=
  match es with
  | [] => ret ([], [])
  | e :: r =>
      g <- gget ;;
      o <- liftr (rbind (as_args e) (fun ns => call s g ns (Some []))) ;;
      a <- take_action H dry [o] ;;
      b <- run_sync H dry s r ;;
      ret (plus2 a b)
  end.

(* A parallel step (graph_model.py:450-472) depends on the scheduling of workers; its executions are
   described in Parallel.v.  Here it is an argument. *)
Definition runner := step -> bool -> ST acts2.

(* graph_model.py:432-526; dry = not apply_to_graph *)
Definition execute_step (P : runner) (H : hooks) (s : step) (dry : bool) : ST acts2 :=
  if s_parallel s then P s dry
  else if s_chunked s then g <- gget ;; run_blocks H dry s (s_gen s g)
  else g <- gget ;;
       es <- liftr (gen_run (s_gen s g) g) ;;
       if s_sync s then run_sync H dry s es
       else rs <- liftr (collect s g es []) ;; take_action H dry rs.

(* logic.py and ordinary steps.  The exit condition sees the iteration number and the actions of the
   last iteration (None before the first). *)
Inductive pstep :=
| PStep (s : step)
| PLoop (name : string) (exit : nat -> option (list tresult) -> res bool) (steps : list step)
| PTogether (name : string) (steps : list step).

(* exit_conditions.py:5-18 *)
Definition exit_on_no_actions (n : nat) (taken : option (list tresult)) : res bool :=
  if Nat.ltb 0 n then match taken with Some l => Ok (Nat.eqb (List.length l) 0) | None => Err TypeError end
  else Ok false.

(* logic.py:41-57 and 84-101: one pass over the inner steps; the log entries and the actions taken *)
Fixpoint run_inner (P : runner) (H : hooks) (dry : bool) (l : list step) : ST (list hstep * list tresult) :=
  match l with
  | [] => ret ([], [])
  | s :: r =>
      a <- execute_step P H s dry ;;
      b <- run_inner P H dry r ;;
      ret (HStep (s_name s) (fst a) (snd a) [] :: fst b, fst a ++ snd b)%list
  end.
(* logic.py:23-64 (Loop.execute).  [fuel] bounds the number of evaluations of the exit condition. *)
Fixpoint run_loop (fuel : nat) (P : runner) (H : hooks) (exit : nat -> option (list tresult) -> res bool) (l : list step)
         (n : nat) (last : option (list tresult)) : ST (list hstep) :=
  match fuel with
  | 0 => raise OutOfFuel
  | S f =>
      stop <- liftr (exit n last) ;;
      if (stop : bool) then ret []
      else a <- run_inner P H false l ;;
           b <- run_loop f P H exit l (S n) (Some (snd a)) ;;
           ret (fst a ++ b)%list
  end.
(* logic.py:74-110 (ApplyActionsTogether.execute) *)
Definition run_together (P : runner) (H : hooks) (l : list step) : ST (list hstep) :=
  a <- run_inner P H true l ;;
  _ <- take_action H false (map (fun i => Some [i]) (snd a)) ;;
  ret (fst a).

(* self.graph.graph.action_history.append(..) *)
Definition log_step (h : hstep) : ST unit := fun g => (with_ahist g (ahist g ++ [h])%list, Ok tt).

(* graph_model.py:205-228: one iteration of the loop; no purge after a logic step *)
Definition run_pstep (fuel : nat) (P : runner) (H : hooks) (p : pstep) : ST unit :=
  match p with
  | PLoop name exit l => hs <- run_loop fuel P H exit l 0 None ;; log_step (HStep name [] [] hs)
  | PTogether name l => hs <- run_together P H l ;; log_step (HStep name [] [] hs)
  | PStep s =>
      a <- execute_step P H s false ;;
      log_step (HStep (s_name s) (fst a) (snd a) []) ;;;
      purge_soft_deleted_edges
  end.
(* graph_model.py:197-228 (execute_pipeline_steps); the log is in the graph *)
Fixpoint execute_pipeline (fuel : nat) (P : runner) (H : hooks) (l : list pstep) : ST unit :=
  match l with
  | [] => ret tt
  | p :: r => run_pstep fuel P H p ;;; execute_pipeline fuel P H r
  end.

(* ---------- the shipped steps with their default generators ---------- *)

Definition pairs_gen (g : graph) : lazyg := gen_all (mkCS 2 2) g.

(* calculation.py:16-22 *)
Definition calculate_pearson (N : numerics) : step :=
  mkStep "CalculatePearsonCorrelations" pairs_gen false false false false (pearson_process N).
(* common.py:25-32 *)
Definition correlation_step (N : numerics) : step :=
  mkStep "CorrelationCoefficientTest" pairs_gen false false false false (correlation_test N).
(* common.py:77-84 *)
Definition partial_step (par : bool) (N : numerics) : step :=
  mkStep "PartialCorrelationTest" (gen_all (mkCS 3 3)) false par false false (partial_test N).
(* common.py:168-176 and the generators used in algorithms/pc.py *)
Definition matrix_step (so : list id -> list id) (min : nat) (N : numerics) : step :=
  mkStep "ExtendedPartialCorrelationTestMatrix" (gen_neighbours so None true (mkCS min 0)) true false false false
         (matrix_test so N).
Definition matrix_step_parallel (so : list id -> list id) (sh : nat * id * id -> list (list id) -> list (list id)) (N : numerics) : step :=
  mkStep "ExtendedPartialCorrelationTestMatrix" (gen_neighbours so (Some sh) false (mkCS 4 0)) false true false false
         (matrix_test so N).
Definition matrix_step_sampled (so : list id -> list id) (sh : nat * id * id -> list (list id) -> list (list id))
           (coin : nat -> nat -> bool) (N : numerics) : step :=
  mkStep "ExtendedPartialCorrelationTestMatrix" (fun g => gen_sample coin (gen_neighbours so (Some sh) false (mkCS 4 0) g))
         false true false false (matrix_test so N).
(* pc.py:77-90 *)
Definition collider_step (st : cstrategy) (so : list id -> list id) : step :=
  mkStep "ColliderTest" pairs_gen false false true false (collider_test st so).
(* pc.py:217-224, 308-315, 366-373, 434-441 *)
Definition non_collider_step (so : list id -> list id) : step :=
  mkStep "NonColliderTest" pairs_gen false false false false (non_collider_test so).
Definition triple_step : step :=
  mkStep "FurtherOrientTripleTest" pairs_gen false false false false triple_test.
Definition quadruple_step (so : list id -> list id) : step :=
  mkStep "OrientQuadrupleTest" pairs_gen false false false false (quadruple_test so).
Definition further_quadruple_step (so : list id -> list id) : step :=
  mkStep "FurtherOrientQuadrupleTest" pairs_gen false false false false (further_quadruple_test so).
(* multivariate_regression.py:15-21; PairsWithEdgesInBetweenGenerator with chunked=None *)
Definition effect_step (N : numerics) : step :=
  mkStep "ComputeDirectEffectsInDAGsMultivariateRegression" (gen_edges false 100) false false false false (effect_process N).

(* algorithms/pc.py:44-56 *)
Definition orientation_steps (so : list id -> list id) : list step :=
  [non_collider_step so; triple_step; quadruple_step so; further_quadruple_step so].
Definition orientation_rules (so : list id -> list id) : list pstep :=
  [PStep (collider_step KEEP_FIRST so); PLoop "Loop" exit_on_no_actions (orientation_steps so)].

(* algorithms/pc.py:67-91 (PC) *)
Definition pc_skeleton (so : list id -> list id) (N : numerics) : list pstep :=
  [PStep (calculate_pearson N); PStep (correlation_step N); PStep (partial_step false N); PStep (matrix_step so 4 N)].
Definition pc (so : list id -> list id) (N : numerics) : list pstep :=
  (pc_skeleton so N ++ orientation_rules so ++ [PStep (effect_step N)])%list.

(* algorithms/pc.py:93-122 (PCClassic) *)
Definition pc_classic_skeleton (so : list id -> list id) (N : numerics) : list pstep :=
  [PStep (calculate_pearson N); PStep (correlation_step N); PStep (matrix_step so 3 N)].
Definition pc_classic (so : list id -> list id) (N : numerics) : list pstep :=
  (pc_classic_skeleton so N ++ orientation_rules so ++ [PStep (effect_step N)])%list.

(* algorithms/pc.py:124-151 (PCStable) *)
Definition pc_stable_skeleton (so : list id -> list id) (N : numerics) : list pstep :=
  [PStep (calculate_pearson N);
   PTogether "ApplyActionsTogether" [correlation_step N; partial_step false N; matrix_step so 4 N]].
Definition pc_stable (so : list id -> list id) (N : numerics) : list pstep :=
  (pc_stable_skeleton so N ++ orientation_rules so ++ [PStep (effect_step N)])%list.

(* algorithms/pc.py:154-209 (ParallelPC) *)
Definition pc_parallel_skeleton (so : list id -> list id) (sh sh' : nat * id * id -> list (list id) -> list (list id))
           (coin : nat -> nat -> bool) (N : numerics) : list pstep :=
  [PStep (calculate_pearson N); PStep (correlation_step N); PStep (partial_step true N);
   PStep (matrix_step_sampled so sh coin N); PStep (matrix_step_parallel so sh' N)].
Definition pc_parallel (so : list id -> list id) (sh sh' : nat * id * id -> list (list id) -> list (list id))
           (coin : nat -> nat -> bool) (N : numerics) : list pstep :=
  (pc_parallel_skeleton so sh sh' coin N ++ orientation_rules so ++ [PStep (effect_step N)])%list.
