(* Specification vocabulary for C126: pipelines put together from the steps that causy ships. *)
From Verif Require Import Base PyDict Graph PathSpec Actions ActionSpec Generators GenSpec Rules IndepTests Pipeline Parallel.
Open Scope string_scope.
Open Scope list_scope.

Section Arrange.
Variables (P : runner) (so : list id -> list id) (N : numerics).
(* a test with one or more conditioning variables, with any of the generators that the algorithms use; steps that run in the
   process pool need one that works *)
Inductive conditional_test : step -> Prop :=
| ct_partial : conditional_test (partial_step false N)
| ct_partial_pool : pool_runner no_hooks P -> conditional_test (partial_step true N)
| ct_matrix : forall min, 3 <= min -> conditional_test (matrix_step so min N)
| ct_sampled : forall sh coin, is_shuffle (Some sh) -> pool_runner no_hooks P -> conditional_test (matrix_step_sampled so sh coin N)
| ct_parallel : forall sh, is_shuffle (Some sh) -> pool_runner no_hooks P -> conditional_test (matrix_step_parallel so sh N).
(* the correlation test, alone or applied together with other tests *)
Inductive first_part : pstep -> Prop :=
| fp_step : first_part (PStep (correlation_step N))
| fp_together : forall name l, (forall s, In s l -> s = correlation_step N \/ conditional_test s) -> first_part (PTogether name l).
(* further tests, one after the other or together *)
Inductive test_part : pstep -> Prop :=
| tp_step : forall s, conditional_test s -> test_part (PStep s)
| tp_together : forall name l, (forall s, In s l -> conditional_test s) -> test_part (PTogether name l).
(* collider detection and orientation rules: alone, together, the rules also in a loop; estimation of effects *)
Inductive late_part : pstep -> Prop :=
| lp_step : forall s, In s (collider_step KEEP_FIRST so :: orientation_steps so) -> late_part (PStep s)
| lp_loop : forall name l, (forall s, In s l -> In s (orientation_steps so)) -> late_part (PLoop name exit_on_no_actions l)
| lp_together : forall name l, (forall s, In s l -> In s (collider_step KEEP_FIRST so :: orientation_steps so)) -> late_part (PTogether name l)
| lp_effect : late_part (PStep (effect_step N)).
(* correlations first, then at most once the correlation test, then other tests, then the rest; each of the last two parts in
   any order, with steps left out or repeated *)
Inductive arranged : list pstep -> Prop :=
| arranged_all : forall fs ts ls, (fs = [] \/ exists f, fs = [f] /\ first_part f) -> (forall t, In t ts -> test_part t) -> (forall p, In p ls -> late_part p) ->
    arranged (PStep (calculate_pearson N) :: fs ++ ts ++ ls).
End Arrange.
