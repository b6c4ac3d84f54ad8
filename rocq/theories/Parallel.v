(* causy/graph_model.py:450-472: a parallel step.  The generator is consumed by the feeder thread of the
   pool, tasks are pickled (and with them a copy of the graph) when they are handed to a worker, and
   results are applied by the main thread in the order in which they arrive.  A task may therefore see
   any state the graph has had since the step began. *)
From Verif Require Import Base PyDict Graph Actions Generators Rules IndepTests Pipeline.

(* graph_model.py:462-465: a list result is handed over item by item, None as [None] *)
Definition single_results (o : outcome) : list outcome :=
  match o with None => [None] | Some l => map (fun i => Some [i]) l end.

(* blocks: rest of the generator; tasks: generated but not yet run; done_: results not yet applied;
   past: states of the graph since the beginning of the step, the current one included. *)
Inductive par_run (H : hooks) (dry : bool) (s : step) :
  lazyg -> list emission -> list outcome -> list graph -> graph -> acts2 -> graph * res acts2 -> Prop :=
| par_end : forall past g a, par_run H dry s [] [] [] past g a (g, Ok a)
| par_gen : forall f bs tasks done_ past g a g0 es r, In g0 past -> f g0 = Ok es ->
    par_run H dry s bs (tasks ++ es) done_ past g a r ->
    par_run H dry s (f :: bs) tasks done_ past g a r
| par_gen_error : forall f bs tasks done_ past g a g0 e, In g0 past -> f g0 = Err e ->
    par_run H dry s (f :: bs) tasks done_ past g a (g, Err e)
| par_work : forall bs t1 t t2 done_ past g a g0 o r, In g0 past ->
    rbind (as_args t) (fun ns => call s g0 ns None) = Ok o ->
    par_run H dry s bs (t1 ++ t2) (o :: done_) past g a r ->
    par_run H dry s bs (t1 ++ t :: t2) done_ past g a r
| par_work_error : forall bs t1 t t2 done_ past g a g0 e, In g0 past ->
    rbind (as_args t) (fun ns => call s g0 ns None) = Err e ->
    par_run H dry s bs (t1 ++ t :: t2) done_ past g a (g, Err e)
| par_take : forall bs tasks d1 o d2 past g a g' b r,
    take_action H dry (single_results o) g = (g', Ok b) ->
    par_run H dry s bs tasks (d1 ++ d2) (g' :: past) g' (plus2 a b) r ->
    par_run H dry s bs tasks (d1 ++ o :: d2) past g a r
| par_take_error : forall bs tasks d1 o d2 past g a g' e,
    take_action H dry (single_results o) g = (g', Err e) ->
    par_run H dry s bs tasks (d1 ++ o :: d2) past g a (g', Err e).

(* every execution of a parallel step on g *)
Definition par_exec (H : hooks) (s : step) (dry : bool) (g : graph) (r : graph * res acts2) : Prop :=
  par_run H dry s (s_gen s g) [] [] [g] g ([], []) r.

(* a runner that behaves like the pool, with whatever schedule *)
Definition pool_runner (H : hooks) (P : runner) : Prop := forall s dry g, par_exec H s dry g (P s dry g).
