(* Specification vocabulary for C127: steps that users of causy write themselves. *)
From Verif Require Import Base PyDict Graph PathSpec Actions ActionSpec Generators GenSpec Rules IndepTests Pipeline Parallel Dag SkelSpec ArrangeSpec.
Open Scope string_scope.
Open Scope list_scope.

Section Extend.
Variables (P : runner) (so : list id -> list id) (N : numerics) (g0 : graph) (D : list (id * id)) (c : id -> id -> Z).
(* what a test may count on while the tests are running: the variables, edges in both directions that carry the correlation,
   and that adjacent variables are still connected *)
Definition seen (g : graph) : Prop := nodes g = nodes g0 /\
  (forall x y, directed_edge_exists g x y = true -> directed_edge_exists g y x = true /\ exists e m, get_edge g x y = Ok e /\ e_meta e = Some m /\ dget m "correlation" = Some (MNum (c x y))) /\
  (forall x y, adjacent (edge_in D) x y -> undirected_edge_exists g x y = true).
(* a result that a test may give: nothing, or a removal with a set that separates *)
Definition true_result (i : tresult) : Prop := t_act i = DO_NOTHING \/
  exists x y S, i = separated x y S /\ In x (dkeys (nodes g0)) /\ In y (dkeys (nodes g0)) /\ x <> y /\ right_separator (dkeys (nodes g0)) D x y S.
(* a step whose generator asks for lists of nodes and never fails, and whose test gives only such results for them; whether it
   runs in chunks, in the pool, synchronously or with the unapplied actions *)
Definition own_test (s : step) : Prop := exists asked : list id -> Prop,
  (forall g g' f, seen g -> In f (s_gen s g) -> seen g' -> exists es, f g' = Ok es /\
    forall e, In e es -> if negb (s_parallel s) && s_chunked s then forall ns, In ns (as_chunk e) -> asked ns else exists ns, as_args e = Ok ns /\ asked ns) /\
  (forall g ns us, seen g -> asked ns -> exists o, s_proc s g ns us = Ok o /\ forall i, In i (items_of o) -> true_result i) /\
  (s_parallel s = true -> pool_runner no_hooks P).
(* tests of users and tests that causy ships, one after the other or applied together *)
Definition any_test (s : step) : Prop := conditional_test P so N s \/ own_test s.
Inductive any_part : pstep -> Prop :=
| ap_step : forall s, any_test s -> any_part (PStep s)
| ap_together : forall name l, (forall s, In s l -> any_test s) -> any_part (PTogether name l).
End Extend.
