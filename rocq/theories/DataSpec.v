(* Specification vocabulary for runs on different data. *)
From Verif Require Import Base PyDict Graph Actions Generators Rules IndepTests Pipeline Parallel PipeSpec.
Open Scope list_scope.

(* the graph with the node table ns in place of its own *)
Definition on_nodes (ns : dict id node) (g : graph) : graph := mkGraph ns (edges g) (redges g) (dedges g) (ehist g) (ahist g).

(* the numeric routines N and N' answer alike on the columns t and t' of the variables in ns *)
Record same_answers (ns : list id) (N N' : numerics) (t t' : id -> list Z) : Prop := {
  sa_pearson : forall x y, In x ns -> In y ns -> n_pearson N (t x) (t y) = n_pearson N' (t' x) (t' y);
  sa_corr : forall x c, In x ns -> n_corr_test N (List.length (t x)) c = n_corr_test N' (List.length (t' x)) c;
  sa_partial : forall x k a b c, In x ns -> n_partial N (List.length (t x)) k a b c = n_partial N' (List.length (t' x)) k a b c;
  sa_matrix : forall l, (2 <= List.length l)%nat -> (forall x, In x l -> In x ns) -> n_matrix N (map t l) = n_matrix N' (map t' l) }.
Definition same_regressions (ns : list id) (N N' : numerics) (t t' : id -> list Z) : Prop :=
  forall x y l, In x ns -> In y ns -> (forall z, In z l -> In z ns) -> n_regress N (t x) (t y) (map t l) = n_regress N' (t' x) (t' y) (map t' l).
Definition same_effects (ns : list id) (N N' : numerics) (t t' : id -> list Z) : Prop :=
  forall x y l, In x ns -> In y ns -> (forall z, In z l -> In z ns) -> n_effect N (t x) (map t l) (t y) = n_effect N' (t' x) (map t' l) (t' y).

(* the generators that are shipped *)
Inductive shipped_gen : (graph -> lazyg) -> Prop :=
| sg_all : forall cs, shipped_gen (gen_all cs)
| sg_edges : forall chunked size, shipped_gen (gen_edges chunked size)
| sg_neighbours : forall so sh chunked cs, shipped_gen (gen_neighbours so sh chunked cs)
| sg_sample : forall coin gen, shipped_gen gen -> shipped_gen (fun g => gen_sample coin (gen g)).
(* the same shipped step, once with N and once with N' *)
Inductive same_proc (regressions effects : Prop) (N N' : numerics) : proc -> proc -> Prop :=
| sp_pearson : same_proc regressions effects N N' (pearson_process N) (pearson_process N')
| sp_corr : same_proc regressions effects N N' (correlation_test N) (correlation_test N')
| sp_partial : same_proc regressions effects N N' (partial_test N) (partial_test N')
| sp_matrix : forall so, same_proc regressions effects N N' (matrix_test so N) (matrix_test so N')
| sp_regression : forall so, regressions -> same_proc regressions effects N N' (regression_test so N) (regression_test so N')
| sp_effect : effects -> same_proc regressions effects N N' (effect_process N) (effect_process N')
| sp_collider : forall st so, same_proc regressions effects N N' (collider_test st so) (collider_test st so)
| sp_non_collider : forall so, same_proc regressions effects N N' (non_collider_test so) (non_collider_test so)
| sp_triple : same_proc regressions effects N N' triple_test triple_test
| sp_quadruple : forall so, same_proc regressions effects N N' (quadruple_test so) (quadruple_test so)
| sp_further_quadruple : forall so, same_proc regressions effects N N' (further_quadruple_test so) (further_quadruple_test so)
| sp_collider_fci : forall so, same_proc regressions effects N N' (collider_rule_fci so) (collider_rule_fci so).
Record same_step (regressions effects : Prop) (N N' : numerics) (s s' : step) : Prop := {
  st_name : s_name s' = s_name s;
  st_gen : s_gen s' = s_gen s;
  st_shipped : shipped_gen (s_gen s);
  st_chunked : s_chunked s' = s_chunked s;
  st_parallel : s_parallel s' = s_parallel s;
  st_unapplied : s_unapplied s' = s_unapplied s;
  st_sync : s_sync s' = s_sync s;
  st_proc : same_proc regressions effects N N' (s_proc s) (s_proc s') }.
Inductive same_pstep (regressions effects : Prop) (N N' : numerics) : pstep -> pstep -> Prop :=
| ss_step : forall s s', same_step regressions effects N N' s s' -> same_pstep regressions effects N N' (PStep s) (PStep s')
| ss_loop : forall name exit l l', Forall2 (same_step regressions effects N N') l l' -> same_pstep regressions effects N N' (PLoop name exit l) (PLoop name exit l')
| ss_together : forall name l l', Forall2 (same_step regressions effects N N') l l' -> same_pstep regressions effects N N' (PTogether name l) (PTogether name l').
(* the same pipeline of shipped steps, once with N and once with N'; the two flags tell under which conditions it may
   hold regression tests and effect steps *)
Definition same_pipeline (regressions effects : Prop) (N N' : numerics) : list pstep -> list pstep -> Prop := Forall2 (same_pstep regressions effects N N').
(* steps that do not use the process pool *)
Definition sequential (l : list pstep) : Prop := forall p s, In p l -> In s (steps_of p) -> s_parallel s = false.
(* P and P' do the same work for the steps of a pipeline and of its counterpart that use the process pool, whatever the
   graph with the node table n, resp. n' *)
Definition same_pools (regressions effects : Prop) (N N' : numerics) (n n' : dict id node) (P P' : runner) (l : list pstep) : Prop :=
  forall p s s' dry g, In p l -> In s (steps_of p) -> s_parallel s = true -> same_step regressions effects N N' s s' -> nodes g = n ->
  nodes (fst (P s dry g)) = n /\ P' s' dry (on_nodes n' g) = (on_nodes n' (fst (P s dry g)), snd (P s dry g)).
(* P runs the steps of l that use the process pool under some schedule *)
Definition pools (P : runner) (l : list pstep) : Prop := forall p s dry g, In p l -> In s (steps_of p) -> s_parallel s = true -> par_exec no_hooks s dry g (P s dry g).
(* two graphs have the same edges with the same types *)
Definition same_edges (g g' : graph) : Prop := forall u v, directed_edge_exists g' u v = directed_edge_exists g u v /\
  (directed_edge_exists g u v = true -> option_map e_type (dget2 (edges g') u v) = option_map e_type (dget2 (edges g) u v)).
