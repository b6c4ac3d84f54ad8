(* Specification vocabulary for runs whose tests may answer anything. *)
From Verif Require Import Base PyDict Graph PathSpec Actions ActionSpec Generators GenSpec IndepTests Pipeline Parallel.
Open Scope string_scope.
Open Scope list_scope.

(* e is an exception that one of the numeric functions a PC run calls (correlation coefficient, the three
   independence tests, regression) raises on some input *)
Inductive raised (N : numerics) (e : exn) : Prop :=
| raised_pearson : forall xs ys, n_pearson N xs ys = Err e -> raised N e
| raised_corr : forall n c, n_corr_test N n c = Err e -> raised N e
| raised_partial : forall n k a b c, n_partial N n k a b c = Err e -> raised N e
| raised_matrix : forall l, n_matrix N l = Err e -> raised N e
| raised_effect : forall xs zs ys, n_effect N xs zs ys = Err e -> raised N e.

(* the PC algorithms and their skeleton phases; for ParallelPC any shuffles, any sampling and any
   behaviour of the worker pool *)
Inductive pc_algorithm (P : runner) (so : list id -> list id) (N : numerics) : list pstep -> list pstep -> Prop :=
| pa_pc : pc_algorithm P so N (pc_skeleton so N) (pc so N)
| pa_classic : pc_algorithm P so N (pc_classic_skeleton so N) (pc_classic so N)
| pa_stable : pc_algorithm P so N (pc_stable_skeleton so N) (pc_stable so N)
| pa_parallel : forall sh sh' coin, is_shuffle (Some sh) -> is_shuffle (Some sh') -> pool_runner no_hooks P ->
    pc_algorithm P so N (pc_parallel_skeleton so sh sh' coin N) (pc_parallel so sh sh' coin N).

(* x stands before y in the data *)
Definition before (l : list id) (x y : id) : Prop := exists a b c, l = a ++ x :: b ++ y :: c.
(* one number for every two variables, computed from their values in the order of the data *)
Definition coefficient (N : numerics) (g0 : graph) (x y : id) (z : Z) : Prop :=
  (before (dkeys (nodes g0)) x y /\ n_pearson N (values_of g0 x) (values_of g0 y) = Ok z) \/
  (before (dkeys (nodes g0)) y x /\ n_pearson N (values_of g0 y) (values_of g0 x) = Ok z).

(* every two nodes are connected both ways, and the edges carry metadata *)
Definition all_connected (g : graph) : Prop := forall u v, In u (dkeys (nodes g)) -> In v (dkeys (nodes g)) -> u <> v ->
  directed_edge_exists g u v = true /\ exists e m, entry g u v = Some e /\ e_meta e = Some m.
(* m' is m with the correlation z written into it, everything else as it was *)
Definition with_correlation (z : Z) (m m' : meta) : Prop :=
  dget m' "correlation" = Some (MNum z) /\ forall k, k <> "correlation" -> dget m' k = dget m k.
