(* Specification vocabulary: tests that need not be right everywhere, but are right where a PC algorithm relies on them. *)
From Verif Require Import Base PyDict Graph Dag PathSpec Actions Generators GenSpec IndepTests Rules Pipeline Parallel TotalSpec SkelSpec OrientSpec TestedSpec OwnSpec.
Open Scope list_scope.
Open Scope nat_scope.

Section Data.
Variable N : numerics.
Variable g0 : graph.
(* whether single variables are conditioned on with the partial correlation test (PC, PCStable, ParallelPC) or with the matrix test (PCClassic) *)
Variable single : bool.
Variable D : list (id * id).
Notation E := (edge_in D).

(* two variables that D connects directly are never found independent *)
Definition spares_edges : Prop := forall x y S, adjacent E x y -> other_variables g0 x y S -> ~ found_independent N g0 single x y S.
(* the test that is asked for x and y given S finds them independent, in whichever order the arguments arrive *)
Definition detects (x y : id) (S : list id) : Prop :=
  match S with
  | [] => (earlier g0 x y -> corr_answer N g0 x y true) /\ (earlier g0 y x -> corr_answer N g0 y x true)
  | [z] => if single then answers_triple N g0 x y z /\ (earlier g0 x y -> partial_answer N g0 x y z (Some true)) /\ (earlier g0 y x -> partial_answer N g0 y x z (Some true))
           else always_independent N g0 x y S
  | _ => always_independent N g0 x y S
  end.
(* every other two variables are found independent given some variables that D connects with the first of them *)
Definition separates_nearby : Prop := forall x y, In x (dkeys (nodes g0)) -> In y (dkeys (nodes g0)) -> x <> y -> ~ adjacent E x y ->
  exists S, other_variables g0 x y S /\
    ((forall z, In z S -> adjacent E x z) /\ detects x y S \/ (forall z, In z S -> adjacent E y z) /\ detects y x S).
(* the same, and a set of a single variable consists of one that satisfies alone *)
Definition separates_with (alone : id -> id -> id -> Prop) : Prop := forall x y, In x (dkeys (nodes g0)) -> In y (dkeys (nodes g0)) -> x <> y -> ~ adjacent E x y ->
  exists S, other_variables g0 x y S /\ (forall z, S = [z] -> alone x y z) /\
    ((forall z, In z S -> adjacent E x z) /\ detects x y S \/ (forall z, In z S -> adjacent E y z) /\ detects y x S).
(* ... of one that neither of the two is found independent of by the correlation test *)
Definition separates_correlated : Prop := separates_with (fun x y z => ~ found_independent N g0 single x z [] /\ ~ found_independent N g0 single y z []).
(* ... of one that D connects with both *)
Definition separates_between : Prop := separates_with (fun x y z => adjacent E x z /\ adjacent E y z).
(* the same given some variables, wherever they are *)
Definition separates_somehow : Prop := forall x y, In x (dkeys (nodes g0)) -> In y (dkeys (nodes g0)) -> x <> y -> ~ adjacent E x y ->
  exists S, other_variables g0 x y S /\ (detects x y S \/ detects y x S).
(* for x - z - y without an edge between x and y: z is in the sets given which x and y are found independent, unless x -> z <- y *)
Definition tells_colliders : Prop := forall x z y S, adjacent E x z -> adjacent E y z -> x <> y -> ~ adjacent E x y ->
  other_variables g0 x y S -> found_independent N g0 single x y S -> (In z S <-> ~ vstruct D x z y).
End Data.

(* the skeleton phases of PC, PCClassic and ParallelPC, each with what it needs to find the separations *)
Inductive separating_phase (P : runner) (so : list id -> list id) (N : numerics) (g0 : graph) (D : list (id * id)) : bool -> list pstep -> Prop :=
| sp_pc_phase : separates_correlated N g0 true D -> separating_phase P so N g0 D true (pc_skeleton so N)
| sp_classic_phase : separates_nearby N g0 false D -> separating_phase P so N g0 D false (pc_classic_skeleton so N)
| sp_parallel_phase : forall sh sh' coin, is_shuffle (Some sh) -> is_shuffle (Some sh') -> pool_runner no_hooks P -> separates_between N g0 true D ->
    separating_phase P so N g0 D true (pc_parallel_skeleton so sh sh' coin N).
(* ColliderTest with some strategy, orientation rules in any arrangement, and a Loop with at least the first three of them; effect estimation may follow *)
Inductive orienting (so : list id -> list id) (N : numerics) : list pstep -> Prop :=
| orienting_steps_of : forall st first name l last, Forall (arranged so) first -> only_rules so l -> has_three so l -> (last = [] \/ last = [PStep (effect_step N)]) ->
    orienting so N (PStep (collider_step st so) :: first ++ PLoop name exit_on_no_actions l :: last).
