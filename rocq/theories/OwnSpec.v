(* Specification vocabulary for algorithms that a user puts together from the shipped steps: one of the skeleton
   phases, a ColliderTest, and then the orientation rules in an arrangement of the user's own. *)
From Verif Require Import Base Graph Actions Generators GenSpec IndepTests Rules Pipeline Parallel Schedules.
Open Scope list_scope.

(* only orientation rules, each any number of times and in any order *)
Definition only_rules (so : list id -> list id) (l : list step) : Prop := forall s, In s l -> In s (orientation_steps so).
(* NonColliderTest, FurtherOrientTripleTest and OrientQuadrupleTest are among the steps; FurtherOrientQuadrupleTest need not be *)
Definition has_three (so : list id -> list id) (l : list step) : Prop :=
  In (non_collider_step so) l /\ In triple_step l /\ In (quadruple_step so) l.
(* a rule on its own, in a Loop or in an ApplyActionsTogether *)
Inductive arranged (so : list id -> list id) : pstep -> Prop :=
| ar_step : forall s, In s (orientation_steps so) -> arranged so (PStep s)
| ar_loop : forall name l, only_rules so l -> arranged so (PLoop name exit_on_no_actions l)
| ar_together : forall name l, only_rules so l -> arranged so (PTogether name l).
Inductive skeleton_phase (P : runner) (so : list id -> list id) (N : numerics) : list pstep -> Prop :=
| sp_pc : skeleton_phase P so N (pc_skeleton so N)
| sp_classic : skeleton_phase P so N (pc_classic_skeleton so N)
| sp_parallel : forall sh sh' coin, is_shuffle (Some sh) -> is_shuffle (Some sh') -> pool_runner no_hooks P -> early_on (partial_step true N) P ->
    skeleton_phase P so N (pc_parallel_skeleton so sh sh' coin N).
(* the last Loop contains the three rules; effect estimation may follow *)
Inductive own_algorithm (P : runner) (so : list id -> list id) (N : numerics) : list pstep -> Prop :=
| own : forall sk st first name l last, skeleton_phase P so N sk -> Forall (arranged so) first -> only_rules so l -> has_three so l ->
    (last = [] \/ last = [PStep (effect_step N)]) ->
    own_algorithm P so N (sk ++ PStep (collider_step st so) :: first ++ PLoop name exit_on_no_actions l :: last).
