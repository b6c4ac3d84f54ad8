(* Specification vocabulary for executing a finished model again. *)
From Verif Require Import Base PyDict Graph Generators GenSpec IndepTests Pipeline.
Open Scope string_scope.
Open Scope list_scope.

(* the second run executes the same steps; ParallelPC draws its sample and its orders anew *)
Inductive executed_again (so : list id -> list id) (N : numerics) : list pstep -> list pstep -> Prop :=
| again_same : forall l, executed_again so N l l
| again_parallel : forall sh1 sh1' coin1 sh2 sh2' coin2, is_shuffle (Some sh2) -> is_shuffle (Some sh2') ->
    executed_again so N (pc_parallel so sh1 sh1' coin1 N) (pc_parallel so sh2 sh2' coin2 N).
