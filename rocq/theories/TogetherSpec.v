(* Specification vocabulary for steps that are applied together. *)
From Verif Require Import Base PyDict Graph Actions ActionSpec Generators IndepTests Pipeline.

(* the test of the step proposes only to remove undirected edges, or nothing *)
Definition only_removes (s : step) : Prop :=
  forall g ns us o i, s_proc s g ns us = Ok o -> In i (items_of o) -> t_act i = REMOVE_EDGE_UNDIRECTED \/ t_act i = DO_NOTHING.
(* the log entry of one of the steps *)
Definition entry_of (s : step) (a : acts2) : hstep := HStep (s_name s) (fst a) (snd a) [].
