(* The step ColliderRuleFCI; its process is collider_rule_fci of Rules.v. *)
From Verif Require Import Base Graph Generators Rules IndepTests Pipeline.
Open Scope string_scope.

(* fci.py:13-20 (ColliderRuleFCI: all pairs of nodes, one at a time, not in parallel) *)
Definition fci_rule (so : list id -> list id) : step := mkStep "ColliderRuleFCI" pairs_gen false false false false (collider_rule_fci so).
