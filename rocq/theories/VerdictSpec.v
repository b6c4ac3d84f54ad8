(* Specification vocabulary for two runs whose tests come to the same verdicts, on whatever numbers. *)
From Verif Require Import Base PyDict Graph Actions Generators Rules IndepTests Pipeline Parallel PipeSpec DataSpec.
Open Scope string_scope.
Open Scope list_scope.

(* c and c' are the coefficients of two variables, calculated by N from the columns t and by N' from t', in the same
   order of the two variables *)
Definition stored (N N' : numerics) (t t' : id -> list Z) (x y : id) (c c' : Z) : Prop :=
  (n_pearson N (t x) (t y) = Ok c /\ n_pearson N' (t' x) (t' y) = Ok c') \/
  (n_pearson N (t y) (t x) = Ok c /\ n_pearson N' (t' y) (t' x) = Ok c').
(* two outcomes of a routine: the same value, or exceptions that ee relates *)
Definition agree {A} (ee : exn -> exn -> Prop) (r r' : res A) : Prop :=
  match r, r' with Ok a, Ok a' => a' = a | Err e, Err e' => ee e e' | _, _ => False end.
(* Every test that N makes on the columns t of the variables ns comes to the same verdict as the one N' makes on t', or
   both raise.  The coefficients themselves may differ. *)
Record same_verdicts (ee : exn -> exn -> Prop) (ns : list id) (N N' : numerics) (t t' : id -> list Z) : Prop := {
  sv_pearson : forall x y, In x ns -> In y ns ->
    match n_pearson N (t x) (t y), n_pearson N' (t' x) (t' y) with Ok _, Ok _ => True | Err e, Err e' => ee e e' | _, _ => False end;
  sv_corr : forall x y c c', In x ns -> In y ns -> x <> y -> stored N N' t t' x y c c' ->
    agree ee (n_corr_test N (List.length (t x)) c) (n_corr_test N' (List.length (t' x)) c');
  sv_partial : forall k x y z a b c a' b' c', In x ns -> In y ns -> In z ns -> NoDup [x; y; z] ->
    stored N N' t t' x y a a' -> stored N N' t t' x z b b' -> stored N N' t t' y z c c' ->
    agree ee (n_partial N (List.length (t x)) k a b c) (n_partial N' (List.length (t' x)) k a' b' c');
  sv_matrix : forall l, (2 <= List.length l)%nat -> (forall x, In x l -> In x ns) -> agree ee (n_matrix N (map t l)) (n_matrix N' (map t' l)) }.

(* the loops of a pipeline end as the shipped ones do *)
Definition shipped_exits (l : list pstep) : Prop := forall name exit s, In (PLoop name exit s) l -> exit = exit_on_no_actions.

(* the same removals, with the same separating sets, in the same order *)
Definition same_removals (g g' : graph) : Prop := forall u v,
  retrieve_edge_history g' u v (Some REMOVE_EDGE_UNDIRECTED) = retrieve_edge_history g u v (Some REMOVE_EDGE_UNDIRECTED).
