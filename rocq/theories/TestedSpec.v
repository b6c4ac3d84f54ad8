(* Specification vocabulary: what the independence tests answer on the data of a run, whatever they answer. *)
From Verif Require Import Base PyDict Graph PathSpec Actions Generators GenSpec IndepTests Pipeline Parallel TotalSpec.
Open Scope list_scope.
Open Scope nat_scope.

Section Data.
Variable N : numerics.
Variable g0 : graph.
(* x stands before y in the data *)
Definition earlier (x y : id) : Prop := before (dkeys (nodes g0)) x y.

(* the answers, for x before y in the data (the first two), and for any order (the third) *)
Definition corr_answer (x y : id) (b : bool) : Prop :=
  exists a, coefficient N g0 x y a /\ n_corr_test N (List.length (values_of g0 x)) a = Ok b.
Definition partial_answer (x y z : id) (o : option bool) : Prop :=
  exists a b c, coefficient N g0 x y a /\ coefficient N g0 x z b /\ coefficient N g0 y z c /\
    n_partial N (List.length (values_of g0 x)) 1 a b c = Ok o.
Definition matrix_answer (x y : id) (S : list id) (o : option bool) : Prop :=
  n_matrix N (map (values_of g0) (x :: y :: S)) = Ok o.

(* Some test found x and y independent given S.  single: single variables are conditioned on with the
   partial correlation test, larger sets with the matrix test; otherwise all sets with the matrix test. *)
Inductive found_independent (single : bool) (x y : id) : list id -> Prop :=
| fi_none : earlier x y -> corr_answer x y true -> found_independent single x y []
| fi_none' : earlier y x -> corr_answer y x true -> found_independent single x y []
| fi_one : forall z, single = true -> earlier x y -> partial_answer x y z (Some true) -> found_independent single x y [z]
| fi_one' : forall z, single = true -> earlier y x -> partial_answer y x z (Some true) -> found_independent single x y [z]
| fi_set : forall S S', Permutation S' S -> (if single then 2 <= List.length S else 1 <= List.length S) ->
    matrix_answer x y S' (Some true) \/ matrix_answer y x S' (Some true) -> found_independent single x y S.

(* a set of other variables *)
Definition other_variables (x y : id) (S : list id) : Prop :=
  NoDup (x :: y :: S) /\ forall z, In z S -> In z (dkeys (nodes g0)).

(* the partial correlation test answers for the three pairs of the triple *)
Definition answers_triple (x y z : id) : Prop :=
  forall u v w, Permutation [u; v; w] [x; y; z] -> earlier u v -> ~ partial_answer u v w None.
(* the matrix test finds x and y independent given S, in whichever order the variables of S are passed *)
Definition always_independent (x y : id) (S : list id) : Prop :=
  forall S', Permutation S' S -> matrix_answer x y S' (Some true).

End Data.

(* Tests that answer for all triples, and whose answers do not depend on the order of the arguments, on the
   columns vals of the variables ids. *)
Record regular_tests (N : numerics) (ids : list id) (vals : id -> list Z) : Prop := {
  rt_length : forall x y, In x ids -> In y ids -> List.length (vals x) = List.length (vals y);
  rt_pearson : forall x y, In x ids -> In y ids -> n_pearson N (vals x) (vals y) = n_pearson N (vals y) (vals x);
  rt_partial : forall x y z a b c, In x ids -> In y ids -> In z ids -> NoDup [x; y; z] ->
    n_pearson N (vals x) (vals y) = Ok a -> n_pearson N (vals x) (vals z) = Ok b -> n_pearson N (vals y) (vals z) = Ok c ->
    n_partial N (List.length (vals x)) 1 a b c = n_partial N (List.length (vals x)) 1 a c b /\
    n_partial N (List.length (vals x)) 1 a b c <> Ok None;
  rt_matrix : forall x y S S', (forall z, In z (x :: y :: S) -> In z ids) -> NoDup (x :: y :: S) -> Permutation S S' ->
    n_matrix N (map vals (x :: y :: S)) = n_matrix N (map vals (x :: y :: S')) /\
    n_matrix N (map vals (x :: y :: S)) = n_matrix N (map vals (y :: x :: S)) }.

(* x and y are independent given some other variables, by one of the tests; nothing here refers to the order
   of the variables in the data *)
Definition independent_by_values (N : numerics) (ids : list id) (vals : id -> list Z) (x y : id) : Prop :=
  (exists a, n_pearson N (vals x) (vals y) = Ok a /\ n_corr_test N (List.length (vals x)) a = Ok true) \/
  (exists z a b c, In z ids /\ NoDup [x; y; z] /\ n_pearson N (vals x) (vals y) = Ok a /\ n_pearson N (vals x) (vals z) = Ok b /\
     n_pearson N (vals y) (vals z) = Ok c /\ n_partial N (List.length (vals x)) 1 a b c = Ok (Some true)) \/
  (exists S, NoDup (x :: y :: S) /\ (forall z, In z S -> In z ids) /\ 2 <= List.length S /\
     n_matrix N (map vals (x :: y :: S)) = Ok (Some true)).

(* the same columns under other names, hence possibly in another order *)
Definition renamed (s : id -> id) (g0 g0' : graph) : Prop :=
  Permutation (dkeys (nodes g0')) (map s (dkeys (nodes g0))) /\
  (forall x, In x (dkeys (nodes g0)) -> values_of g0' (s x) = values_of g0 x).

(* the skeleton phases, with whether they condition on single variables by the partial correlation test *)
Inductive skeleton_of (P : runner) (so : list id -> list id) (N : numerics) : bool -> list pstep -> Prop :=
| so_pc : skeleton_of P so N true (pc_skeleton so N)
| so_classic : skeleton_of P so N false (pc_classic_skeleton so N)
| so_stable : skeleton_of P so N true (pc_stable_skeleton so N)
| so_parallel : forall sh sh' coin, is_shuffle (Some sh) -> is_shuffle (Some sh') -> pool_runner no_hooks P ->
    skeleton_of P so N true (pc_parallel_skeleton so sh sh' coin N).
