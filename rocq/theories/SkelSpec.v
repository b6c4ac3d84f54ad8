(* Specification vocabulary for constraint-based discovery: a DAG over the variables and tests that
   answer exactly by d-separation in it. *)
From Verif Require Import Base PyDict Graph Dag IndepTests.

(* a DAG given by the list of its arrows *)
Definition edge_in (D : list (id * id)) (x y : id) : Prop := In (x, y) D.
Record dag_over (ns : list id) (D : list (id * id)) : Prop := {
  do_nodes : forall x y, In (x, y) D -> In x ns /\ In y ns;
  do_acyclic : acyclic (edge_in D) }.
Definition dsep (D : list (id * id)) (x y : id) (S : list id) : Prop :=
  d_separated (edge_in D) x y (fun z => In z S).

Definition says (b : bool) (P : Prop) : Prop := b = true <-> P.

(* Every numeric test answers "independent" exactly for d-separated variables.  c x y is the
   correlation coefficient of x and y, a number the tests are given. *)
Record perfect_tests (N : numerics) (vals : id -> list Z) (ns : list id) (D : list (id * id)) (c : id -> id -> Z) : Prop := {
  pt_sym : forall x y, c x y = c y x;
  pt_pearson : forall x y, In x ns -> In y ns -> x <> y -> n_pearson N (vals x) (vals y) = Ok (c x y);
  pt_corr : forall x y, In x ns -> In y ns -> x <> y ->
    exists b, n_corr_test N (List.length (vals x)) (c x y) = Ok b /\ says b (dsep D x y []);
  pt_partial : forall x y z, In x ns -> In y ns -> In z ns -> NoDup [x; y; z] ->
    exists b, n_partial N (List.length (vals x)) 1 (c x y) (c x z) (c y z) = Ok (Some b) /\ says b (dsep D x y [z]);
  pt_matrix : forall x y S, NoDup (x :: y :: S) -> (forall z, In z (x :: y :: S) -> In z ns) -> S <> [] ->
    exists b, n_matrix N (map vals (x :: y :: S)) = Ok (Some b) /\ says b (dsep D x y S) }.

(* the recorded separating set of a pair, as the edge history of the graph gives it *)
Definition recorded_separator (g : graph) (x y : id) (S : list id) : Prop :=
  exists i d, retrieve_edge_history g x y (Some REMOVE_EDGE_UNDIRECTED) = Ok [i] /\ t_data i = Some d /\
    dget d "separatedBy"%string = Some (MNodes S).

(* two variables are adjacent in the graph, in both directions, exactly when they are adjacent in D *)
Definition skeleton_is (g : graph) (D : list (id * id)) : Prop := forall x y,
  (edge_exists g x y = true <-> adjacent (edge_in D) x y) /\
  (undirected_edge_exists g x y = true <-> adjacent (edge_in D) x y).
(* a separating set of variables other than the two that d-separates them *)
Definition right_separator (ns : list id) (D : list (id * id)) (x y : id) (S : list id) : Prop :=
  (forall z, In z S -> In z ns) /\ ~ In x S /\ ~ In y S /\ dsep D x y S.
(* every pair that the graph does not connect carries one *)
Definition separators_right (g : graph) (ns : list id) (D : list (id * id)) : Prop := forall x y,
  In x ns -> In y ns -> x <> y -> edge_exists g x y = false ->
  exists S, recorded_separator g x y S /\ right_separator ns D x y S.
