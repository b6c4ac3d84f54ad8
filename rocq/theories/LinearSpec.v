(* Specification vocabulary for data that follow linear structural equations over a DAG. *)
From Coq Require Import Reals List.
From Verif Require Import Base PyDict Graph SampleGen SampleSpec Dag IndepTests SkelSpec Numeric NumericSpec.
Import ListNotations.
Open Scope R_scope.

(* the arrows of weighted edges *)
Definition arrows (es : list (sedge R)) : list (id * id) := map (fun e => (se_from e, se_to e)) es.
(* what observation t of v has beyond the weighted sum of its causes; col v are the observations of v *)
Definition noise (es : list (sedge R)) (col : id -> list R) (v : id) (t : nat) : R :=
  at_ (col v) t - vsum (map (fun e => se_value e * at_ (col (se_from e)) t) (incoming es v)).
(* n observations of two quantities have covariance 0 *)
Definition uncorrelated (n : nat) (e f : nat -> R) : Prop := INR n * sumn n (fun t => e t * f t) = sumn n e * sumn n f.
Definition varies (n : nat) (e : nat -> R) : Prop := ~ uncorrelated n e e.
(* n observations of the variables ns; the noise of different variables is uncorrelated *)
Record linear_data (n : nat) (ns : list id) (es : list (sedge R)) (col : id -> list R) : Prop := {
  ld_dag : dag_over ns (arrows es);
  ld_length : forall v, In v ns -> List.length (col v) = n;
  ld_noise : forall u v, In u ns -> In v ns -> u <> v -> uncorrelated n (noise es col u) (noise es col v) }.

(* The routines N calculate without rounding on the columns vals of the variables ns: dec is the number a bit pattern
   stands for, code the bit pattern of a coefficient. *)
Record exact_tests (dec : Z -> R) (code : option R -> Z) (Phi : R -> R) (th : R) (n : nat) (vals : id -> list Z) (ns : list id) (N : numerics) : Prop := {
  et_pearson : forall x y, In x ns -> In y ns -> x <> y -> n_pearson N (vals x) (vals y) = Ok (code (pearson (map dec (vals x)) (map dec (vals y))));
  et_corr : forall x y r b, In x ns -> In y ns -> x <> y -> pearson (map dec (vals x)) (map dec (vals y)) = Some r ->
    fisher_test Phi th n 0 r = Some b -> n_corr_test N n (code (Some r)) = Ok b;
  et_partial : forall x y z rxy rxz ryz r b, In x ns -> In y ns -> In z ns -> NoDup [x; y; z] ->
    pearson (map dec (vals x)) (map dec (vals y)) = Some rxy -> pearson (map dec (vals x)) (map dec (vals z)) = Some rxz -> pearson (map dec (vals y)) (map dec (vals z)) = Some ryz ->
    partial3 rxy rxz ryz = Some r -> fisher_test Phi th n 1 r = Some b -> n_partial N n 1 (code (Some rxy)) (code (Some rxz)) (code (Some ryz)) = Ok (Some b);
  et_matrix : forall x y S P b, NoDup (x :: y :: S) -> (forall z, In z (x :: y :: S) -> In z ns) -> S <> [] ->
    inverts (List.length (x :: y :: S)) P (cov (map (fun v => map dec (vals v)) (x :: y :: S))) ->
    fisher_test Phi th n (List.length S) (matrix_par (List.length (x :: y :: S)) P) = Some b -> n_matrix N (map vals (x :: y :: S)) = Ok (Some b) }.
(* every dependence is strong enough to be seen in n observations: the exact test rejects independence of any two
   variables given any others that do not d-separate them *)
Definition detected (Phi : R -> R) (th : R) (n : nat) (ns : list id) (D : list (id * id)) (col : id -> list R) : Prop :=
  forall x y S P, NoDup (x :: y :: S) -> (forall z, In z (x :: y :: S) -> In z ns) -> ~ dsep D x y S ->
    inverts (List.length (x :: y :: S)) P (cov (map col (x :: y :: S))) -> fisher_test Phi th n (List.length S) (matrix_par (List.length (x :: y :: S)) P) = Some false.
