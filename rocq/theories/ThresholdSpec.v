(* Specification vocabulary: independence tests given by p-values, used at different thresholds. *)
From Coq Require Import QArith.
From Verif Require Import Base PyDict Graph IndepTests.
Open Scope list_scope.
Open Scope nat_scope.

(* A p-value is a float: a rational number, or None for nan. *)
Definition pvalue : Type := option Q.
(* The tests up to the comparison with the threshold: exceptions, and None for the calls that return without a
   result, do not depend on it. *)
Record ptests := mkPTests {
  p_pearson : list Z -> list Z -> res Z;
  p_corr : nat -> Z -> res pvalue;
  p_partial : nat -> nat -> Z -> Z -> Z -> res (option pvalue);
  p_matrix : list (list Z) -> res (option pvalue);
  p_regress : list Z -> list Z -> list (list Z) -> res bool;
  p_effect : list Z -> list (list Z) -> list Z -> res Z }.
(* common.py:59, 145, 244: p_value > self.threshold; a comparison with nan is False *)
Definition exceeds (th : Q) (p : pvalue) : bool := match p with Some q => negb (Qle_bool q th) | None => false end.
Definition at_threshold (T : ptests) (th : Q) : numerics :=
  mkNum (p_pearson T)
    (fun n c => rbind (p_corr T n c) (fun p => Ok (exceeds th p)))
    (fun n k a b c => rbind (p_partial T n k a b c) (fun o => Ok (option_map (exceeds th) o)))
    (fun l => rbind (p_matrix T l) (fun o => Ok (option_map (exceeds th) o)))
    (p_regress T) (p_effect T).

(* tests whose p-values do not depend on the order of the arguments, as regular_tests, for all thresholds *)
Record regular_p (T : ptests) (ids : list id) (vals : id -> list Z) : Prop := {
  rp_length : forall x y, In x ids -> In y ids -> List.length (vals x) = List.length (vals y);
  rp_pearson : forall x y, In x ids -> In y ids -> p_pearson T (vals x) (vals y) = p_pearson T (vals y) (vals x);
  rp_partial : forall x y z a b c, In x ids -> In y ids -> In z ids -> NoDup [x; y; z] ->
    p_pearson T (vals x) (vals y) = Ok a -> p_pearson T (vals x) (vals z) = Ok b -> p_pearson T (vals y) (vals z) = Ok c ->
    p_partial T (List.length (vals x)) 1 a b c = p_partial T (List.length (vals x)) 1 a c b /\
    p_partial T (List.length (vals x)) 1 a b c <> Ok None;
  rp_matrix : forall x y S S', (forall z, In z (x :: y :: S) -> In z ids) -> NoDup (x :: y :: S) -> Permutation S S' ->
    p_matrix T (map vals (x :: y :: S)) = p_matrix T (map vals (x :: y :: S')) /\
    p_matrix T (map vals (x :: y :: S)) = p_matrix T (map vals (y :: x :: S)) }.
