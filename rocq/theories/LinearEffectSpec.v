(* Specification vocabulary for direct effects in data that follow linear structural equations. *)
From Coq Require Import Reals List.
From Verif Require Import Base PyDict Graph SampleGen SampleSpec IndepTests Numeric NumericSpec LinearSpec.
Import ListNotations.
Open Scope R_scope.

(* what one unit of u adds to v: the sum of the values of the edges from u to v *)
Definition weight (es : list (sedge R)) (u v : id) : R :=
  vsum (map se_value (filter (fun e => if string_dec (se_from e) u then (if string_dec (se_to e) v then true else false) else false) es)).
(* The regression of N is exact on the columns vals of the variables ns: if the columns of the cause u and the covariates
   ps are independent, it returns the first least-squares coefficient; dec is the number a bit pattern stands for, code
   the bit pattern of a coefficient. *)
Definition exact_effects (dec : Z -> R) (code : R -> Z) (n : nat) (vals : id -> list Z) (ns : list id) (N : numerics) : Prop :=
  forall u ps v cs, NoDup (v :: u :: ps) -> (forall z, In z (v :: u :: ps) -> In z ns) ->
    independent_columns n (map (fun w => map dec (vals w)) (u :: ps)) -> least_squares n (map dec (vals v)) (map (fun w => map dec (vals w)) (u :: ps)) cs ->
    n_effect N (vals u) (map vals ps) (vals v) = Ok (code (effect_value cs)).
