(* Python dict: insertion-ordered, unique keys (CPython >= 3.7). *)
From Verif Require Import Base.

Section Dict.
Context {K V : Type} `{EqB K}.

Local Notation dict := (list (K * V)).

(* d.get(k) *)
Fixpoint dget (d : dict) (k : K) : option V :=
  match d with
  | [] => None
  | (k', v) :: r => if eqb k k' then Some v else dget r k
  end.

(* d[k] = v : replaces in place, or appends a new key at the end. *)
Fixpoint dset (d : dict) (k : K) (v : V) : dict :=
  match d with
  | [] => [(k, v)]
  | (k', v') :: r => if eqb k k' then (k', v) :: r else (k', v') :: dset r k v
  end.

(* del d[k] for a present key (no effect on an absent one; the callers model the KeyError). *)
Fixpoint ddel (d : dict) (k : K) : dict :=
  match d with
  | [] => []
  | (k', v') :: r => if eqb k k' then r else (k', v') :: ddel r k
  end.

(* k in d *)
Definition dmem (d : dict) (k : K) : bool :=
  match dget d k with Some _ => true | None => false end.

(* d.keys() *)
Definition dkeys (d : dict) : list K := map fst d.

End Dict.

Notation dict K V := (list (K * V)) (only parsing).
