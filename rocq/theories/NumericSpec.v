(* Specification vocabulary for the numeric properties: residuals of linear regression and their
   correlation, in exact real arithmetic. *)
From Coq Require Import Reals List.
From Verif Require Import Numeric.
Import ListNotations.
Open Scope R_scope.

(* observation t of a variable *)
Definition at_ (x : list R) (t : nat) : R := nth t x 0.
(* e is what is left of v after regressing it on a constant and the variables zs *)
Definition residual (n : nat) (v : list R) (zs : list (list R)) (e : list R) : Prop :=
  length e = n /\ exists a cs, length cs = length zs /\
    (forall t, (t < n)%nat -> at_ e t = at_ v t - a - sumn (length zs) (fun j => nth j cs 0 * at_ (nth j zs []) t)) /\
    sumn n (at_ e) = 0 /\
    (forall j, (j < length zs)%nat -> sumn n (fun t => at_ e t * at_ (nth j zs []) t) = 0).
(* the cosine of the angle between two vectors *)
Definition cosine (x y : list R) : R :=
  sumn (length x) (fun t => at_ x t * at_ y t) / (sqrt (sumn (length x) (fun t => at_ x t * at_ x t)) * sqrt (sumn (length x) (fun t => at_ y t * at_ y t))).
(* all variables have n observations *)
Definition observations (n : nat) (vs : list (list R)) : Prop := forall v, In v vs -> length v = n.
(* P is a left inverse of C *)
Definition inverts (m : nat) (P C : matrix) : Prop :=
  forall i j, (i < m)%nat -> (j < m)%nat -> sumn m (fun k => P i k * C k j) = if Nat.eq_dec i j then 1 else 0.
Definition centered (x : list R) : Prop := vsum x = 0.
(* the value at observation t of a linear combination of variables *)
Definition lin (cs : list R) (cols : list (list R)) (t : nat) : R := sumn (length cols) (fun j => nth j cs 0 * at_ (nth j cols []) t).
(* the squared distance of v from that combination *)
Definition misfit (n : nat) (v : list R) (cols : list (list R)) (cs : list R) : R := sumn n (fun t => (at_ v t - lin cs cols t) * (at_ v t - lin cs cols t)).
(* what torch.linalg.lstsq returns: coefficients with the smallest misfit *)
Definition least_squares (n : nat) (v : list R) (cols : list (list R)) (cs : list R) : Prop :=
  length cs = length cols /\ forall ds, length ds = length cols -> misfit n v cols cs <= misfit n v cols ds.
(* no variable is a combination of the others *)
Definition independent_columns (n : nat) (cols : list (list R)) : Prop :=
  forall cs, length cs = length cols -> (forall t, (t < n)%nat -> lin cs cols t = 0) -> forall j, (j < length cols)%nat -> nth j cs 0 = 0.
