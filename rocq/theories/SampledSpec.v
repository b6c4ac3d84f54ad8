(* Specification vocabulary for C100. *)
From Coq Require Import Sorted.
From Verif Require Import Base.

(* out lists, in order, the elements of l at exactly those positions where the coin says so *)
Definition picked {A} (c : nat -> bool) (l out : list A) : Prop := exists idx, StronglySorted lt idx /\
  (forall j, In j idx <-> j < List.length l /\ c j = true) /\ Forall2 (fun j a => nth_error l j = Some a) idx out.
