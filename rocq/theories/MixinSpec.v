(* Specification vocabulary for C95. *)
From Verif Require Import Base Mixins.

(* an iteration order of sets *)
Definition lists_set (so : list string -> list string) : Prop := forall l, Permutation (so l) l.

(* at most one of the classes above the bases defines m *)
Definition one_owner (C : classes) (bases : list string) (m : string) : Prop :=
  forall a b, (exists x, In x bases /\ In a (c_mro (C x))) -> (exists x, In x bases /\ In b (c_mro (C x))) ->
    In m (c_defs (C a)) -> In m (c_defs (C b)) -> a = b.

(* mixins that ship with causy *)
Definition shipped_mixins : list string := [directed_mixin; plain_edge_mixin; plain_extension_mixin; inducing_mixin].
