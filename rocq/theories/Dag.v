(* Independent specification: directed graphs, directed reachability, simple paths, d-separation.
   Nothing here mentions the model of the code. *)
From Verif Require Import Base.

Section Spec.
Variable V : Type.
Variable E : V -> V -> Prop.     (* E x y : there is an arrow x -> y *)

Definition adjacent (x y : V) : Prop := E x y \/ E y x.

(* zero or more / one or more arrows *)
Inductive reach : V -> V -> Prop :=
| reach_refl : forall x, reach x x
| reach_step : forall x y z, E x y -> reach y z -> reach x z.
Definition reach_plus (x z : V) : Prop := exists y, E x y /\ reach y z.
Definition acyclic : Prop := forall x, ~ reach_plus x x.

(* consecutive elements are related *)
Inductive chain (R : V -> V -> Prop) : list V -> Prop :=
| chain_nil : chain R []
| chain_one : forall x, chain R [x]
| chain_cons : forall x y l, R x y -> chain R (y :: l) -> chain R (x :: y :: l).

Definition starts (x : V) (p : list V) : Prop := exists q, p = x :: q.
Definition ends (y : V) (p : list V) : Prop := exists q, p = q ++ [y].

(* a simple path between x and y in the graph with relation R *)
Definition simple_path (R : V -> V -> Prop) (x y : V) (p : list V) : Prop :=
  starts x p /\ ends y p /\ chain R p /\ NoDup p.

(* a, b, c are consecutive on p *)
Definition triple_on (p : list V) (a b c : V) : Prop := exists p1 p2, p = p1 ++ a :: b :: c :: p2.

Definition collider (a b c : V) : Prop := E a b /\ E c b.

(* Pearl: a path is open given S iff every collider on it has a descendant (or itself) in S and no
   non-collider on it is in S *)
Definition open_path (S : V -> Prop) (p : list V) : Prop :=
  forall a b c, triple_on p a b c ->
    (collider a b c -> exists d, reach b d /\ S d) /\ (~ collider a b c -> ~ S b).

Definition d_separated (x y : V) (S : V -> Prop) : Prop :=
  forall p, simple_path adjacent x y p -> ~ open_path S p.

End Spec.

Arguments adjacent {V} E x y.
Arguments reach {V} E _ _.
Arguments reach_plus {V} E x z.
Arguments acyclic {V} E.
Arguments chain {V} R _.
Arguments starts {V} x p.
Arguments ends {V} y p.
Arguments simple_path {V} R x y p.
Arguments triple_on {V} p a b c.
Arguments collider {V} E a b c.
Arguments open_path {V} E S p.
Arguments d_separated {V} E x y S.
