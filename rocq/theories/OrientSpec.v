(* Specification vocabulary for edge orientation: v-structures, Meek's rules, and what a graph with
   one-way and two-way edges says about a DAG.  Nothing here refers to the model of the rules. *)
From Verif Require Import Base PyDict Graph Dag PathSpec SkelSpec.

Section Meek.
Variable D : list (id * id).
Notation E := (edge_in D).
(* x -> z <- y with x and y not adjacent *)
Definition vstruct (x z y : id) : Prop := E x z /\ E y z /\ x <> y /\ ~ adjacent E x y.
(* the orientations that follow from the skeleton and the v-structures of D by Meek's four rules *)
Inductive oriented : id -> id -> Prop :=
| or_v : forall x z y, vstruct x z y -> oriented x z
| or_1 : forall x z y, oriented x z -> adjacent E z y -> x <> y -> ~ adjacent E x y -> ~ vstruct x z y -> oriented z y
| or_2 : forall x z y, oriented x z -> oriented z y -> adjacent E x y -> oriented x y
| or_3 : forall x y w z, oriented y z -> oriented w z -> adjacent E x y -> adjacent E x w -> adjacent E x z ->
    y <> w -> ~ adjacent E y w -> ~ vstruct y x w -> oriented x z
| or_4 : forall x y w z, oriented y w -> oriented w z -> adjacent E x y -> adjacent E x w -> adjacent E x z ->
    y <> z -> ~ adjacent E y z -> ~ vstruct y x z -> oriented x z.
End Meek.

(* D' has the same adjacencies and the same v-structures *)
Definition equivalent (D D' : list (id * id)) : Prop :=
  (forall x y, adjacent (edge_in D) x y <-> adjacent (edge_in D') x y) /\
  (forall x z y, vstruct D x z y <-> vstruct D' x z y).

(* the graph shows the arrows that Meek's rules derive from D, and the other edges of D two-way *)
Definition meek_pattern (g : graph) (D : list (id * id)) : Prop := forall x y,
  directed_edge_exists g x y = true <-> adjacent (edge_in D) x y /\ ~ oriented D y x.
(* the same relation described by queries *)
Definition one_way (g : graph) (x y : id) : Prop := only_directed_edge_exists g x y = true.
Definition two_way (g : graph) (x y : id) : Prop := undirected_edge_exists g x y = true.
Definition apart (g : graph) (x y : id) : Prop := edge_exists g x y = false.
(* none of Meek's rules applies to the graph *)
Record meek_closed (g : graph) : Prop := {
  mc_1 : forall x z y, one_way g x z -> two_way g z y -> x <> y -> ~ apart g x y;
  mc_2 : forall x z y, one_way g x z -> one_way g z y -> ~ two_way g x y;
  mc_3 : forall x y w z, one_way g y z -> one_way g w z -> y <> w -> apart g y w -> two_way g x y -> two_way g x w -> ~ two_way g x z;
  mc_4 : forall x y w z, one_way g y w -> one_way g w z -> y <> z -> apart g y z -> two_way g x y -> ~ apart g x w -> ~ two_way g x z }.

(* number of live directions *)
Definition live_count (g : graph) : nat :=
  List.length (filter (fun p => directed_edge_exists g (fst p) (snd p)) (list_prod (dkeys (nodes g)) (dkeys (nodes g)))).

(* every edge of the graph is usable in both directions *)
Definition skeleton (g : graph) : Prop := forall u v e, get_edge g u v = Ok e ->
  directed_edge_exists g u v = true /\ directed_edge_exists g v u = true.

(* E is an acyclic way to direct every edge of g that respects the arrows of g and has no unshielded
   collider that g does not already show *)
Record consistent_extension (g : graph) (E : id -> id -> Prop) : Prop := {
  ce_acyclic : acyclic E;
  ce_adj : forall x y, edge_exists g x y = true <-> adjacent E x y;
  ce_live : forall x y, E x y -> directed_edge_exists g x y = true;
  ce_vs : forall x z y, E x z -> E y z -> x <> y -> apart g x y -> one_way g x z /\ one_way g y z }.
