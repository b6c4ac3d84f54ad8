(* Specification vocabulary for C128: directions of edges that are known before the orientation rules are applied. *)
From Verif Require Import Base PyDict Graph PathSpec Actions ActionSpec Generators GenSpec Rules IndepTests Pipeline Parallel Dag SkelSpec OrientSpec ArrangeSpec ExtendSpec.
Open Scope string_scope.
Open Scope list_scope.

Section Know.
Variable D : list (id * id).
Variable K : id -> id -> Prop.
Notation E := (edge_in D).
(* the orientations that follow from the skeleton, the v-structures and the known directions by Meek's four rules *)
Inductive known : id -> id -> Prop :=
| kn_told : forall x y, K x y -> known x y
| kn_v : forall x z y, vstruct D x z y -> known x z
| kn_1 : forall x z y, known x z -> adjacent E z y -> x <> y -> ~ adjacent E x y -> ~ vstruct D x z y -> known z y
| kn_2 : forall x z y, known x z -> known z y -> adjacent E x y -> known x y
| kn_3 : forall x y w z, known y z -> known w z -> adjacent E x y -> adjacent E x w -> adjacent E x z ->
    y <> w -> ~ adjacent E y w -> ~ vstruct D y x w -> known x z
| kn_4 : forall x y w z, known y w -> known w z -> adjacent E x y -> adjacent E x w -> adjacent E x z ->
    y <> z -> ~ adjacent E y z -> ~ vstruct D y x z -> known x z.
(* the graph shows these arrows and the other edges of D two-way *)
Definition known_pattern (g : graph) : Prop := forall x y, directed_edge_exists g x y = true <-> adjacent E x y /\ ~ known y x.

Variable P : runner.
Variable g0 : graph.
(* what a step may count on then: the variables, and exactly the adjacencies of D, each in at least the direction it has in D *)
Definition seen_late (g : graph) : Prop := nodes g = nodes g0 /\ (forall x y, edge_exists g x y = true <-> adjacent E x y) /\ (forall x y, E x y -> directed_edge_exists g x y = true).
(* a result that a step may give: nothing, or the removal of a direction whose reverse is known, or of one between variables
   that are not adjacent *)
Definition known_result (i : tresult) : Prop := t_act i = DO_NOTHING \/ t_act i = REMOVE_EDGE_DIRECTED /\ (K (t_v i) (t_u i) \/ ~ adjacent E (t_u i) (t_v i)).
Definition knowledge_step (s : step) : Prop := exists asked : list id -> Prop,
  (forall g g' f, seen_late g -> In f (s_gen s g) -> seen_late g' -> exists es, f g' = Ok es /\
    forall e, In e es -> if negb (s_parallel s) && s_chunked s then forall ns, In ns (as_chunk e) -> asked ns else exists ns, as_args e = Ok ns /\ asked ns) /\
  (forall g ns us, seen_late g -> asked ns -> exists o, s_proc s g ns us = Ok o /\ forall i, In i (items_of o) -> known_result i) /\
  (s_parallel s = true -> pool_runner no_hooks P).
(* a step that, in whatever mode it runs and whatever the states then, tells of x -> y that it points this way, unless the edge is directed already *)
Definition removes (x y : id) (i : tresult) : Prop := t_act i = REMOVE_EDGE_DIRECTED /\ t_u i = y /\ t_v i = x.
Definition told_on (s : step) (x y : id) (ns : list id) : Prop := forall g us, seen_late g -> directed_edge_exists g y x = false \/ exists o i, s_proc s g ns us = Ok o /\ In i (items_of o) /\ removes x y i.
Definition tells (s : step) (x y : id) : Prop := forall g, seen_late g -> directed_edge_exists g y x = false \/ exists f, In f (s_gen s g) /\ forall g', seen_late g' -> directed_edge_exists g' y x = false \/
  exists es e ns, f g' = Ok es /\ In e es /\ (if negb (s_parallel s) && s_chunked s then In ns (as_chunk e) else as_args e = Ok ns) /\ told_on s x y ns.
End Know.

(* what a run with known directions does: front finds the skeleton, ks tell directions, rest goes on to the result *)
Record known_run (fuel : nat) (P : runner) (front ks rest : list pstep) (N : numerics) (g0 : graph) (D : list (id * id)) (K : id -> id -> Prop) (g1 g : graph) (r : res unit) : Prop := {
  kr_told : execute_pipeline fuel P no_hooks (front ++ ks) g0 = (g1, Ok tt);
  kr_run : execute_pipeline fuel P no_hooks (front ++ ks ++ rest) g0 = (g, r);
  kr_end : match r with Ok _ => True | Err e => exists xs zs ys, n_effect N xs zs ys = Err e end;
  kr_nodes : nodes g = nodes g0;
  kr_skeleton : forall x y, edge_exists g x y = true <-> adjacent (edge_in D) x y;
  (* nothing but v-structures and what follows from what is known points one way when the rules begin *)
  kr_shown : forall x y, one_way g1 x y -> known D K x y;
  (* what pointed one way then still does, and so does all that follows from it, and nothing else *)
  kr_pattern : known_pattern D (one_way g1) g;
  kr_stays : forall x y, one_way g1 x y -> one_way g x y;
  (* no arrow is false, and none that is found without the knowledge is missed *)
  kr_true : forall x y, one_way g x y -> edge_in D x y;
  kr_more : forall x y, oriented D x y -> one_way g x y }.
