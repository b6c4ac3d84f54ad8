(* What the table of the diff command should show, in terms of the results that are compared. *)
From Verif Require Import Base PyDict JsonText ResultText Diff.
Open Scope list_scope.

Section Spec.
Context {V : Type}.
Notation edge := (redge V).
(* the edge is between the variables a and b *)
Definition between (e : edge) (a b : ustr) : Prop :=
  (rn_name (re_u e) = a /\ rn_name (re_v e) = b) \/ (rn_name (re_u e) = b /\ rn_name (re_v e) = a).
(* two edges say the same: the same type and, if the type is directed, the same direction *)
Definition agree (e f : edge) : Prop :=
  ry_name (re_type e) = ry_name (re_type f) /\
  if ry_directed (re_type e) then rn_name (re_u e) = rn_name (re_u f) /\ rn_name (re_v e) = rn_name (re_v f)
  else between f (rn_name (re_u e)) (rn_name (re_v e)).
(* the results by column *)
Definition has (results : list (string * list edge)) (c : string) (e : edge) : Prop := exists es, In (c, es) results /\ In e es.
(* a node of one of the results *)
Definition a_node (results : list (string * list edge)) (n : rnode) : Prop := exists c e, has results c e /\ (n = re_u e \/ n = re_v e).
(* variables are known by their names (the ids are the names when the data comes from a data loader), the name of an
   edge type determines whether it is directed, and a column stands for one result *)
Definition regular (results : list (string * list edge)) : Prop :=
  (forall n m, a_node results n -> a_node results m -> rn_name n = rn_name m -> n = m) /\
  (forall c e c' f, has results c e -> has results c' f -> ry_name (re_type e) = ry_name (re_type f) -> ry_directed (re_type e) = ry_directed (re_type f)) /\
  (forall c es es', In (c, es) results -> In (c, es') results -> es = es').
(* all edges of a result between the same two variables say the same *)
Definition consistent (es : list edge) : Prop := forall e f a b, In e es -> In f es -> between e a b -> between f a b -> agree e f.
(* the line is about the variables a and b *)
Definition about (l : line) (a b : ustr) : Prop := ln_label l = (a, b) \/ ln_label l = (b, a).
(* one line for each pair of variables that some result connects *)
Definition one_line_each (results : list (string * list edge)) (ls : list line) : Prop :=
  (forall a b, (exists c e, has results c e /\ between e a b) <-> exists l, In l ls /\ about l a b) /\
  (forall i j l m a b, nth_error ls i = Some l -> nth_error ls j = Some m -> about l a b -> about m a b -> i = j).
(* the cells of a line about a and b: the text of the type of an edge between them, or nothing if there is none *)
Definition right_cells (results : list (string * list edge)) (l : line) (a b : ustr) : Prop :=
  Forall2 (fun x o => match o with
                      | Some t => exists e, In e (snd x) /\ between e a b /\ t = ry_repr (re_type e)
                      | None => forall e, In e (snd x) -> ~ between e a b
                      end) results (ln_cells l).
(* every result has an edge between a and b, and all these say the same *)
Definition all_agree (results : list (string * list edge)) (a b : ustr) : Prop :=
  (forall x, In x results -> exists e, In e (snd x) /\ between e a b) /\
  (forall c e c' f, has results c e -> has results c' f -> between e a b -> between f a b -> agree e f).
End Spec.
