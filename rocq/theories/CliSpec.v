(* Specification vocabulary for the command execute. *)
From Verif Require Import Base PyDict Graph Workspace JsonText Cli.
Open Scope string_scope.
Open Scope list_scope.

(* the printed lines are the directions of the graph, each once and with its edge *)
Definition prints_exactly (ls : list line) (g : graph) : Prop :=
  NoDup (map fst ls) /\ forall u v e, In (u, v, e) ls <-> directed_edge_exists g u v = true /\ get_edge g u v = Ok e.
(* everything except the file f is the same *)
Definition same_but (f : string) (d d' : dir ustr) : Prop := forall k, k <> f -> dget d' k = dget d k.
(* an option of the command line that is not used, and one that is; an empty name counts as not used *)
Definition unused (o : option string) : Prop := o = None \/ o = Some "".
Definition asks (o : option string) (s : string) : Prop := o = Some s /\ s <> "".
