(* Specification vocabulary for requests to the server while another process works on the directory. *)
From Verif Require Import Base PyDict PyStr Variables Workspace WorkspaceSpec JsonText Execute.
Open Scope list_scope.

(* a process with operations to do goes on: it does one, or writes a part of a text; other processes can look at the
   directory at any of these moments *)
Inductive runs : dir ustr * list op -> dir ustr * list op -> Prop :=
| r_here : forall s, runs s s
| r_part : forall d f p q os s, runs (apply_op d (Append f p), Append f q :: os) s -> runs (d, Append f (p ++ q) :: os) s
| r_op : forall d o os s, runs (apply_op d o, os) s -> runs (d, o :: os) s.
(* t is the newest version of n in the directory *)
Definition newest_version {C} (d : dir C) (n : string) (t : Z) : Prop := In (version_file n t) (dkeys d) /\ forall u, In (version_file n u) (dkeys d) -> Z.le u t.
Definition no_version {C} (d : dir C) (n : string) : Prop := forall t, ~ In (version_file n t) (dkeys d).
