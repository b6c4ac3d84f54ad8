(* Model of `experiment clear` (workspaces/cli.py:459-468, 500-515) that runs at the same time as an execute command
   (Concurrent.v) in the same directory.
   Simplified: the writing of workspace.yml that ends the command is modelled in Execute.v (workspace_ops). *)
From Verif Require Import Base PyDict PyStr Variables Workspace JsonText Execute Concurrent.
Open Scope string_scope.
Open Scope list_scope.

(* where the clear command is: before the listing; with versions left to remove and the number of removed ones; through *)
Inductive cproc := CList (n : string) | CRemove (n : string) (vs : list Z) (k : nat) | CEnded (o : res nat).

Section Process.
Context {D G G' X : Type}.
Variable hash_alg : algorithm -> string.
Variable hash_vars : dict string scalar -> string.
Variable hash_data : D -> string.
Variable data : string -> res D.
Variable run : algorithm -> D -> res G.
Variable listing : dir ustr -> list string.
Variable second : X -> Z.
Variable text_of : X -> aref -> @result G -> res ustr.
Variable parse : ustr -> res (@result G').

(* the file that a process has open *)
Definition writes_to (P : proc) (f : string) : bool := match P with PWriting g _ _ _ _ => eqb g f | _ => false end.
(* The directory, the execute command, whether the file it has open has been removed, and the clear command.  What is
   written to a file that has been removed is in no directory any more (POSIX). *)
Definition state : Type := dir ustr * proc * bool * cproc.
Inductive xstep (clock : string -> X) (force : bool) (ws : workspace) : state -> state -> Prop :=
| x_exec : forall d P d' P' c, pstep hash_alg hash_vars hash_data data run listing second text_of parse clock force ws (d, P) (d', P') -> xstep clock force ws (d, P, false, c) (d', P', false, c)
| x_lost : forall d f off p q w es c, p <> [] -> xstep clock force ws (d, PWriting f off (p ++ q) w es, true, c) (d, PWriting f (off + List.length p) q w es, true, c)
| x_lost_close : forall d f off w es c, xstep clock force ws (d, PWriting f off [] w es, true, c) (d, PLoop w es, false, c)
(* versions = _load_experiment_versions(...) (workspaces/cli.py:460) *)
| x_list : forall d P o n, xstep clock force ws (d, P, o, CList n) (d, P, o, match load_versions (listing d) n with Ok vs => CRemove n vs 0 | Err x => CEnded (Err x) end)
(* os.remove; a file that is gone is passed over (workspaces/cli.py:462-467) *)
| x_remove : forall d P o n v vs k, dget d (version_file n v) <> None ->
    xstep clock force ws (d, P, o, CRemove n (v :: vs) k) (ddel d (version_file n v), P, o || writes_to P (version_file n v), CRemove n vs (S k))
| x_gone : forall d P o n v vs k, dget d (version_file n v) = None -> xstep clock force ws (d, P, o, CRemove n (v :: vs) k) (d, P, o, CRemove n vs k)
| x_done : forall d P o n k, xstep clock force ws (d, P, o, CRemove n [] k) (d, P, o, CEnded (Ok k)).
Inductive meanwhile (clock : string -> X) (force : bool) (ws : workspace) : state -> state -> Prop :=
| m_here : forall s, meanwhile clock force ws s s
| m_step : forall s s' s'', xstep clock force ws s s' -> meanwhile clock force ws s' s'' -> meanwhile clock force ws s s''.
End Process.
