(* Model of execute commands that run at the same time in the same directory (workspaces/cli.py:317-370, 406-456,
   709-745): each command is a process that takes the steps of the code one after the other, and any of the processes may
   take the next step.
   Simplified: every process has read workspace.yml before, and it does not change; data files do not change; a file is
   read at one moment; the processes are on one machine. *)
From Verif Require Import Base PyDict PyStr Variables Workspace JsonText Execute.
Open Scope string_scope.
Open Scope list_scope.

(* ---- writing through a file object ---- *)
(* A file object has a position of its own: write() puts the characters there whatever has happened to the file since it
   was opened (POSIX); if the file is shorter by now the gap is filled with NUL.  The texts are those of json.dumps, which
   are ASCII, so that a character is a byte. *)
Definition overwrite (c : ustr) (off : nat) (p : ustr) : ustr :=
  firstn off c ++ repeat 0%Z (off - List.length c) ++ p ++ skipn (off + List.length p) c.

Section Process.
Context {D G G' X : Type}.
Variable hash_alg : algorithm -> string.
Variable hash_vars : dict string scalar -> string.
Variable hash_data : D -> string.
Variable data : string -> res D.
Variable run : algorithm -> D -> res G.
Variable listing : dir ustr -> list string.
Variable second : X -> Z.
Variable text_of : X -> aref -> @result G -> res ustr.
Variable parse : ustr -> res (@result G').

(* where an execute command is; [w] are the imported modules of this process, [es] the experiments that are left *)
Inductive proc :=
| PLoop (w : world) (es : list (string * experiment))                                            (* workspaces/cli.py:717 *)
| PListed (w : world) (n : string) (e : experiment) (es : list (string * experiment))            (* 414: there are versions *)
| PPicked (w : world) (n : string) (e : experiment) (v : Z) (es : list (string * experiment))    (* 327: before open() *)
| PRun (w : world) (n : string) (e : experiment) (es : list (string * experiment))               (* 730, 738 *)
| PWriting (f : string) (off : nat) (t : ustr) (w : world) (es : list (string * experiment))     (* 370: t is still to be written *)
| PEnded (o : res unit).

(* execute (workspaces/cli.py:709-740) at its start *)
Definition start (w : world) (ws : workspace) (name : option string) : proc :=
  match name with
  | None => PLoop w (experiments ws)
  | Some n => match dget (experiments ws) n with None => PEnded (Ok tt) | Some e => PRun w n e [] end
  end.
(* what follows the check (workspaces/cli.py:718-729) *)
Definition checked (force : bool) (w : world) (n : string) (e : experiment) (es : list (string * experiment)) (b : res bool) : proc :=
  match caught b with
  | Err x => PEnded (Err x)
  | Ok b => if negb b && negb force then PLoop w es else PRun w n e es
  end.
(* one step of a process *)
Inductive pstep (clock : string -> X) (force : bool) (ws : workspace) : dir ustr * proc -> dir ustr * proc -> Prop :=
| p_done : forall d w, pstep clock force ws (d, PLoop w []) (d, PEnded (Ok tt))
(* versions = _load_experiment_versions(...) (workspaces/cli.py:412-415) *)
| p_list : forall d w n e es, pstep clock force ws (d, PLoop w ((n, e) :: es))
    (d, match load_versions (listing d) n with
        | Err x => checked force w n e es (Err x)
        | Ok [] => checked force w n e es (Ok true)
        | Ok _ => PListed w n e es
        end)
(* _load_latest_experiment_result lists again (workspaces/cli.py:317-327) *)
| p_pick : forall d w n e es, pstep clock force ws (d, PListed w n e es)
    (d, match load_versions (listing d) n with
        | Err x => checked force w n e es (Err x)
        | Ok [] => checked force w n e es (Err ValueError)
        | Ok (v :: _) => PPicked w n e v es
        end)
(* json.load, deserialize_result and the comparisons (workspaces/cli.py:328-331, 420-456) *)
| p_read : forall d w n e v es, pstep clock force ws (d, PPicked w n e v es)
    (d, match rbind (read_file d (version_file n v)) parse with
        | Err x => checked force w n e es (Err x)
        | Ok l => let (w1, b) := check_latest hash_alg hash_vars hash_data data w ws e l in checked force w1 n e es b
        end)
(* _execute_experiment, open(f, "w") and json.dumps (workspaces/cli.py:367-370) *)
| p_run : forall d w n e es, pstep clock force ws (d, PRun w n e es)
    (let (w1, o) := execute_experiment hash_alg hash_vars hash_data data run w ws e in
     match o with
     | Err x => (d, PEnded (Err x))
     | Ok l => match dget (pipelines ws) (e_pipeline e) with
               | None => (d, PEnded (Err KeyError))
               | Some r => let f := version_file n (second (clock n)) in
                           (apply_op d (Trunc f), match text_of (clock n) r l with Ok t => PWriting f 0 t w1 es | Err x => PEnded (Err x) end)
               end
     end)
(* a part of the text goes to the file; in the end it is closed *)
| p_write : forall d f off p q w es, p <> [] -> pstep clock force ws (d, PWriting f off (p ++ q) w es) (dset d f (overwrite (content d f) off p), PWriting f (off + List.length p) q w es)
| p_close : forall d f off w es, pstep clock force ws (d, PWriting f off [] w es) (d, PLoop w es).

(* a process alone *)
Inductive alone (clock : string -> X) (force : bool) (ws : workspace) : dir ustr * proc -> dir ustr * proc -> Prop :=
| a_here : forall s, alone clock force ws s s
| a_step : forall s s' s'', pstep clock force ws s s' -> alone clock force ws s' s'' -> alone clock force ws s s''.
(* two processes at once.  One that is killed takes no more steps *)
Inductive together (c1 c2 : string -> X) (force1 force2 : bool) (ws : workspace) : dir ustr * proc * proc -> dir ustr * proc * proc -> Prop :=
| t_here : forall s, together c1 c2 force1 force2 ws s s
| t_first : forall d P Q d' P' s, pstep c1 force1 ws (d, P) (d', P') -> together c1 c2 force1 force2 ws (d', P', Q) s -> together c1 c2 force1 force2 ws (d, P, Q) s
| t_second : forall d P Q d' Q' s, pstep c2 force2 ws (d, Q) (d', Q') -> together c1 c2 force1 force2 ws (d', P, Q') s -> together c1 c2 force1 force2 ws (d, P, Q) s.
End Process.
