(* Model of the execute command and of how the commands write files (workspaces/cli.py:80-91, 317-331, 367-370, 406-468,
   709-745).  The directory holds texts.  A process may be killed at any moment: what it had written to a file before
   that moment stays, the rest does not come.  Losing power, so that writes reach the disk in another order, is not
   modelled. *)
From Verif Require Import Base PyDict PyStr Variables Workspace JsonText.
Open Scope string_scope.
Open Scope list_scope.

(* ---- the file system ---- *)
(* open(f, "w") empties or creates the file; f.write appends; os.remove *)
Inductive op := Trunc (f : string) | Append (f : string) (t : ustr) | Unlink (f : string).
Definition content (d : dir ustr) (f : string) : ustr := match dget d f with Some t => t | None => [] end.
Definition apply_op (d : dir ustr) (o : op) : dir ustr :=
  match o with
  | Trunc f => dset d f []
  | Append f t => dset d f (content d f ++ t)
  | Unlink f => ddel d f
  end.
Definition apply_ops (d : dir ustr) (os : list op) : dir ustr := fold_left apply_op os d.
(* the directories a process that was to perform the operations may leave when it is killed: some of the operations
   are done, and of a text that was being written a part may be there *)
Inductive killed : dir ustr -> list op -> dir ustr -> Prop :=
| k_stop : forall d os, killed d os d
| k_torn : forall d f p q os, killed d (Append f (p ++ q) :: os) (apply_op d (Append f p))
| k_step : forall d o os d', killed (apply_op d o) os d' -> killed d (o :: os) d'.

(* ---- writing ---- *)
(* with open(f, "w") as f: f.write(json.dumps(...)) (workspaces/cli.py:367-370): the file is opened before the text is
   made, so an exception from json.dumps leaves an empty file *)
Definition save_ops (f : string) (t : res ustr) : list op := Trunc f :: match t with Ok t => [Append f t] | Err _ => [] end.
(* write_to_workspace (workspaces/cli.py:80-91): here the text is made first *)
Definition workspace_ops (t : res ustr) : list op := match t with Ok t => save_ops "workspace.yml" (Ok t) | Err _ => [] end.
(* _clear_experiment (workspaces/cli.py:459-468): the files that exist are removed, newest version first *)
Definition clear_ops (d : dir ustr) (ls : list string) (name : string) : res (list op) :=
  rbind (load_versions ls name) (fun vs => Ok (map (fun t => Unlink (version_file name t)) (filter (fun t => dmem d (version_file name t)) vs))).

(* ---- execute ---- *)
Section Run.
Context {D G G' X : Type}.
Variable hash_alg : algorithm -> string.
Variable hash_vars : dict string scalar -> string.
Variable hash_data : D -> string.
Variable data : string -> res D.
Variable run : algorithm -> D -> res G.
Variable listing : dir ustr -> list string.                     (* os.listdir() *)
(* What a result carries besides the fields of the model: [X] stands for when it was created and how long the steps took.
   text_of is json.dumps(result.model_dump(), cls=CausyJSONEncoder, indent=4), parse is json.load and deserialize_result;
   [G'] are graphs and histories as they are read back.
   second is int(datetime.timestamp(created_at)). *)
Variable second : X -> Z.
Variable text_of : X -> aref -> @result G -> res ustr.
Variable parse : ustr -> res (@result G').

(* _load_latest_experiment_result followed by deserialize_result (workspaces/cli.py:317-331, 420-422) *)
Definition latest (d : dir ustr) (name : string) : res result := rbind (load_latest d (listing d) true name) parse.
(* _experiment_needs_reexecution (workspaces/cli.py:406-456) *)
Definition needs_text (w : world) (ws : workspace) (d : dir ustr) (name : string) : world * res bool :=
  match dget (experiments ws) name with
  | None => (w, Err ValueError)
  | Some e =>
      match load_versions (listing d) name with
      | Err x => (w, Err x)
      | Ok [] => (w, Ok true)
      | Ok _ => match latest d name with Err x => (w, Err x) | Ok l => check_latest hash_alg hash_vars hash_data data w ws e l end
      end
  end.
(* a ValueError of the check is shown and counts as "needed" (workspaces/cli.py:718-724) *)
Definition caught (r : res bool) : res bool := match r with Err ValueError => Ok true | _ => r end.
(* _execute_experiment and _save_experiment_result for one experiment (workspaces/cli.py:729-731, 743-745): the
   operations and the outcome *)
Definition execute_one (clock : string -> X) (w : world) (ws : workspace) (n : string) (e : experiment) : world * (list op * res unit) :=
  let (w1, o) := execute_experiment hash_alg hash_vars hash_data data run w ws e in
  (w1, match o with
       | Err x => ([], Err x)
       | Ok l => match dget (pipelines ws) (e_pipeline e) with
                 | None => ([], Err KeyError)
                 | Some r => let t := text_of (clock n) r l in (save_ops (version_file n (second (clock n))) t, rbind t (fun _ => Ok tt))
                 end
       end).
(* the loop over all experiments (workspaces/cli.py:716-731); [clock] gives when the result of an experiment is created *)
Fixpoint execute_loop (clock : string -> X) (force : bool) (w : world) (ws : workspace) (d : dir ustr) (es : list (string * experiment)) : world * (list op * res unit) :=
  match es with
  | [] => (w, ([], Ok tt))
  | (n, e) :: r =>
      let (w1, b) := needs_text w ws d n in
      match caught b with
      | Err x => (w1, ([], Err x))
      | Ok b =>
          if negb b && negb force then execute_loop clock force w1 ws d r else
          let '(w2, (os, o)) := execute_one clock w1 ws n e in
          match o with
          | Err x => (w2, (os, Err x))
          | Ok _ => let '(w3, (os', o')) := execute_loop clock force w2 ws (apply_ops d os) r in (w3, (os ++ os', o'))
          end
      end
  end.
(* execute (workspaces/cli.py:709-745); a name that is not in the workspace is only reported *)
Definition execute (clock : string -> X) (force : bool) (w : world) (ws : workspace) (d : dir ustr) (name : option string) : world * (list op * res unit) :=
  match name with
  | None => execute_loop clock force w ws d (experiments ws)
  | Some n => match dget (experiments ws) n with None => (w, ([], Ok tt)) | Some e => execute_one clock w ws n e end
  end.
End Run.
