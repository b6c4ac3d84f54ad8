(* Model of commands that edit workspace.yml at the same time (workspaces/cli.py:80-117, 373-403, 470-596): each reads the
   workspace, is answered by the user or goes on by itself, and writes the whole workspace.
   Simplified: the texts of the YAML library are arguments; the modules and files that pipelines refer to do not change. *)
From Verif Require Import Base PyDict PyStr Variables Workspace JsonText Execute Concurrent.
Open Scope string_scope.
Open Scope list_scope.

Definition wfile : string := "workspace.yml".     (* workspaces/cli.py:52 *)

(* the commands that show an error and return before they write (workspaces/cli.py:386-396, 485-487, 505-507, 523-525,
   537-541, 580-590) *)
Definition refused (w : world) (ws : workspace) (c : command) : bool :=
  match c with
  | RemovePipeline n => negb (dmem (pipelines ws) n) || uses_pipeline ws n
  | RemoveDataLoader n => negb (dmem (dataloaders ws) n) || uses_dataloader ws n
  | RemoveExperiment n | ClearExperiment n => negb (dmem (experiments ws) n)
  | UpdateVariable n x _ =>
      match dget (experiments ws) n with
      | None => true
      | Some e => match dget (pipelines ws) (e_pipeline e) with
                  | None => false
                  | Some r => match rbind (load_algorithm w r) variables_of with Ok vs => match find_variable vs x with None => true | Some _ => false end | Err _ => false end
                  end
      end
  | _ => false
  end.

Inductive eproc := EStart (c : command) | EHave (c : command) (ws : workspace) | EWriting (off : nat) (t : ustr) | EEnded (o : res unit).
Definition is_writing (p : eproc) : Prop := match p with EWriting _ _ => True | _ => False end.

Section Process.
Variable slug : string -> string.
Variable w : world.
Variable dump : workspace -> res ustr.     (* yaml.dump *)
Variable parse : ustr -> res workspace.    (* pydantic_yaml.parse_yaml_raw_as *)

Inductive estep : dir ustr * eproc -> dir ustr * eproc -> Prop :=
(* _current_workspace (workspaces/cli.py:94-117); a missing file is WorkspaceNotFoundError *)
| e_read : forall d c, estep (d, EStart c)
    (d, match dget d wfile with None => EEnded (Err (OtherError 1)) | Some t => match parse t with Ok ws => EHave c ws | Err x => EEnded (Err x) end end)
(* the command itself, yaml.dump and open(workspace_path, "w") *)
| e_open : forall d c ws, estep (d, EHave c ws)
    (if refused w ws c then (d, EEnded (Ok tt)) else
     match rbind (run_command slug w ws c) dump with Err x => (d, EEnded (Err x)) | Ok t => (apply_op d (Trunc wfile), EWriting 0 t) end)
| e_write : forall d off p q, p <> [] -> estep (d, EWriting off (p ++ q)) (dset d wfile (overwrite (Execute.content d wfile) off p), EWriting (off + List.length p) q)
| e_close : forall d off, estep (d, EWriting off []) (d, EEnded (Ok tt)).

(* any number of commands at once; when calm, a command takes no step while another one has the file open for writing *)
Inductive edits (calm : bool) : dir ustr * list eproc -> dir ustr * list eproc -> Prop :=
| s_here : forall s, edits calm s s
| s_step : forall d l1 p l2 d' p' s, estep (d, p) (d', p') -> (calm = true -> Forall (fun q => ~ is_writing q) (l1 ++ l2)) -> edits calm (d', l1 ++ p' :: l2) s -> edits calm (d, l1 ++ p :: l2) s.
End Process.
