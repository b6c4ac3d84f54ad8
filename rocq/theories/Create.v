(* Adding pipelines, data loaders and experiments to a workspace, and the files that come with it. *)
From Coq Require Import Ascii.
From Verif Require Import Base PyDict Variables Workspace.
Open Scope string_scope.
Open Scope list_scope.

(* slugify(value, "_") of markdown.extensions.toc, imported in workspaces/cli.py:14: what is not a word character,
   white space or a hyphen is dropped, the ends are stripped, letters become lower case and every run of
   underscores and white space one underscore.  Characters outside ASCII are dropped; that accented letters lose
   their accents first (NFKD) is not modelled. *)
Definition code (c : ascii) : nat := nat_of_ascii c.
Definition between (a b : nat) (c : ascii) : bool := Nat.leb a (code c) && Nat.leb (code c) b.
Definition is_white (c : ascii) : bool := between 9 13 c || between 28 32 c.
Definition is_upper (c : ascii) : bool := between 65 90 c.
Definition is_word (c : ascii) : bool := between 48 57 c || is_upper c || between 97 122 c || Nat.eqb (code c) 95.
Definition is_hyphen (c : ascii) : bool := Nat.eqb (code c) 45.
Definition underscore : ascii := ascii_of_nat 95.
Definition to_lower (c : ascii) : ascii := if is_upper c then ascii_of_nat (code c + 32) else c.
Fixpoint drop_white (l : list ascii) : list ascii := match l with [] => [] | c :: r => if is_white c then drop_white r else l end.
Definition strip (l : list ascii) : list ascii := rev (drop_white (rev (drop_white l))).
Definition is_separator (c : ascii) : bool := Nat.eqb (code c) 95 || is_white c.
Fixpoint collapse (inside : bool) (l : list ascii) : list ascii :=
  match l with
  | [] => []
  | c :: r => if is_separator c then (if inside then collapse true r else underscore :: collapse true r) else c :: collapse false r
  end.
Definition slug_chars (l : list ascii) : list ascii := collapse false (map to_lower (strip (filter (fun c => is_word c || is_white c || is_hyphen c) l))).
Definition slugify (s : string) : string := string_of_list_ascii (slug_chars (list_ascii_of_string s)).

(* What a file holds: a workspace, an ejected algorithm, the template of a pipeline or of a data loader filled with
   a title, or something else. *)
Inductive content :=
| CWorkspace (ws : workspace)
| CAlgorithm (name : string)
| CPipeline (title : string)
| CLoader (title : string)
| COther (text : string).
(* the working directory *)
Definition files := dict string content.
Definition WORKSPACE_FILE : string := "workspace.yml".     (* workspaces/cli.py:52 *)

(* _current_workspace (workspaces/cli.py:94-117).  WorkspaceNotFoundError is OtherError 1, the error of the YAML
   parser for a file that holds something else is ValueError. *)
Definition current_workspace (f : files) : res workspace :=
  match dget f WORKSPACE_FILE with Some (CWorkspace ws) => Ok ws | Some _ => Err ValueError | None => Err (OtherError 1) end.

(* The commands of Workspace.v and the dynamic data loader (workspaces/cli.py:245-255), which is one whose reference
   is a module that the command writes. *)
Inductive edit :=
| Plain (c : command)
| AddDynamic (name : string).
Definition as_command (e : edit) : command :=
  match e with Plain c => c | AddDynamic n => AddDataLoader n (slugify n ++ ".DataLoader")%string end.
(* the file a command writes beside the workspace: workspaces/cli.py:163-164 (EJECT), 174-176 (SKELETON), 247-249 *)
Definition writes (e : edit) : option (string * content) :=
  match e with
  | Plain (AddEjected a n) => Some ((slugify n ++ ".yml")%string, CAlgorithm a)
  | Plain (AddSkeleton n) => Some ((slugify n ++ ".py")%string, CPipeline n)
  | AddDynamic n => Some ((slugify n ++ ".py")%string, CLoader n)
  | _ => None
  end.
(* A command reads the workspace, writes its file and then the workspace (create_pipeline, create_experiment,
   create_data_loader and the commands that remove: workspaces/cli.py:373-403, 470-596).  A command that raises
   does so before it writes.  Result files, which removing an experiment deletes, are modelled in Workspace.v and
   left alone here.  A command that reports an error without raising writes nothing; in the model it
   writes the workspace it read. *)
Definition perform (w : world) (f : files) (e : edit) : res files :=
  rbind (current_workspace f) (fun ws =>
  rbind (run_command slugify w ws (as_command e)) (fun ws' =>
  Ok (dset (match writes e with Some (n, c) => dset f n c | None => f end) WORKSPACE_FILE (CWorkspace ws')))).
(* a history of commands; one that raises changes nothing *)
Definition history (f : files) (cs : list (world * edit)) : files :=
  fold_left (fun f x => match perform (fst x) f (snd x) with Ok f' => f' | Err _ => f end) cs f.
