(* Model of causy/workspaces/cli.py, causy/workspaces/models.py and load_algorithm_by_reference
   (causy/serialization.py:51-86).  Prompts are arguments, printed messages are not modelled; a YAML or JSON file
   that is written is taken to be read back as the same value. *)
From Verif Require Import Base PyDict PyStr Variables.
Open Scope string_scope.
Open Scope list_scope.

(* ---- result files ---- *)
(* f"{experiment_name}_{timestamp}.json" (workspaces/cli.py:327, 345, 370) *)
Definition version_file (name : string) (t : Z) : string := (name ++ "_" ++ str_Z t ++ ".json")%string.
(* sorted(versions, reverse=True) *)
Fixpoint insert_desc (x : Z) (l : list Z) : list Z := match l with [] => [x] | y :: r => if Z.leb y x then x :: l else y :: insert_desc x r end.
Definition sort_desc (l : list Z) : list Z := fold_right insert_desc [] l.
(* _load_experiment_versions (workspaces/cli.py:351-364); [ls] is os.listdir() *)
Fixpoint scan_versions (ls : list string) (name : string) : res (list Z) :=
  match ls with
  | [] => Ok []
  | f :: r =>
      if startswith f (name ++ "_")%string && endswith f ".json" then
        let segments := split us f in
        match py_int (hd "" (split dot (last_seg segments))) with
        | None => Err ValueError
        | Some t => if eqb (join "_" (removelast segments)) name then rbind (scan_versions r name) (fun l => Ok (t :: l)) else scan_versions r name
        end
      else scan_versions r name
  end.
Definition load_versions (ls : list string) (name : string) : res (list Z) := rbind (scan_versions ls name) (fun l => Ok (sort_desc l)).

Section Files.
Context {C : Type}.
(* the working directory: file name -> contents; os.listdir() is any permutation of the names *)
Definition dir := dict string C.
(* _save_experiment_result (workspaces/cli.py:367-370) *)
Definition save_result (d : dir) (name : string) (t : Z) (c : C) : dir := dset d (version_file name t) c.
(* open(file).read() *)
Definition read_file (d : dir) (f : string) : res C := match dget d f with Some c => Ok c | None => Err FileNotFound end.
(* _load_latest_experiment_result (workspaces/cli.py:317-331); [known]: the experiment is in the workspace *)
Definition load_latest (d : dir) (ls : list string) (known : bool) (name : string) : res C :=
  rbind (load_versions ls name) (fun vs =>
  if negb known then Err ValueError else
  match vs with [] => Err ValueError | t :: _ => read_file d (version_file name t) end).
(* _load_experiment_result (workspaces/cli.py:334-348) *)
Definition load_version (d : dir) (ls : list string) (known : bool) (name : string) (t : Z) : res C :=
  if negb known then Err ValueError else
  rbind (load_versions ls name) (fun vs => if existsb (Z.eqb t) vs then read_file d (version_file name t) else Err ValueError).
(* _clear_experiment (workspaces/cli.py:459-468): the directory and the number of removed files *)
Fixpoint remove_versions (d : dir) (name : string) (vs : list Z) : dir * nat :=
  match vs with
  | [] => (d, 0)
  | t :: r => let f := version_file name t in
              if dmem d f then let (d', n) := remove_versions (ddel d f) name r in (d', S n) else remove_versions d name r
  end.
Definition clear_experiment (d : dir) (ls : list string) (name : string) : dir * res nat :=
  match load_versions ls name with
  | Err e => (d, Err e)
  | Ok vs => let (d', n) := remove_versions d name vs in (d', Ok n)
  end.
End Files.
Arguments dir C : clear implicits.

(* ---- the workspace file ---- *)
(* AlgorithmReferenceType and AlgorithmReference (models.py:66-74) *)
Inductive reftype := RFile | RName | RModule.
Record aref := mkRef { r_type : reftype; r_ref : string }.
(* Experiment and Workspace (workspaces/models.py).  A pipeline given inline instead of by reference is not modelled. *)
Record experiment := mkExp { e_pipeline : string; e_dataloader : string; e_variables : dict string scalar }.
Record workspace := mkWs { pipelines : dict string aref; dataloaders : dict string string; experiments : dict string experiment }.

(* ---- loading algorithms ---- *)
(* serialization.py:54-60: the check on the path of a file reference; [real] is os.path.realpath(algorithm) *)
Definition path_allowed (cwd real : string) : bool := eqb (commonprefix cwd real) cwd.
(* What load_algorithm_by_reference can reach.
   w_lib: the _original_algorithm of AVAILABLE_ALGORITHMS; w_file: reading and parsing a file, a new object each
   time; w_mod: the _original_algorithm of the model class that a module attribute names.  *)
Record world := mkWorld { w_cwd : string; w_real : string -> string; w_lib : dict string algorithm; w_file : string -> res algorithm; w_mod : dict string algorithm }.
(* load_algorithm_by_reference (serialization.py:51-86).  The error of a missing module is OtherError 1. *)
Definition load_algorithm (w : world) (r : aref) : res algorithm :=
  match r_type r with
  | RFile => if path_allowed (w_cwd w) (w_real w (r_ref r)) then w_file w (w_real w (r_ref r)) else Err ValueError
  | RName => match dget (w_lib w) (r_ref r) with Some a => Ok a | None => Err KeyError end
  | RModule => match dget (w_mod w) (r_ref r) with Some a => Ok a | None => Err (OtherError 1) end
  end.
(* get_algorithm of the web server (ui/server.py:131-144); an HTTPException with status n is OtherError n.  The name
   of the type of the reference is already parsed; a name that is no type gives status 400 as well. *)
Definition server_get_algorithm (w : world) (r : aref) : res algorithm :=
  if startswith (r_ref r) "/" || contains ".." (r_ref r) then Err (OtherError 400) else
  match load_algorithm w r with Ok a => Ok a | Err _ => Err (OtherError 400) end.
(* graph_model_factory changes the algorithm it is given (graph_model.py:545).  Only for a module reference is that
   object shared with later loads (serialization.py:86 returns it without copying).  After an error the code may
   have resolved some steps already; the model leaves the object unchanged. *)
Definition after_factory (w : world) (r : aref) (a : res algorithm) : world :=
  match r_type r, a with
  | RModule, Ok a' => mkWorld (w_cwd w) (w_real w) (w_lib w) (w_file w) (dset (w_mod w) (r_ref r) a')
  | _, _ => w
  end.
(* algorithm.variables must be iterable (variables.py:162, 185) *)
Definition variables_of (a : algorithm) : res (list variable) := match a_variables a with Some l => Ok l | None => Err TypeError end.

Section Run.
Context {D G : Type}.
Variable hash_alg : algorithm -> string.                 (* Algorithm.hash *)
Variable hash_vars : dict string scalar -> string.       (* hash_dictionary *)
Variable hash_data : D -> string.                        (* AbstractDataLoader.hash *)
Variable data : string -> res D.                         (* load_data_loader for a data loader reference *)
Variable run : algorithm -> D -> res G.                  (* creating the graph and executing the pipeline *)

(* Result (models.py:98-108) *)
Record result := mkResult { res_graph : G; res_variables : dict string scalar; res_data_hash : option string; res_alg_hash : option string; res_vars_hash : option string }.

(* _execute_experiment (workspaces/cli.py:262-314) *)
Definition execute_experiment (w : world) (ws : workspace) (e : experiment) : world * res result :=
  match dget (pipelines ws) (e_pipeline e) with
  | None => (w, Err KeyError)
  | Some r =>
      match rbind (load_algorithm w r) (fun a => rbind (variables_of a) (fun vs =>
            rbind (validate_variable_values vs (e_variables e)) (fun _ => Ok (a, vs)))) with
      | Err x => (w, Err x)
      | Ok (a, vs) =>
          let variables := resolve_variables vs (e_variables e) in
          match dget (dataloaders ws) (e_dataloader e) with
          | None => (w, Err KeyError)
          | Some l =>
              match data l with
              | Err x => (w, Err x)
              | Ok dt =>
                  let m := graph_model_factory a (Some (e_variables e)) in
                  (after_factory w r m,
                   rbind m (fun a' => rbind (run a' dt) (fun g =>
                   Ok (mkResult g variables (Some (hash_data dt)) (Some (hash_alg a')) (Some (hash_vars variables))))))
              end
          end
      end
  end.

(* The part of _experiment_needs_reexecution that compares the latest result with the experiment (workspaces/cli.py:422-456) *)
Definition check_latest (w : world) (ws : workspace) (e : experiment) (latest : result) : world * res bool :=
  match res_alg_hash latest, res_data_hash latest with
  | Some ah, Some dh =>
      match dget (pipelines ws) (e_pipeline e) with
      | None => (w, Err KeyError)
      | Some r =>
          match rbind (load_algorithm w r) (fun a => rbind (variables_of a) (fun vs =>
                rbind (validate_variable_values vs (e_variables e)) (fun _ => Ok (a, vs)))) with
          | Err x => (w, Err x)
          | Ok (a, vs) =>
              let variables := resolve_variables vs (e_variables e) in
              if negb (match res_vars_hash latest with Some h => eqb h (hash_vars variables) | None => false end) then (w, Ok true) else
              let m := graph_model_factory a (Some variables) in
              (after_factory w r m,
               rbind m (fun a' =>
               if negb (eqb ah (hash_alg a')) then Ok true else
               match dget (dataloaders ws) (e_dataloader e) with
               | None => Err KeyError
               | Some l => rbind (data l) (fun dt => Ok (negb (eqb dh (hash_data dt))))
               end))
          end
      end
  | _, _ => (w, Ok true)
  end.
(* _experiment_needs_reexecution (workspaces/cli.py:406-456), on a directory of results that can all be read *)
Definition needs_reexecution (w : world) (ws : workspace) (d : dir result) (ls : list string) (name : string) : world * res bool :=
  match dget (experiments ws) name with
  | None => (w, Err ValueError)
  | Some e =>
      match load_versions ls name with
      | Err x => (w, Err x)
      | Ok [] => (w, Ok true)
      | Ok _ =>
          match load_latest d ls true name with
          | Err x => (w, Err x)
          | Ok latest => check_latest w ws e latest
          end
      end
  end.
End Run.

(* ---- commands that edit the workspace ---- *)
(* what the user answers; an answer that is cancelled ends the command with an exception before anything is
   written and is not listed here *)
Inductive command :=
| AddPreconfigured (algorithm_name name : string)             (* _create_pipeline, PRECONFIGURED *)
| AddEjected (algorithm_name name : string)                   (* EJECT: the key is the name as typed *)
| AddSkeleton (name : string)                                 (* SKELETON *)
| RemovePipeline (name : string)
| AddExperiment (name pipeline dataloader : string)
| RemoveExperiment (name : string)
| ClearExperiment (name : string)
| UpdateVariable (name variable : string) (value : scalar)    (* value: the text after the cast to the type of the variable *)
| AddDataLoader (name reference : string)
| RemoveDataLoader (name : string).

(* the first experiment that uses the pipeline or data loader *)
Definition uses_pipeline (ws : workspace) (p : string) : bool := existsb (fun x => eqb (e_pipeline (snd x)) p) (experiments ws).
Definition uses_dataloader (ws : workspace) (p : string) : bool := existsb (fun x => eqb (e_dataloader (snd x)) p) (experiments ws).
Definition set_pipelines (ws : workspace) (p : dict string aref) : workspace := mkWs p (dataloaders ws) (experiments ws).
Definition set_dataloaders (ws : workspace) (p : dict string string) : workspace := mkWs (pipelines ws) p (experiments ws).
Definition set_experiments (ws : workspace) (p : dict string experiment) : workspace := mkWs (pipelines ws) (dataloaders ws) p.

(* the variable found first by name (workspaces/cli.py:537-541) *)
Definition find_variable (vs : list variable) (n : string) : option variable := find (fun x => eqb n (v_name x)) vs.

(* The workspace after the command, or the exception that ends it; after an exception, and after show_error, the
   file is as before.  slug is slugify(_, "_").  workspaces/cli.py:120-185 (pipelines), 188-219 (experiments),
   222-259 (data loaders), 373-403, 470-563, 575-596 (commands). *)
Definition run_command (slug : string -> string) (w : world) (ws : workspace) (c : command) : res workspace :=
  match c with
  | AddPreconfigured a n => match dget (w_lib w) a with None => Err KeyError | Some _ => Ok (set_pipelines ws (dset (pipelines ws) (slug n) (mkRef RName a))) end
  | AddEjected a n => match dget (w_lib w) a with None => Err KeyError | Some _ => Ok (set_pipelines ws (dset (pipelines ws) n (mkRef RFile (slug n ++ ".yml")%string))) end
  | AddSkeleton n => Ok (set_pipelines ws (dset (pipelines ws) (slug n) (mkRef RModule (slug n ++ ".PIPELINE")%string)))
  | RemovePipeline n =>
      if negb (dmem (pipelines ws) n) then Ok ws else if uses_pipeline ws n then Ok ws else Ok (set_pipelines ws (ddel (pipelines ws) n))
  | AddExperiment n p l =>
      (* the choices offered are the existing pipelines and data loaders *)
      if negb (dmem (dataloaders ws) l) then Err ValueError else
      match dget (pipelines ws) p with
      | None => Err ValueError
      | Some r => rbind (load_algorithm w r) (fun a => rbind (variables_of a) (fun vs =>
                  Ok (set_experiments ws (dset (experiments ws) (slug n) (mkExp p l (resolve_variables vs []))))))
      end
  | RemoveExperiment n => if negb (dmem (experiments ws) n) then Ok ws else Ok (set_experiments ws (ddel (experiments ws) n))
  | ClearExperiment n => Ok ws
  | UpdateVariable n x v =>
      match dget (experiments ws) n with
      | None => Ok ws
      | Some e =>
          match dget (pipelines ws) (e_pipeline e) with
          | None => Err KeyError
          | Some r => rbind (load_algorithm w r) (fun a => rbind (variables_of a) (fun vs =>
              match find_variable vs x with
              | None => Ok ws
              | Some _ => rbind (validate_variable_values vs [(x, v)]) (fun _ =>
                          Ok (set_experiments ws (dset (experiments ws) n (mkExp (e_pipeline e) (e_dataloader e) (dset (e_variables e) x v)))))
              end))
          end
      end
  | AddDataLoader n r => Ok (set_dataloaders ws (dset (dataloaders ws) (slug n) r))
  | RemoveDataLoader n =>
      if negb (dmem (dataloaders ws) n) then Ok ws else if uses_dataloader ws n then Ok ws else Ok (set_dataloaders ws (ddel (dataloaders ws) n))
  end.
(* init (workspaces/cli.py:609-706) starts from an empty workspace *)
Definition empty_workspace : workspace := mkWs [] [] [].
(* a session: a command that raises leaves the file as it was; files and modules may change between commands *)
Definition session (slug : string -> string) (ws : workspace) (cs : list (world * command)) : workspace :=
  fold_left (fun ws x => match run_command slug (fst x) ws (snd x) with Ok ws' => ws' | Err _ => ws end) cs ws.
