(* Model of how the command experiment update-variable reads the value that the user types (workspaces/cli.py:518-563). *)
From Verif Require Import Base PyDict PyStr Variables Workspace.
Open Scope string_scope.
Open Scope list_scope.

Section Cast.
Variables (read_int : string -> option Z) (read_float : string -> option fl).    (* int(text), float(text); None is ValueError *)
(* current_variable._PYTHON_TYPE(variable_value) (workspaces/cli.py:546-548, variables.py:70-71, 84-85, 109-110, 122-123);
   bool(text) is False for the empty text only *)
Definition cast (t : vtype) (text : string) : res scalar :=
  match t with
  | TyString => Ok (SStr text)
  | TyInteger => match read_int text with Some z => Ok (SInt z) | None => Err ValueError end
  | TyFloat => match read_float text with Some f => Ok (SFloat f) | None => Err ValueError end
  | TyBool => Ok (SBool (negb (eqb text "")))
  end.
(* the command: the workspace afterwards, or the exception (workspaces/cli.py:518-563).  A text that cannot be cast is
   reported.  After the cast it goes on as in Workspace.run_command. *)
Definition update_variable (slug : string -> string) (w : world) (ws : workspace) (n x text : string) : res workspace :=
  match dget (experiments ws) n with
  | None => Ok ws
  | Some e =>
      match dget (pipelines ws) (e_pipeline e) with
      | None => Err KeyError
      | Some r => rbind (load_algorithm w r) (fun a => rbind (variables_of a) (fun vs =>
          match find_variable vs x with
          | None => Ok ws
          | Some var => match cast (v_type var) text with
                        | Err _ => Ok ws
                        | Ok v => run_command slug w ws (UpdateVariable n x v)
                        end
          end))
      end
  end.
End Cast.
