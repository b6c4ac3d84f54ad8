(* Model of the web server of the user interface (ui/server.py:33-132, 164-212).  A request looks at the directory several
   times; the directory may change in between, so every look has its own directory.  Reading a file is one look.
   Left out: the static files, CORS and the validation of paths by FastAPI; get_algorithm is modelled in Workspace.v. *)
From Verif Require Import Base PyDict PyStr Variables Workspace.
Open Scope string_scope.
Open Scope list_scope.

(* an HTTPException has a code; any other exception makes FastAPI answer with code 500 *)
Inductive answer (A : Type) := Served (a : A) | Refused (code : Z) | Crashed (x : exn).
Arguments Served {A}.
Arguments Refused {A}.
Arguments Crashed {A}.

Section Endpoints.
(* C are the contents of files, J what json.load returns, A what is sent, without its version *)
Context {C J A S : Type}.
Variable listing : dir C -> list string.       (* os.listdir() *)
Variable parse : C -> res J.                   (* json.load *)
Variable build : J -> res A.                   (* AlgorithmReference( **... ) and ExtendedResult( **experiment ) *)
Variable iso : Z -> res S.                     (* datetime.fromtimestamp(t).isoformat() *)

(* get_latest_experiment (ui/server.py:60-82): os.listdir() in _load_latest_experiment_result sees d1, open and read see
   d2, os.listdir() in _load_experiment_versions sees d3 *)
Definition get_latest (wo : option workspace) (d1 d2 d3 : dir C) (name : string) : answer (A * Z) :=
  match wo with
  | None => Refused 404
  | Some ws =>
      if negb (dmem (experiments ws) name) then Refused 404 else
      match rbind (load_latest d2 (listing d1) true name) parse with
      | Err _ => Refused 400
      | Ok j => match load_versions (listing d3) name with
                | Err x => Crashed x
                | Ok [] => Crashed IndexError
                | Ok (v :: _) => match build j with Err x => Crashed x | Ok a => Served (a, v) end
                end
      end
  end.
(* get_experiment (ui/server.py:85-107): os.listdir() sees d1, open and read see d2 *)
Definition get_version (wo : option workspace) (d1 d2 : dir C) (name : string) (v : Z) : answer (A * Z) :=
  match wo with
  | None => Refused 404
  | Some ws =>
      if negb (dmem (experiments ws) name) then Refused 404 else
      match rbind (load_version d2 (listing d1) true name v) parse with
      | Err _ => Refused 400
      | Ok j => match build j with Err x => Crashed x | Ok a => Served (a, v) end
      end
  end.
(* get_experiments (ui/server.py:110-132): the directory is read once for every experiment *)
Fixpoint named_versions (vs : list Z) : res (list (Z * S)) :=
  match vs with [] => Ok [] | t :: r => rbind (iso t) (fun s => rbind (named_versions r) (fun l => Ok ((t, s) :: l))) end.
Fixpoint list_experiments (snap : string -> dir C) (es : list (string * experiment)) : res (list (string * experiment * list (Z * S))) :=
  match es with
  | [] => Ok []
  | (n, e) :: r => rbind (load_versions (listing (snap n)) n) (fun vs => rbind (named_versions vs) (fun l => rbind (list_experiments snap r) (fun q => Ok ((n, e, l) :: q))))
  end.
Definition get_experiments (wo : option workspace) (snap : string -> dir C) : answer (list (string * experiment * list (Z * S))) :=
  match wo with
  | None => Refused 404
  | Some ws => match list_experiments snap (experiments ws) with Ok l => Served l | Err x => Crashed x end
  end.
End Endpoints.

(* ---- starting the server ---- *)
(* while is_port_in_use(host, port): port += 1; if port > 65535: raise ValueError (ui/server.py:204-207); the fuel is the
   number of ports that are left *)
Fixpoint search_port (busy : Z -> bool) (fuel : nat) (port : Z) : res Z :=
  if busy port then match fuel with O => Err ValueError | S f => search_port busy f (port + 1) end else Ok port.
(* server (ui/server.py:187-207): [have]: a model or a workspace is there; [env]: os.getenv("PORT").  int(os.getenv("PORT", "8000"))
   sees the variable also if it is set to the empty string *)
Definition server_port (have : bool) (env : option string) (busy : Z -> bool) : res Z :=
  if negb have then Err ValueError else
  match env with
  | None => search_port busy (Z.to_nat (65535 - 8000)) 8000
  | Some s => match py_int s with
              | None => Err ValueError
              | Some p => Ok p
              end
  end.
