(* Specification vocabulary for the execute command. *)
From Verif Require Import Base PyDict PyStr Variables VariableSpec Workspace WorkspaceSpec JsonText Execute.
Open Scope string_scope.
Open Scope list_scope.

(* a directory: every name once, and no file that only looks like a result of an experiment of the workspace *)
Definition tidy (ws : workspace) (d : dir ustr) : Prop := NoDup (dkeys d) /\ forall n e f, dget (experiments ws) n = Some e -> In f (dkeys d) -> ~ stray f n.
(* os.listdir() gives the names of the files, in any order *)
Definition lists (listing : dir ustr -> list string) : Prop := forall d, Permutation (listing d) (dkeys d).
(* no experiment is on disk with a version newer than the second s *)
Definition not_newer (d : dir ustr) (n : string) (s : Z) : Prop := forall t, In (version_file n t) (dkeys d) -> Z.le t s.
(* no pipeline of the workspace is an object that executions share and change *)
Definition unshared (w : world) (ws : workspace) : Prop := forall p r, dget (pipelines ws) p = Some r -> r_type r <> RModule \/ exists a, load_algorithm w r = Ok a /\ steps_ok a /\ closed a.
(* every experiment gives values for the variables that the steps of its pipeline refer to *)
Definition valued (w : world) (ws : workspace) : Prop := forall n e r a, dget (experiments ws) n = Some e -> dget (pipelines ws) (e_pipeline e) = Some r -> load_algorithm w r = Ok a -> steps_ok a /\ covers a e.
(* the text is read as the result, and no proper part of it is read at all *)
Definition reads {R} (parse : ustr -> res R) (t : ustr) (l : R) : Prop := parse t = Ok l /\ forall p q, t = p ++ q -> q <> [] -> parse p = Err ValueError.
(* a result with the graph as it is read back *)
Definition kept {G G'} (keep : G -> G') (l : @result G) : @result G' := mkResult (keep (res_graph l)) (res_variables l) (res_data_hash l) (res_alg_hash l) (res_vars_hash l).
(* the saved hashes are those of the experiment as it is configured now: of the pipeline with its values, of the values and
   of the data *)
Definition up_to_date {D G'} (ha : algorithm -> string) (hv : dict string scalar -> string) (hd : D -> string) (data : string -> res D) (w : world) (ws : workspace) (e : experiment) (L : @result G') : Prop :=
  exists r a vs a' k dt, dget (pipelines ws) (e_pipeline e) = Some r /\ load_algorithm w r = Ok a /\ a_variables a = Some vs /\ validate_variable_values vs (e_variables e) = Ok tt /\
    graph_model_factory a (Some (resolve_variables vs (e_variables e))) = Ok a' /\ dget (dataloaders ws) (e_dataloader e) = Some k /\ data k = Ok dt /\
    res_alg_hash L = Some (ha a') /\ res_vars_hash L = Some (hv (resolve_variables vs (e_variables e))) /\ res_data_hash L = Some (hd dt).
