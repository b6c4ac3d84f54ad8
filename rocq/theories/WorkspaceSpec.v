(* Specification vocabulary for workspaces. *)
From Coq Require Import Sorting.Sorted.
From Verif Require Import Base PyDict PyStr Variables VariableSpec Workspace.
Open Scope string_scope.
Open Scope list_scope.

(* the file belongs to experiment n and time t *)
Definition result_of (f n : string) (t : Z) : Prop := f = (n ++ "_" ++ str_Z t ++ ".json")%string.
(* the file could be taken for a result of n but has not the name of a result *)
Definition stray (f n : string) : Prop := (exists x, f = (n ++ "_" ++ x)%string) /\ (exists x, f = (x ++ ".json")%string) /\ ~ exists m t, result_of f m t.
(* a history of saves: experiment, time, content *)
Definition saved {C} (h : list (string * Z * C)) (d : dir C) : dir C := fold_left (fun d x => save_result d (fst (fst x)) (snd (fst x)) (snd x)) h d.
(* c is what was saved last for n at time t *)
Definition last_saved {C} (h : list (string * Z * C)) (n : string) (t : Z) (c : C) : Prop := exists p q, h = p ++ (n, t, c) :: q /\ forall c', ~ In (n, t, c') q.
(* newest first, no repetition *)
Definition newest_first (l : list Z) : Prop := StronglySorted Z.gt l.

(* every experiment refers to an existing pipeline and data loader *)
Definition refs_valid (ws : workspace) : Prop := forall n e, dget (experiments ws) n = Some e -> In (e_pipeline e) (dkeys (pipelines ws)) /\ In (e_dataloader e) (dkeys (dataloaders ws)).

(* the path is the directory or below it *)
Definition inside (cwd p : string) : Prop := p = cwd \/ exists r, p = (cwd ++ "/" ++ r)%string.
(* the components of an absolute path other than the root *)
Definition path_components (l : list string) : Prop := l <> [] /\ forall c, In c l -> c <> "" /\ c <> "." /\ c <> ".." /\ ~ In slash (list_ascii_of_string c).

(* the experiment gives a value for every variable that the steps refer to *)
Definition covers (a : algorithm) (e : experiment) : Prop := forall s n, In s (a_steps a) -> step_refers s n -> In n (dkeys (e_variables e)).
Definition steps_ok (a : algorithm) : Prop := forall s, In s (a_steps a) -> step_like s.
Definition closed (a : algorithm) : Prop := forall s n, In s (a_steps a) -> ~ step_refers s n.

(* worlds reached by executing and checking experiments in the same process *)
Inductive later {D G : Type} (ha : algorithm -> string) (hv : dict string scalar -> string) (hd : D -> string) (data : string -> res D) (run : algorithm -> D -> res G) : world -> world -> Prop :=
| la_refl : forall w, later ha hv hd data run w w
| la_exec : forall w w1 ws e r w2, execute_experiment ha hv hd data run w ws e = (w1, r) -> later ha hv hd data run w1 w2 -> later ha hv hd data run w w2
| la_check : forall w w1 ws (d : dir (@result G)) ls n r w2, needs_reexecution ha hv hd data w ws d ls n = (w1, r) -> later ha hv hd data run w1 w2 -> later ha hv hd data run w w2.
