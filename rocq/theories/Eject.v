(* causy/cli.py:31-41 (eject): the algorithms that can be named, with their variables resolved, as they are written.
   Writing the value with json.dumps and reading it with json.loads is not modelled here (see JsonText.v). *)
From Coq Require Import QArith.
From Verif Require Import Base PyDict PyStr Json Variables Config ConfigClasses.
Close Scope Q_scope.
Open Scope string_scope.
Open Scope list_scope.

(* the value of a variable as an attribute *)
Definition scalar_pv (s : scalar) : pv := match s with SStr x => PStr x | SInt z => PInt z | SFloat f => PFloat f | SBool b => PBool b end.

Section Resolve.
Variable vars : dict string scalar.
(* variables.py:199-204: one attribute *)
Definition resolve_pv (p : pv) : res pv := match p with PRef n => match dget vars n with Some s => Ok (scalar_pv s) | None => Err ValueError end | _ => Ok p end.
Definition resolve_option (o : option pv) : res (option pv) := match o with Some p => rbind (resolve_pv p) (fun p => Ok (Some p)) | None => Ok None end.
Definition resolve_settings (o : option settings) : res (option settings) :=
  match o with None => Ok None | Some c => rbind (resolve_pv (se_min c)) (fun a => rbind (resolve_pv (se_max c)) (fun b => Ok (Some (mkSettings (se_class c) a b)))) end.
(* variables.py:192-212 on a generator; what is not an object is left alone *)
Fixpoint resolve_gen (g : gen) : res gen :=
  match g with
  | Gen c cs ch ev sh sz i =>
      rbind (resolve_settings cs) (fun cs => rbind (resolve_pv ch) (fun ch => rbind (resolve_pv ev) (fun ev => rbind (resolve_pv sh) (fun sh => rbind (resolve_option sz) (fun sz =>
      rbind (match i with ObjGen h => rbind (resolve_gen h) (fun h => Ok (ObjGen h)) | _ => Ok i end) (fun i => Ok (Gen c cs ch ev sh sz i)))))))
  end.
Definition resolve_extra (p : string * pv) : res (string * pv) := rbind (resolve_pv (snd p)) (fun v => Ok (fst p, v)).
(* variables.py:192-212 on a step *)
Definition resolve_one (s : step) : res step :=
  rbind (match s_gen s with Some g => rbind (resolve_gen g) (fun g => Ok (Some g)) | None => Ok None end) (fun g =>
  rbind (resolve_pv (s_threshold s)) (fun t => rbind (resolve_pv (s_chunk s)) (fun c => rbind (resolve_pv (s_parallel s)) (fun p => rbind (resolve_pv (s_display s)) (fun d =>
  rbind (resolve_pv (s_needs s)) (fun n => rbind (resolve_pv (s_sync s)) (fun y => rbind (all_res resolve_extra (s_extra s)) (fun e => Ok (mkStep (s_class s) g t c p d n y e))))))))).
(* variables.py:215-232 *)
Fixpoint resolve_item (i : item) : res item :=
  match i with
  | IStep s => rbind (resolve_one s) (fun s => Ok (IStep s))
  | ILogic c l e d => rbind (resolve_pv d) (fun d => rbind (all_res resolve_item l) (fun l => Ok (ILogic c l e d)))
  end.
End Resolve.

(* algorithms/pc.py:153-208 (ParallelPC) without its extension *)
Definition parallel_tests : res (list item) :=
  rbind (make_item m_pearson (named "Calculate Pearson Correlations")) (fun p =>
  rbind (make_item m_coefficient (at_threshold "Correlation Coefficient Test")) (fun c =>
  rbind (make_item m_partial (mkArgs None (PRef "threshold") (PInt 50000) (PBool true) (PStr "Partial Correlation Test") PNone [])) (fun q =>
  rbind (init_gen causy_classes m_sample None (PBool false) (PRef "every_nth_sample") PNone None (ObjGen (neighbours_of false true 4 0))) (fun g =>
  rbind (make_item m_matrix (mkArgs (Some g) (PRef "threshold") (PInt 5000) (PBool true) (PStr "Sampled Extended Partial Correlation Test Matrix") PNone [])) (fun s =>
  rbind (make_item m_matrix (mkArgs (Some (neighbours_of false true 4 0)) (PRef "threshold") (PInt 20000) (PBool true) (PStr "Extended Partial Correlation Test Matrix") PNone [])) (fun m =>
  Ok [p; c; q; s; m])))))).
Definition parallel_spec : res spec :=
  rbind parallel_tests (fun t => rbind pc_rules (fun r => rbind (make_item m_effects (named "Compute Direct Effects in DAGs Multivariate Regression")) (fun e =>
  Ok (mkSpec "ParallelPC" (t ++ r ++ [e]) [EObj "DIRECTED" true "-->"; EObj "UNDIRECTED" false "---"]
    [mkVar "threshold" TyFloat (SFloat (FNum (5 # 100))) None; mkVar "every_nth_sample" TyInteger (SInt 200) None])))).

(* causal_discovery/constraint/algorithms/__init__.py:3-6 (AVAILABLE_ALGORITHMS) *)
Definition available (name : string) : res spec :=
  if eqb name "PC" then pc_spec else if eqb name "ParallelPC" then parallel_spec else Err KeyError.
(* the algorithm of a model after graph_model_factory (graph_model.py:539-547): with resolved variables *)
Definition factory_steps (a : spec) : res spec :=
  let vars := resolve_variables (sp_vars a) [] in
  match vars with [] => Ok a | _ => rbind (all_res (resolve_item vars) (sp_steps a)) (fun l => Ok (mkSpec (sp_name a) l (sp_types a) (sp_vars a))) end.
(* cli.py:37-41 and serialization.py:21-26 (serialize_algorithm with a name): what is written *)
Definition eject (name : string) : res jv :=
  rbind (available name) (fun a => rbind (factory_steps a) (fun a => Ok (dump_spec (mkSpec name (sp_steps a) (sp_types a) (sp_vars a))))).
