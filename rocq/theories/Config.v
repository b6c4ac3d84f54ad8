(* Model of the configuration of pipelines: the constructors of generators, pipeline steps and logic steps, what
   model_dump writes for them, and how they are loaded from such a dictionary (causy/interfaces.py, generators.py,
   graph_utils.py:18-39, serialization.py:21-48, variables.py:249-268). *)
From Coq Require Import QArith.
From Verif Require Import Base PyDict PyStr Json Variables.
Close Scope Q_scope.
Open Scope string_scope.
Open Scope list_scope.

Notation jv := (json fl).
(* The value of an attribute or argument.  PEnum: a member of an Enum that is also a string (pc.py:65-74).
   PRaw: a dictionary or list as it is read from a file.  Other objects are not modelled. *)
Inductive pv := PNone | PBool (b : bool) | PInt (z : Z) | PFloat (f : fl) | PStr (s : string) | PRef (name : string) | PEnum (s : string) | PRaw (j : jv).
(* a value read from a file, used as an argument *)
Definition of_json (j : jv) : pv :=
  match j with JNull => PNone | JBool b => PBool b | JInt z => PInt z | JFloat f => PFloat f | JStr s => PStr s | JList _ | JDict _ => PRaw j end.
(* model_dump of the value of an attribute; a VariableReference has the field name and the computed field type
   (variables.py:125-135) *)
Definition to_json (p : pv) : jv :=
  match p with
  | PNone => JNull | PBool b => JBool b | PInt z => JInt z | PFloat f => JFloat f | PStr s => JStr s | PEnum s => JStr s | PRaw j => j
  | PRef n => JDict [("name", JStr n); ("type", JStr "reference")]
  end.
(* Python's truth value *)
Definition truthy (p : pv) : bool :=
  match p with
  | PNone => false | PBool b => b | PInt z => negb (Z.eqb z 0) | PFloat (FNum q) => negb (Qeq_bool q 0) | PFloat _ => true
  | PStr s | PEnum s => negb (eqb s "") | PRef _ => true
  | PRaw (JDict []) | PRaw (JList []) => false | PRaw _ => true
  end.
Definition if_truthy (given default : pv) : pv := if truthy given then given else default.
Definition if_given (given default : pv) : pv := match given with PNone => default | _ => given end.

(* ComparisonSettings (models.py:26-33, interfaces.py:34-41); the class is kept by its name *)
Record settings := mkSettings { se_class : string; se_min : pv; se_max : pv }.
(* A generator (interfaces.py:295-341).  chunk_size is None for the classes that do not have this attribute. *)
Inductive gen := Gen (cls : string) (cs : option settings) (chunked every_nth shuffle : pv) (chunk_size : option pv) (inner : ginner)
with ginner := NoGen | ObjGen (g : gen) | RawGen (j : jv).
(* A pipeline step (interfaces.py:347-397); s_extra holds the attributes that only some classes have *)
Record step := mkStep { s_class : string; s_gen : option gen; s_threshold : pv; s_chunk : pv; s_parallel : pv; s_display : pv; s_needs : pv; s_sync : pv; s_extra : list (string * pv) }.
(* An entry of a pipeline: a pipeline step or a logic step (interfaces.py:464-505).  An exit condition is given by
   its class; exit conditions with attributes are not modelled. *)
Inductive item := IStep (s : step) | ILogic (cls : string) (steps : list item) (exit : option string) (display : pv).

(* What importlib finds under a name: the kinds of classes that a definition can name. *)
Inductive gkind := GPlain | GEdges (chunk_size : pv) | GSample.
Inductive class :=
| CSettings (dmin dmax : option pv)                         (* defaults of min and max *)
| CGen (k : gkind) (chunked every_nth shuffle : pv)          (* defaults *)
| CStep (defaults : step) (settable : bool)                  (* settable: the constructor takes the extra attributes *)
| CLogic
| CExit.

(* for x in l: ... in a function that can fail *)
Section All.
Variables (A B : Type) (f : A -> res B).
Fixpoint all_res (l : list A) : res (list B) := match l with [] => Ok [] | x :: r => rbind (f x) (fun y => rbind (all_res r) (fun ys => Ok (y :: ys))) end.
End All.
Arguments all_res {A B} f l.

Section Classes.
Variable lookup : string -> option class.

(* GeneratorInterface.__init__ (interfaces.py:307-333) and the constructors of the subclasses (generators.py:66-77,
   108-113, 201-216).  An argument that is None counts as not given. *)
Definition init_gen (cls : string) (cs : option settings) (chunked every_nth shuffle : pv) (chunk_size : option pv) (inner : ginner) : res gen :=
  match lookup cls with
  | Some (CGen k dc de ds) =>
      match k, chunk_size with
      | GPlain, None => Ok (Gen cls cs (if_given chunked dc) (if_given every_nth de) (if_given shuffle ds) None inner)
      | GEdges d, _ => Ok (Gen cls cs chunked (if_given every_nth de) (if_given shuffle ds) (Some (match chunk_size with Some c => if_given c d | None => d end)) inner)
      | GSample, None => match inner with NoGen => Err ValueError | _ => Ok (Gen cls cs (if_given chunked dc) (if_given every_nth de) (if_given shuffle ds) None inner) end
      | _, Some _ => Err TypeError                           (* unexpected keyword argument *)
      end
  | _ => Err TypeError
  end.
(* PipelineStepInterface.__init__ (interfaces.py:361-397) and PlaceholderTest.__init__ (placeholder.py:18-30):
   arguments that are false in a condition are ignored; other keyword arguments are dropped unless the class takes them *)
Record step_args := mkArgs { a_gen : option gen; a_threshold : pv; a_chunk : pv; a_parallel : pv; a_display : pv; a_sync : pv; a_kwargs : list (string * pv) }.
Definition init_step (cls : string) (a : step_args) : res step :=
  match lookup cls with
  | Some (CStep d settable) =>
      Ok (mkStep cls (match a_gen a with Some g => Some g | None => s_gen d end) (if_truthy (a_threshold a) (s_threshold d)) (if_truthy (a_chunk a) (s_chunk d))
            (if_truthy (a_parallel a) (s_parallel d)) (if_truthy (a_display a) (s_display d)) (s_needs d) (if_truthy (a_sync a) (s_sync d))
            (if settable then map (fun p => (fst p, match dget (a_kwargs a) (fst p) with Some v => v | None => snd p end)) (s_extra d) else s_extra d))
  | _ => Err TypeError
  end.
(* LogicStepInterface.__init__ (interfaces.py:480-505) with a list of step objects *)
Definition init_logic (cls : string) (steps : list item) (exit : option string) (display : pv) : res item :=
  match lookup cls with Some CLogic => Ok (ILogic cls steps exit (if_truthy display PNone)) | _ => Err TypeError end.

(* ---- model_dump ---- *)
Definition dump_settings (c : settings) : jv := JDict [("min", to_json (se_min c)); ("max", to_json (se_max c)); ("name", JStr (se_class c))].
(* An attribute that is declared to be a GeneratorInterface is written with the fields of that class only. *)
Fixpoint dump_gen (g : gen) : jv :=
  match g with
  | Gen cls cs ch ev sh _ inner =>
      JDict [("comparison_settings", match cs with Some c => dump_settings c | None => JNull end); ("chunked", to_json ch); ("every_nth", to_json ev);
             ("generator", match inner with NoGen => JNull | ObjGen g' => dump_gen g' | RawGen j => j end);
             ("shuffle_combinations", to_json sh); ("name", JStr cls)]
  end.
Definition dump_step (s : step) : jv :=
  JDict ([("generator", match s_gen s with Some g => dump_gen g | None => JNull end); ("threshold", to_json (s_threshold s)); ("chunk_size_parallel_processing", to_json (s_chunk s));
          ("parallel", to_json (s_parallel s)); ("display_name", to_json (s_display s)); ("needs_unapplied_actions", to_json (s_needs s)); ("apply_synchronous", to_json (s_sync s))]
         ++ map (fun p => (fst p, to_json (snd p))) (s_extra s) ++ [("name", JStr (s_class s))]).
Fixpoint dump_item (i : item) : jv :=
  match i with
  | IStep s => dump_step s
  | ILogic cls steps exit display =>
      JDict [("pipeline_steps", JList (map dump_item steps)); ("exit_condition", match exit with Some c => JDict [("name", JStr c)] | None => JNull end);
             ("display_name", to_json display); ("name", JStr cls)]
  end.

(* ---- loading ---- *)
(* the name of the class of a definition, load_pipeline_artefact_by_definition (graph_utils.py:18-28) *)
Definition class_name (l : list (string * jv)) : res string :=
  match dget l "name" with Some (JStr n) => Ok n | Some _ => Err AttributeError | None => Err KeyError end.
Definition arg (l : list (string * jv)) (k : string) : pv := match dget l k with Some j => of_json j | None => PNone end.
Definition only_keys (keys : list string) (l : list (string * jv)) : bool := forallb (fun p => existsb (eqb (fst p)) ("name" :: keys)) l.
(* pydantic: an IntegerParameter is an integer or the fields of a VariableReference.  Conversions from other types
   are left out. *)
Definition int_param (j : jv) : res pv :=
  match j with JInt z => Ok (PInt z) | JDict l => match dget l "name" with Some (JStr n) => Ok (PRef n) | _ => Err ValueError end | _ => Err ValueError end.
(* comparison_settings given as a dictionary (interfaces.py:315-319): first validated as ComparisonSettingsInterface,
   where min and max are required, then loaded *)
Definition load_settings (j : jv) : res (option settings) :=
  match j with
  | JNull => Ok None
  | JDict l =>
      match dget l "min", dget l "max" with
      | Some a, Some b => rbind (int_param a) (fun mn => rbind (int_param b) (fun mx => rbind (class_name l) (fun n =>
          match lookup n with Some (CSettings _ _) => Ok (Some (mkSettings n mn mx)) | Some _ => Err TypeError | None => Err AttributeError end)))
      | _, _ => Err ValueError
      end
  | _ => Err ValueError
  end.
(* load_pipeline_artefact_by_definition of a generator.  A dictionary under "generator" is loaded by
   RandomSampleGenerator only; the other classes keep it as it is (here even if it looks like a reference to a variable). *)
Fixpoint load_gen (j : jv) {struct j} : res gen :=
  match j with
  | JDict l =>
      rbind (class_name l) (fun n =>
      match lookup n with
      | Some (CGen k _ _ _) =>
          if negb (only_keys (["comparison_settings"; "chunked"; "every_nth"; "generator"; "shuffle_combinations"] ++ match k with GEdges _ => ["chunk_size"] | _ => [] end) l) then Err TypeError else
          rbind (match dget l "comparison_settings" with Some c => load_settings c | None => Ok None end) (fun cs =>
          rbind (match k with
                 | GSample => (fix find (l : list (string * jv)) : res ginner :=
                                 match l with [] => Ok NoGen | (key, x) :: r => if eqb "generator" key then match x with JNull => Ok NoGen | _ => rbind (load_gen x) (fun g => Ok (ObjGen g)) end else find r end) l
                 | _ => Ok (match dget l "generator" with None | Some JNull => NoGen | Some x => RawGen x end)
                 end) (fun inner =>
          init_gen n cs (arg l "chunked") (arg l "every_nth") (arg l "shuffle_combinations") (option_map of_json (dget l "chunk_size")) inner))
      | Some _ => Err TypeError                              (* an object that is no generator: not modelled *)
      | None => Err AttributeError
      end)
  | _ => Err TypeError
  end.
(* the argument generator of a pipeline step (interfaces.py:372-376); a text or number here is not modelled *)
Definition load_gen_arg (j : option jv) : res (option gen) :=
  match j with None | Some JNull | Some (JDict []) => Ok None | Some x => rbind (load_gen x) (fun g => Ok (Some g)) end.
Definition load_step (n : string) (l : list (string * jv)) : res step :=
  rbind (load_gen_arg (dget l "generator")) (fun g =>
  init_step n (mkArgs g (arg l "threshold") (arg l "chunk_size_parallel_processing") (arg l "parallel") (arg l "display_name") (arg l "apply_synchronous")
                 (map (fun p => (fst p, of_json (snd p))) l))).

(* deserialize_variable_references (variables.py:249-268): dictionaries that look like references become references,
   and the method descends into every object.  Descending into a member of an Enum it reaches the class of the
   member, from there the class str, and fails to set an attribute of that class. *)
Definition deser_pv (p : pv) : res pv :=
  match p with
  | PRaw (JDict l) => match dget l "type" with
                      | Some (JStr t) => if eqb t "reference" then match dget l "name" with Some (JStr n) => Ok (PRef n) | Some _ => Err ValueError | None => Err KeyError end else Ok p
                      | _ => Ok p
                      end
  | PEnum _ => Err TypeError
  | _ => Ok p
  end.
Definition deser_settings (c : settings) : res settings :=
  rbind (deser_pv (se_min c)) (fun a => rbind (deser_pv (se_max c)) (fun b => Ok (mkSettings (se_class c) a b))).
Definition deser_opt {A} (f : A -> res A) (o : option A) : res (option A) := match o with Some x => rbind (f x) (fun y => Ok (Some y)) | None => Ok None end.
Fixpoint deser_gen (g : gen) : res gen :=
  match g with
  | Gen cls cs ch ev sh cz inner =>
      rbind (deser_opt deser_settings cs) (fun cs => rbind (deser_pv ch) (fun ch => rbind (deser_pv ev) (fun ev =>
      rbind (match inner with ObjGen g' => rbind (deser_gen g') (fun g' => Ok (ObjGen g')) | _ => Ok inner end) (fun inner =>
      rbind (deser_pv sh) (fun sh => rbind (deser_opt deser_pv cz) (fun cz => Ok (Gen cls cs ch ev sh cz inner)))))))
  end.
Fixpoint deser_extra (l : list (string * pv)) : res (list (string * pv)) :=
  match l with [] => Ok [] | (k, p) :: r => rbind (deser_pv p) (fun p => rbind (deser_extra r) (fun r => Ok ((k, p) :: r))) end.
Definition deser_step (s : step) : res step :=
  rbind (deser_opt deser_gen (s_gen s)) (fun g => rbind (deser_pv (s_threshold s)) (fun t => rbind (deser_pv (s_chunk s)) (fun c => rbind (deser_pv (s_parallel s)) (fun p =>
  rbind (deser_pv (s_display s)) (fun d => rbind (deser_pv (s_needs s)) (fun n => rbind (deser_pv (s_sync s)) (fun y => rbind (deser_extra (s_extra s)) (fun e =>
  Ok (mkStep (s_class s) g t c p d n y e))))))))).
Fixpoint deser_item (i : item) : res item :=
  match i with
  | IStep s => rbind (deser_step s) (fun s => Ok (IStep s))
  | ILogic cls steps exit display =>
      rbind (deser_pv display) (fun d =>
      rbind (all_res deser_item steps) (fun steps =>
      Ok (ILogic cls steps exit d)))
  end.
Definition load_exit (j : jv) : res (option string) :=
  match j with
  | JDict l => rbind (class_name l) (fun n => match lookup n with Some CExit => Ok (Some n) | Some _ => Err TypeError | None => Err AttributeError end)
  | JNull => Ok None
  | _ => Err TypeError                                        (* kept as it is: not modelled *)
  end.
(* load_pipeline_artefact_by_definition of a step, followed by deserialize_variable_references
   (graph_utils.py:33-39) *)
Fixpoint load_item (j : jv) {struct j} : res item :=
  match j with
  | JDict l =>
      rbind (rbind (class_name l) (fun n =>
             match lookup n with
             | Some (CStep _ _) => rbind (load_step n l) (fun s => Ok (IStep s))
             | Some CLogic =>
                 if negb (only_keys ["pipeline_steps"; "exit_condition"; "display_name"] l) then Err TypeError else
                 rbind (match dget l "exit_condition" with Some c => load_exit c | None => Ok None end) (fun exit =>
                 rbind ((fix find (l : list (string * jv)) : res (list item) :=
                           match l with
                           | [] => Err TypeError                                       (* len(None) *)
                           | (key, x) :: r =>
                               if eqb "pipeline_steps" key then
                                 match x with
                                 | JList js => match js with
                                               | [] | JDict _ :: _ => all_res load_item js
                                               | _ => Err AttributeError                 (* objects without __dict__ *)
                                               end
                                 | _ => Err TypeError
                                 end
                               else find r
                           end) l) (fun steps =>
                 init_logic n steps exit (arg l "display_name")))
             | Some _ => Err TypeError                         (* an object that is no step: not modelled *)
             | None => Err AttributeError
             end)) deser_item
  | _ => Err TypeError
  end.
(* load_pipeline_steps_by_definition (graph_utils.py:33-39) *)
Definition load_items (js : list jv) : res (list item) := all_res load_item js.

(* ---- algorithms ---- *)
(* An edge type is an object, or what was read from a file.  Extensions and hooks are not modelled here. *)
Inductive etype := EObj (name : string) (directed : bool) (str : string) | ERaw (j : jv).
Record spec := mkSpec { sp_name : string; sp_steps : list item; sp_types : list etype; sp_vars : list variable }.
Definition dump_type (e : etype) : jv := match e with EObj n d s => JDict [("name", JStr n); ("IS_DIRECTED", JBool d); ("STR_REPRESENTATION", JStr s)] | ERaw j => j end.
Definition scalar_json (s : scalar) : jv := match s with SStr x => JStr x | SInt z => JInt z | SFloat f => JFloat f | SBool b => JBool b end.
Definition json_scalar (j : jv) : option scalar := match j with JStr x => Some (SStr x) | JInt z => Some (SInt z) | JFloat f => Some (SFloat f) | JBool b => Some (SBool b) | _ => None end.
Definition dump_var (v : variable) : jv :=
  JDict [("name", JStr (v_name v)); ("value", scalar_json (v_value v)); ("choices", match v_choices v with Some l => JList (map scalar_json l) | None => JNull end); ("type", JStr (type_name (v_type v)))].
(* Algorithm.model_dump, called by serialize_algorithm (serialization.py:21-26) *)
Definition dump_spec (a : spec) : jv :=
  JDict [("name", JStr (sp_name a)); ("pipeline_steps", JList (map dump_item (sp_steps a))); ("edge_types", JList (map dump_type (sp_types a))); ("variables", JList (map dump_var (sp_vars a)))].

Variable coerce : vtype -> scalar -> res scalar.              (* pydantic's conversion of the value of a variable *)
Fixpoint scalars (l : list jv) : option (list scalar) :=
  match l with [] => Some [] | j :: r => match json_scalar j, scalars r with Some s, Some t => Some (s :: t) | _, _ => None end end.
Definition load_var (j : jv) : res variable :=
  match j with
  | JDict l =>
      match dget l "type" with
      | Some (JStr t) =>
          match type_named t, dget l "name", match dget l "value" with Some v => json_scalar v | None => None end,
                match dget l "choices" with None | Some JNull => Some None | Some (JList c) => option_map Some (scalars c) | Some _ => None end with
          | Some _, Some (JStr n), Some v, Some c => deserialize_variable coerce (Some t) n v c
          | _, _, _, _ => Err ValueError
          end
      | _ => Err ValueError
      end
  | _ => Err TypeError
  end.
Definition load_vars (js : list jv) : res (list variable) := all_res load_var js.
(* load_algorithm_from_specification (serialization.py:29-48): the edge types are taken as they are *)
Definition load_spec (j : jv) : res spec :=
  match j with
  | JDict l =>
      match dget l "pipeline_steps" with
      | Some (JList js) => rbind (load_items js) (fun steps =>
          rbind (match dget l "variables" with None | Some JNull => Ok [] | Some (JList vs) => load_vars vs | Some _ => Err TypeError end) (fun vars =>
          match dget l "name", dget l "edge_types" with
          | Some (JStr n), Some (JList es) => Ok (mkSpec n steps (map ERaw es) vars)
          | _, _ => Err ValueError
          end))
      | Some _ => Err TypeError
      | None => Err KeyError
      end
  | _ => Err TypeError
  end.
(* the part of graph_model_factory (graph_model.py:550-553) that needs the edge types to be objects *)
Definition factory_types (a : spec) : res (list string) :=
  fold_left (fun r e => rbind r (fun l => match e with EObj n _ _ => Ok (l ++ [n]) | ERaw _ => Err AttributeError end)) (sp_types a) (Ok []).
End Classes.
