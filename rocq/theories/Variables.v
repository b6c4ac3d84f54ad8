(* Model of causy/variables.py and of the part of graph_model_factory (causy/graph_model.py:525-548) that
   resolves variables. *)
From Coq Require Import QArith.
From Verif Require Import Base PyDict.
Close Scope Q_scope.
Open Scope string_scope.
Open Scope list_scope.

(* A Python float.  Finite floats are represented by their exact rational value. *)
Inductive fl := FNum (q : Q) | FInf (neg : bool) | FNaN.
(* VariableType = Union[str, int, float, bool] (variables.py:10) *)
Inductive scalar := SStr (s : string) | SInt (z : Z) | SFloat (f : fl) | SBool (b : bool).

(* the extended number that Python compares when both sides are numbers; None: not a number *)
Definition numval (x : scalar) : option fl :=
  match x with SStr _ => None | SInt z => Some (FNum (inject_Z z)) | SFloat f => Some f | SBool b => Some (FNum (inject_Z (if b then 1 else 0)%Z)) end.
Definition fl_eq (a b : fl) : bool :=
  match a, b with FNum p, FNum q => Qeq_bool p q | FInf x, FInf y => Bool.eqb x y | _, _ => false end.
(* Python's == on these types.  [in] also accepts an identical NaN object; that is not modelled. *)
Definition py_eq (a b : scalar) : bool :=
  match a, b with
  | SStr x, SStr y => eqb x y
  | _, _ => match numval a, numval b with Some p, Some q => fl_eq p q | _, _ => false end
  end.

(* VariableTypes (variables.py:13-17) *)
Inductive vtype := TyString | TyInteger | TyFloat | TyBool.
(* isinstance(value, self._PYTHON_TYPE); bool is a subclass of int (variables.py:47, 70-71, 84-85, 109-110, 122-123) *)
Definition isinstance (t : vtype) (v : scalar) : bool :=
  match t, v with
  | TyString, SStr _ => true | TyInteger, SInt _ => true | TyInteger, SBool _ => true | TyFloat, SFloat _ => true | TyBool, SBool _ => true
  | _, _ => false
  end.
(* a BaseVariable: name, type, value and choices *)
Record variable := mkVar { v_name : string; v_type : vtype; v_value : scalar; v_choices : option (list scalar) }.
(* BaseVariable.validate_value (variables.py:46-56) *)
Definition base_validate (x : variable) (v : scalar) : res unit :=
  if negb (isinstance (v_type x) v) then Err ValueError else
  match v_choices x with
  | Some (c :: cs) => if existsb (py_eq v) (c :: cs) then Ok tt else Err ValueError
  | _ => Ok tt
  end.
(* validate_value with the override of IntegerVariable (variables.py:87-95) *)
Definition validate_value (x : variable) (v : scalar) : res unit :=
  match v_type x, v with
  | TyInteger, SBool _ => Err ValueError
  | _, _ => base_validate x v
  end.
(* is_valid_value (variables.py:39-44) *)
Definition is_valid_value (x : variable) (v : scalar) : bool := match validate_value x v with Ok _ => true | Err _ => false end.
(* BaseVariable.__init__ (variables.py:28-30).  [coerce] is pydantic's validation of the field [value] for the
   declared type, which may convert the input or raise. *)
Definition make_variable (coerce : vtype -> scalar -> res scalar) (n : string) (t : vtype) (v : scalar) (ch : option (list scalar)) : res variable :=
  rbind (coerce t v) (fun w => let x := mkVar n t w ch in rbind (validate_value x w) (fun _ => Ok x)).

(* {avar.name: avar for avar in algorithm.variables} *)
Definition by_name (vars : list variable) : dict string variable := fold_left (fun d x => dset d (v_name x) x) vars [].
(* validate_variable_values (variables.py:154-170) *)
Fixpoint validate_items (d : dict string variable) (l : list (string * scalar)) : res unit :=
  match l with
  | [] => Ok tt
  | (n, v) :: r => match dget d n with None => Err ValueError | Some x => rbind (validate_value x v) (fun _ => validate_items d r) end
  end.
Definition validate_variable_values (vars : list variable) (values : dict string scalar) : res unit := validate_items (by_name vars) values.
(* resolve_variables (variables.py:173-189) *)
Definition resolve_variables (vars : list variable) (values : dict string scalar) : dict string scalar :=
  fold_left (fun d x => dset d (v_name x) (match dget values (v_name x) with Some v => v | None => v_value x end)) vars [].

(* A Python value stored in an attribute of a pipeline step.
   VObj hv attrs: an object with a __dict__; [hv] tells whether its class has an attribute [value] (an Enum member has).
   Objects are trees: an object graph with a cycle or with sharing is not modelled. *)
Inductive val :=
| VNone
| VScal (s : scalar)
| VRef (name : string)                      (* VariableReference *)
| VList (l : list val)
| VDict (l : list (string * val))
| VObj (hv : bool) (attrs : list (string * val)).
(* hasattr(x, "value") for an object *)
Definition has_value (hv : bool) (attrs : list (string * val)) : bool := hv || dmem attrs "value".

(* resolve_variable_to_object (variables.py:192-212).  Only keys that exist are assigned, so the loop over
   __dict__ is a map over the attributes.  A value without __dict__ given as the object itself raises
   AttributeError. *)
Fixpoint resolve_object (vars : dict string scalar) (o : val) {struct o} : res val :=
  match o with
  | VObj hv attrs =>
      rbind ((fix go (l : list (string * val)) : res (list (string * val)) :=
        match l with
        | [] => Ok []
        | (k, x) :: r =>
            rbind (match x with
                   | VRef n => match dget vars n with Some s => Ok (VScal s) | None => Err ValueError end
                   | VObj h a => if has_value h a then Ok x else resolve_object vars x
                   | _ => Ok x
                   end) (fun y => rbind (go r) (fun t => Ok ((k, y) :: t)))
        end) attrs) (fun a => Ok (VObj hv a))
  | VRef _ => Ok o
  | _ => Err AttributeError
  end.
(* resolve_variables_to_algorithm_for_pipeline_steps (variables.py:215-232), for one step.  resolve_object does
   not change an attribute that holds a list.  An attribute pipeline_steps that is no list is outside the model
   and raises TypeError here. *)
Fixpoint resolve_step (vars : dict string scalar) (o : val) {struct o} : res val :=
  rbind (resolve_object vars o) (fun o1 =>
  match o, o1 with
  | VObj _ attrs0, VObj hv attrs1 =>
      match (fix subs (l : list (string * val)) : option (res (list val)) :=
               match l with
               | [] => None
               | (k, x) :: r => if eqb k "pipeline_steps" then
                                  Some (match x with
                                        | VList ss => (fix all (ss : list val) : res (list val) :=
                                            match ss with [] => Ok [] | s :: t => rbind (resolve_step vars s) (fun s' => rbind (all t) (fun t' => Ok (s' :: t'))) end) ss
                                        | _ => Err TypeError
                                        end)
                                else subs r
               end) attrs0 with
      | None => Ok o1
      | Some r => rbind r (fun l => Ok (VObj hv (dset attrs1 "pipeline_steps" (VList l))))
      end
  | _, _ => Ok o1
  end).
Fixpoint resolve_steps (vars : dict string scalar) (steps : list val) : res (list val) :=
  match steps with [] => Ok [] | s :: t => rbind (resolve_step vars s) (fun s' => rbind (resolve_steps vars t) (fun t' => Ok (s' :: t'))) end.

(* Algorithm (models.py:77-87): only the steps and the variables *)
Record algorithm := mkAlgo { a_steps : list val; a_variables : option (list variable) }.
(* graph_model_factory (graph_model.py:535-548): the pipeline steps of the new model.  The algorithm that the
   caller passed is changed in place, see Workspace.v.  Edge types, extensions and hooks are not modelled. *)
Definition factory_variables (a : algorithm) (values : option (dict string scalar)) : dict string scalar :=
  match values with
  | Some d => d
  | None => match a_variables a with Some vs => resolve_variables vs [] | None => [] end
  end.
Definition graph_model_factory (a : algorithm) (values : option (dict string scalar)) : res algorithm :=
  let vars := factory_variables a values in
  match vars with
  | [] => Ok a
  | _ => rbind (resolve_steps vars (a_steps a)) (fun l => Ok (mkAlgo l (a_variables a)))
  end.

(* deserialize_variable (variables.py:235-246): the type named in the dictionary *)
Definition type_named (s : string) : option vtype :=
  if eqb s "string" then Some TyString else if eqb s "integer" then Some TyInteger else if eqb s "float" then Some TyFloat
  else if eqb s "bool" then Some TyBool else None.
Definition type_name (t : vtype) : string := match t with TyString => "string" | TyInteger => "integer" | TyFloat => "float" | TyBool => "bool" end.
Definition deserialize_variable (coerce : vtype -> scalar -> res scalar) (ty : option string) (n : string) (v : scalar) (ch : option (list scalar)) : res variable :=
  match ty with
  | None => Err ValueError
  | Some s => match type_named s with None => Err ValueError | Some t => make_variable coerce n t v ch end
  end.

(* deserialize_variable_references (variables.py:249-268): dictionaries {"type": "reference", "name": n} that are
   attributes become references; then the method descends into every object, and into the elements of
   pipeline_steps.  setattr is taken to store the value as given.  Trees with members of an Enum are not modelled
   here: descending into one raises (deser_pv in Config.v). *)
Definition as_reference (x : val) : option string :=
  match x with
  | VDict l => match dget l "type", dget l "name" with Some (VScal (SStr t)), Some (VScal (SStr n)) => if eqb t "reference" then Some n else None | _, _ => None end
  | _ => None
  end.
Fixpoint deserialize_references (o : val) {struct o} : val :=
  match o with
  | VObj hv attrs =>
      VObj hv ((fix go (l : list (string * val)) : list (string * val) :=
        match l with
        | [] => []
        | (k, x) :: r =>
            (k, match as_reference x with
                | Some n => VRef n
                | None =>
                    match x with
                    | VObj _ _ => deserialize_references x
                    | VList ss => if eqb k "pipeline_steps" then
                                    VList ((fix all (ss : list val) : list val := match ss with [] => [] | s :: t => deserialize_references s :: all t end) ss)
                                  else x
                    | _ => x
                    end
                end) :: go r
        end) attrs)
  | _ => o
  end.
