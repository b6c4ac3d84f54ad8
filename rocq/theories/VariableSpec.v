(* Specification vocabulary for variables and references. *)
From Coq Require Import QArith.
From Verif Require Import Base PyDict Variables.
Close Scope Q_scope.
Open Scope string_scope.
Open Scope list_scope.

(* the value has exactly the declared type: True is not an integer, 1 is not a float *)
Inductive of_type : vtype -> scalar -> Prop :=
| ot_str : forall s, of_type TyString (SStr s)
| ot_int : forall z, of_type TyInteger (SInt z)
| ot_float : forall f, of_type TyFloat (SFloat f)
| ot_bool : forall b, of_type TyBool (SBool b).

(* two values are equal for Python: equal strings, or equal numbers whatever their types *)
Inductive numeric : scalar -> fl -> Prop :=
| nu_int : forall z, numeric (SInt z) (FNum (z # 1))
| nu_float : forall f, numeric (SFloat f) f
| nu_true : numeric (SBool true) (FNum 1)
| nu_false : numeric (SBool false) (FNum 0).
Inductive same_value : scalar -> scalar -> Prop :=
| sv_str : forall s, same_value (SStr s) (SStr s)
| sv_num : forall a b p q, numeric a (FNum p) -> numeric b (FNum q) -> Qeq p q -> same_value a b
| sv_inf : forall s, same_value (SFloat (FInf s)) (SFloat (FInf s)).
(* no restriction when there are no choices *)
Definition allowed (ch : option (list scalar)) (v : scalar) : Prop :=
  match ch with None => True | Some cs => cs = [] \/ exists c, In c cs /\ same_value v c end.
Definition accepts (x : variable) (v : scalar) : Prop := of_type (v_type x) v /\ allowed (v_choices x) v.

(* x is the last variable of the list with this name *)
Definition declared (vars : list variable) (n : string) (x : variable) : Prop :=
  exists p q, vars = p ++ x :: q /\ v_name x = n /\ forall y, In y q -> v_name y <> n.

(* an attribute of the object, or of an object in an attribute and so on, is a reference to n; objects with an
   attribute called value, lists and dictionaries are not entered *)
Inductive refers : val -> string -> Prop :=
| rf_here : forall hv attrs k n, In (k, VRef n) attrs -> refers (VObj hv attrs) n
| rf_deep : forall hv attrs k h a n, In (k, VObj h a) attrs -> has_value h a = false -> refers (VObj h a) n -> refers (VObj hv attrs) n.
(* the same, also in the steps of sub-pipelines *)
Inductive step_refers : val -> string -> Prop :=
| sr_own : forall o n, refers o n -> step_refers o n
| sr_sub : forall hv attrs ss s n, dget attrs "pipeline_steps" = Some (VList ss) -> In s ss -> step_refers s n -> step_refers (VObj hv attrs) n.
(* a reference to n anywhere inside the value *)
Inductive mentions : val -> string -> Prop :=
| me_ref : forall n, mentions (VRef n) n
| me_list : forall l x n, In x l -> mentions x n -> mentions (VList l) n
| me_dict : forall l k x n, In (k, x) l -> mentions x n -> mentions (VDict l) n
| me_obj : forall hv attrs k x n, In (k, x) attrs -> mentions x n -> mentions (VObj hv attrs) n.

(* steps are objects; pipeline_steps, if present, is a list of steps *)
Inductive step_like : val -> Prop :=
| sl : forall hv attrs, (forall x, dget attrs "pipeline_steps" = Some x -> exists ss, x = VList ss /\ forall s, In s ss -> step_like s) -> step_like (VObj hv attrs).

(* the sub-step with the given indices, outermost first *)
Fixpoint sub_at (l : list val) (is : list nat) : option val :=
  match is with
  | [] => None
  | i :: r => match nth_error l i with
              | None => None
              | Some s => match r with
                          | [] => Some s
                          | _ => match s with
                                 | VObj _ attrs => match dget attrs "pipeline_steps" with Some (VList ss) => sub_at ss r | _ => None end
                                 | _ => None
                                 end
                          end
              end
  end.
(* follow attributes through objects without an attribute called value *)
Fixpoint attr_at (o : val) (p : list string) : option val :=
  match p with
  | [] => Some o
  | k :: r => match o with
              | VObj _ attrs => match dget attrs k with
                                | Some x => match r, x with
                                            | [], _ => Some x
                                            | _, VObj h a => if has_value h a then None else attr_at x r
                                            | _, _ => None
                                            end
                                | None => None
                                end
              | _ => None
              end
  end.
(* what may become of the value found at a place *)
Definition resolved_to (vars : dict string scalar) (x x' : val) : Prop :=
  match x with
  | VRef n => exists s, dget vars n = Some s /\ x' = VScal s
  | VObj h a => if has_value h a then x' = x else exists a', x' = VObj h a' /\ dkeys a' = dkeys a
  | _ => x' = x
  end.

(* what model_dump makes of the references in a step: a dictionary with the name and the computed field type *)
Fixpoint dumped (o : val) {struct o} : val :=
  match o with
  | VObj hv attrs => VObj hv ((fix go (l : list (string * val)) : list (string * val) :=
      match l with
      | [] => []
      | (k, x) :: r => (k, match x with
                           | VRef n => VDict [("name", VScal (SStr n)); ("type", VScal (SStr "reference"))]
                           | VObj _ _ => dumped x
                           | VList ss => if eqb k "pipeline_steps" then VList ((fix all (ss : list val) : list val := match ss with [] => [] | s :: t => dumped s :: all t end) ss) else x
                           | _ => x
                           end) :: go r
      end) attrs)
  | _ => o
  end.
(* no attribute of an object or sub-step is a dictionary that looks like a dumped reference *)
Inductive unambiguous : val -> Prop :=
| un_other : forall o, (forall hv a, o <> VObj hv a) -> unambiguous o
| un_obj : forall hv attrs, (forall k l, In (k, VDict l) attrs -> forall n, ~ (dget l "type" = Some (VScal (SStr "reference")) /\ dget l "name" = Some (VScal (SStr n)))) ->
    (forall k h a, In (k, VObj h a) attrs -> unambiguous (VObj h a)) -> (forall ss s, In ("pipeline_steps", VList ss) attrs -> In s ss -> unambiguous s) -> unambiguous (VObj hv attrs).

(* the names of the four types in a stored variable *)
Inductive named : string -> vtype -> Prop :=
| nm_string : named "string" TyString | nm_integer : named "integer" TyInteger | nm_float : named "float" TyFloat | nm_bool : named "bool" TyBool.
