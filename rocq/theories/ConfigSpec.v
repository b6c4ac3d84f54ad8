(* Specification vocabulary for pipeline configurations. *)
From Coq Require Import QArith.
From Verif Require Import Base PyDict PyStr Json Variables VariableSpec Config.
Close Scope Q_scope.
Open Scope string_scope.
Open Scope list_scope.

(* a plain value or a reference to a variable *)
Definition plain_value (p : pv) : Prop := match p with PEnum _ | PRaw _ => False | _ => True end.
(* the values that the constructors take into account *)
Definition used (p : pv) : Prop :=
  match p with
  | PNone => False | PBool b => b = true | PInt z => z <> 0%Z | PFloat (FNum q) => ~ (q == 0)%Q | PFloat _ => True
  | PStr s | PEnum s => s <> "" | PRef _ => True | PRaw j => j <> JDict [] /\ j <> JList []
  end.
Definition int_value (p : pv) : Prop := match p with PInt _ | PRef _ => True | _ => False end.
Definition is_enum (p : pv) : bool := match p with PEnum _ => true | _ => false end.
Definition field_names : list string :=
  ["generator"; "threshold"; "chunk_size_parallel_processing"; "parallel"; "display_name"; "needs_unapplied_actions"; "apply_synchronous"; "name"].

Section Built.
Variable lookup : string -> option class.
Definition built_settings (c : settings) : Prop := (exists a b, lookup (se_class c) = Some (CSettings a b)) /\ int_value (se_min c) /\ int_value (se_max c).
(* generators that were made by calls of the constructors with plain values *)
Inductive built_gen : gen -> Prop :=
| bg_init : forall cls cs ch ev sh cz inner g, (forall c, cs = Some c -> built_settings c) -> plain_value ch -> plain_value ev -> plain_value sh -> (forall c, cz = Some c -> plain_value c) ->
    (inner = NoGen \/ exists g', inner = ObjGen g' /\ built_gen g') -> init_gen lookup cls cs ch ev sh cz inner = Ok g -> built_gen g.
Inductive built_item : item -> Prop :=
| bi_step : forall cls a s, (forall g, a_gen a = Some g -> built_gen g) -> plain_value (a_threshold a) -> plain_value (a_chunk a) -> plain_value (a_parallel a) -> plain_value (a_display a) -> plain_value (a_sync a) ->
    (forall k v, In (k, v) (a_kwargs a) -> plain_value v) -> init_step lookup cls a = Ok s -> built_item (IStep s)
| bi_logic : forall cls steps exit display i, (forall x, In x steps -> built_item x) -> (forall c, exit = Some c -> lookup c = Some CExit) -> plain_value display ->
    init_logic lookup cls steps exit display = Ok i -> built_item i.
(* the classes: defaults are plain values, made by the constructors; only extra attributes that cannot be set may be
   members of an Enum *)
Definition good_class (c : class) : Prop :=
  match c with
  | CGen k dc de ds => plain_value dc /\ plain_value de /\ plain_value ds /\ match k with GEdges d => plain_value d | _ => True end
  | CStep d settable => (forall g, s_gen d = Some g -> built_gen g) /\ plain_value (s_threshold d) /\ plain_value (s_chunk d) /\ plain_value (s_parallel d) /\ plain_value (s_display d) /\
      plain_value (s_needs d) /\ plain_value (s_sync d) /\ NoDup (map fst (s_extra d)) /\
      forall k v, In (k, v) (s_extra d) -> ~ In k field_names /\ (plain_value v \/ settable = false /\ is_enum v = true)
  | _ => True
  end.
Definition good_classes : Prop := forall n c, lookup n = Some c -> good_class c.

(* does a step hold a member of an Enum? *)
Definition step_enum (s : step) : bool := existsb (fun p => is_enum (snd p)) (s_extra s).
Fixpoint item_enum (i : item) : bool := match i with IStep s => step_enum s | ILogic _ steps _ _ => existsb item_enum steps end.
(* what comes back of a generator: the chunk size is the one of the class, and a generator inside one that is no
   RandomSampleGenerator comes back as a dictionary *)
Definition samples (cls : string) : bool := match lookup cls with Some (CGen GSample _ _ _) => true | _ => false end.
Definition class_chunk (cls : string) : option pv := match lookup cls with Some (CGen (GEdges d) _ _ _) => Some d | _ => None end.
Fixpoint reloaded_gen (g : gen) : gen :=
  match g with
  | Gen cls cs ch ev sh cz inner =>
      Gen cls cs ch ev sh (class_chunk cls) (match inner with ObjGen g' => if samples cls then ObjGen (reloaded_gen g') else RawGen (dump_gen g') | _ => inner end)
  end.
Definition reloaded_step (s : step) : step :=
  mkStep (s_class s) (option_map reloaded_gen (s_gen s)) (s_threshold s) (s_chunk s) (s_parallel s) (s_display s) (s_needs s) (s_sync s) (s_extra s).
Fixpoint reloaded (i : item) : item := match i with IStep s => IStep (reloaded_step s) | ILogic c steps e d => ILogic c (map reloaded steps) e d end.
(* generators that come back as they are *)
Inductive portable_gen : gen -> Prop :=
| pg_gen : forall cls cs ch ev sh inner, (inner = NoGen \/ samples cls = true /\ exists g, inner = ObjGen g /\ portable_gen g) -> portable_gen (Gen cls cs ch ev sh (class_chunk cls) inner).
Inductive portable : item -> Prop :=
| po_step : forall s, (forall g, s_gen s = Some g -> portable_gen g) -> step_enum s = false -> portable (IStep s)
| po_logic : forall c steps e d, (forall x, In x steps -> portable x) -> portable (ILogic c steps e d).
End Built.

(* a variable that its own class accepts as it is *)
Definition valid_variable (coerce : vtype -> scalar -> res scalar) (v : variable) : Prop := coerce (v_type v) (v_value v) = Ok (v_value v) /\ accepts v (v_value v).

(* How the value of an attribute appears in a file: a member of an Enum as its text, a reference to a variable as a
   dictionary that says so, everything else as itself. *)
Inductive appears : pv -> jv -> Prop :=
| ap_none : appears PNone JNull
| ap_bool b : appears (PBool b) (JBool b)
| ap_int z : appears (PInt z) (JInt z)
| ap_float f : appears (PFloat f) (JFloat f)
| ap_str s : appears (PStr s) (JStr s)
| ap_enum s : appears (PEnum s) (JStr s)
| ap_raw j : appears (PRaw j) j
| ap_ref n l : dget l "type" = Some (JStr "reference") -> dget l "name" = Some (JStr n) -> List.length l = 2 -> appears (PRef n) (JDict l).
(* the attributes of a step, by the names they have in a file *)
Definition attributes (s : step) : list (string * pv) :=
  [("threshold", s_threshold s); ("chunk_size_parallel_processing", s_chunk s); ("parallel", s_parallel s); ("display_name", s_display s); ("needs_unapplied_actions", s_needs s); ("apply_synchronous", s_sync s)] ++ s_extra s.
Definition generator_keys : list string := ["name"; "comparison_settings"; "chunked"; "every_nth"; "generator"; "shuffle_combinations"; "chunk_size"].
Definition logic_keys : list string := ["name"; "pipeline_steps"; "exit_condition"; "display_name"].
