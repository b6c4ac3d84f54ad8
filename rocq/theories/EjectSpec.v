(* Specification vocabulary for the command eject: C114. *)
From Verif Require Import Base PyDict Json Variables VariableSpec Config.
Open Scope string_scope.
Open Scope list_scope.

(* the names that the attributes of a step refer to *)
Definition names_in (p : pv) : list string := match p with PRef n => [n] | _ => [] end.
Fixpoint gen_names (g : gen) : list string :=
  match g with
  | Gen _ cs ch ev sh sz i =>
      match cs with Some c => names_in (se_min c) ++ names_in (se_max c) | None => [] end ++ names_in ch ++ names_in ev ++ names_in sh ++
      match sz with Some p => names_in p | None => [] end ++ match i with ObjGen h => gen_names h | _ => [] end
  end.
Definition step_names (s : step) : list string :=
  match s_gen s with Some g => gen_names g | None => [] end ++ names_in (s_threshold s) ++ names_in (s_chunk s) ++ names_in (s_parallel s) ++ names_in (s_display s) ++
  names_in (s_needs s) ++ names_in (s_sync s) ++ flat_map (fun p => names_in (snd p)) (s_extra s).
Fixpoint item_names (i : item) : list string :=
  match i with IStep s => step_names s | ILogic _ l _ d => names_in d ++ flat_map item_names l end.
(* the names that an algorithm refers to *)
Definition references (a : spec) : list string := flat_map item_names (sp_steps a).

(* v is the text form u with some references replaced by the values of the variables they name, and nothing else *)
Inductive replaced (vars : list variable) : jv -> jv -> Prop :=
| rp_same j : replaced vars j j
| rp_value n x : declared vars n x -> replaced vars (JDict [("name", JStr n); ("type", JStr "reference")]) (scalar_json (v_value x))
| rp_list l m : Forall2 (replaced vars) l m -> replaced vars (JList l) (JList m)
| rp_dict l m : Forall2 (fun p q => fst p = fst q /\ replaced vars (snd p) (snd q)) l m -> replaced vars (JDict l) (JDict m).
