(* Specification vocabulary for JSON values. *)
From Coq Require Import Ascii.
From Verif Require Import Base PyStr Json.
Open Scope string_scope.
Open Scope list_scope.

Section Spec.
Context {F : Type}.
(* the same value: only the order of the keys of dictionaries may differ *)
Inductive same_json : json F -> json F -> Prop :=
| sj_null : same_json (JNull) (JNull)
| sj_bool : forall b, same_json (JBool b) (JBool b)
| sj_int : forall z, same_json (JInt z) (JInt z)
| sj_float : forall f, same_json (JFloat f) (JFloat f)
| sj_str : forall s, same_json (JStr s) (JStr s)
| sj_list : forall l l', Forall2 same_json l l' -> same_json (JList l) (JList l')
| sj_dict : forall l l' m, Forall2 (fun p q => fst p = fst q /\ same_json (snd p) (snd q)) l m -> Permutation m l' -> same_json (JDict l) (JDict l').
(* which elements of F stand for a float (each float once) *)
Variable ok : F -> Prop.
(* a Python dictionary has every key once *)
Inductive proper : json F -> Prop :=
| pr_float : forall f, ok f -> proper (JFloat f)
| pr_null : proper JNull
| pr_bool : forall b, proper (JBool b)
| pr_int : forall z, proper (JInt z)
| pr_str : forall s, proper (JStr s)
| pr_list : forall l, Forall proper l -> proper (JList l)
| pr_dict : forall l, NoDup (map fst l) -> Forall (fun p => proper (snd p)) l -> proper (JDict l).
(* what the text of a float looks like: it starts with a digit, a minus sign, NaN or Infinity, contains none of the
   characters between values, and is never the text of an integer; different floats have different texts *)
Definition starts_number (a : ascii) : Prop := In a (list_ascii_of_string "0123456789-NI").
Definition float_texts (float_text : F -> string) : Prop :=
  (forall f g, ok f -> ok g -> float_text f = float_text g -> f = g) /\
  (forall f, ok f -> exists a r, float_text f = String a r /\ starts_number a) /\
  (forall f a, ok f -> In a (list_ascii_of_string (float_text f)) -> ~ In a (list_ascii_of_string ",]}")) /\
  (forall f z, ok f -> float_text f <> str_Z z).
End Spec.
