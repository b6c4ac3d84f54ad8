(* Specification vocabulary for JSON texts. *)
From Coq Require Import Ascii.
From Verif Require Import Base PyStr JsonText.
Open Scope string_scope.
Open Scope list_scope.
Open Scope Z_scope.

(* a code point *)
Definition code_point (c : Z) : Prop := 0 <= c < 1114112.
Definition high_surrogate (c : Z) : Prop := 55296 <= c < 56320.
Definition low_surrogate (c : Z) : Prop := 56320 <= c < 57344.
(* a string of code points without a high surrogate directly before a low one (no text decoded from a file or typed
   by a user has one) *)
Definition sound_string (s : ustr) : Prop := (forall c, In c s -> code_point c) /\ forall p q a b, s = p ++ a :: b :: q -> ~ (high_surrogate a /\ low_surrogate b).

Section Spec.
Context {F : Type}.
Variable float_text : F -> ustr.
Variable read_float : ustr -> F.
Definition digit (c : Z) : Prop := 48 <= c <= 57.
(* what repr writes for a finite float: a decimal number with a fraction or an exponent *)
Definition float_lexeme (t : ustr) : Prop := exists sg ip fr ex, t = sg ++ ip ++ fr ++ ex /\
  (sg = [] \/ sg = [45]) /\
  (ip = [48] \/ exists d ds, ip = d :: ds /\ 49 <= d <= 57 /\ Forall digit ds) /\
  (fr = [] \/ exists d ds, fr = 46 :: d :: ds /\ Forall digit (d :: ds)) /\
  (ex = [] \/ exists e s d ds, ex = e :: s ++ d :: ds /\ (e = 101 \/ e = 69) /\ (s = [] \/ s = [43] \/ s = [45]) /\ Forall digit (d :: ds)) /\
  fr ++ ex <> [].
(* the float is written as such a number or as one of the three constants, and float() reads it back *)
Definition float_ok (f : F) : Prop := (float_lexeme (float_text f) \/ In (float_text f) [lit "NaN"; lit "Infinity"; lit "-Infinity"]) /\ read_float (float_text f) = f.
(* values whose strings are sound, whose floats are read back and whose dictionaries have every key once *)
Inductive sound : jval F -> Prop :=
| so_null : sound (JNull)
| so_bool : forall b, sound (JBool b)
| so_int : forall z, sound (JInt z)
| so_float : forall f, float_ok f -> sound (JFloat f)
| so_str : forall s, sound_string s -> sound (JStr s)
| so_list : forall l, Forall sound l -> sound (JList l)
| so_dict : forall l, NoDup (map fst l) -> Forall (fun p => sound_string (fst p)) l -> Forall (fun p => sound (snd p)) l -> sound (JDict l).
End Spec.
(* what remains of a value after encoding: tensors are gone, datetimes are strings *)
Inductive written {F} : pval F -> jval F -> Prop :=
| w_null : written PNull JNull
| w_bool : forall b, written (PBool b) (JBool b)
| w_int : forall z, written (PInt z) (JInt z)
| w_float : forall f, written (PFloat f) (JFloat f)
| w_str : forall s, written (PStr s) (JStr s)
| w_list : forall l m, Forall2 written l m -> written (PList l) (JList m)
| w_dict : forall l m, Forall2 (fun p q => fst p = fst q /\ written (snd p) (snd q)) l m -> written (PDict l) (JDict m)
| w_tensor : written PTensor JNull
| w_date : forall s, written (PDate s) (JStr s).

(* somewhere inside the value is an object the encoder does not know *)
Inductive has_object {F} : pval F -> Prop :=
| ho_here : has_object PObject
| ho_list : forall l x, In x l -> has_object x -> has_object (PList l)
| ho_dict : forall l k x, In (k, x) l -> has_object x -> has_object (PDict l).
(* a text that carries its own end: of a string, a list or a dictionary *)
Inductive delimited {F} : jval F -> Prop :=
| de_str : forall s, delimited (JStr s)
| de_list : forall l, delimited (JList l)
| de_dict : forall l, delimited (JDict l).
