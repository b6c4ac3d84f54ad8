(* Model of hash_dictionary (causy/graph_utils.py:55-69): the text that json.dumps writes with ensure_ascii=False,
   sort_keys=True and separators=(",", ":").  The hash function itself (SHA256) is an argument where it is used.
   Strings are byte strings (UTF-8), for which the order of bytes is the order of code points. *)
From Coq Require Import Ascii.
From Verif Require Import Base PyDict PyStr.
Open Scope string_scope.
Open Scope list_scope.

(* json.encoder.py_encode_basestring: the two escaped characters, control characters, everything else as it is *)
Definition hexdigit (n : nat) : ascii := nth n (list_ascii_of_string "0123456789abcdef") "0"%char.
Definition escape (a : ascii) : string :=
  let n := nat_of_ascii a in
  if Nat.eqb n 34 then String "\"%char (String a "")
  else if Nat.eqb n 92 then String a (String a "")
  else if Nat.eqb n 10 then "\n" else if Nat.eqb n 13 then "\r" else if Nat.eqb n 9 then "\t" else if Nat.eqb n 12 then "\f" else if Nat.eqb n 8 then "\b"
  else if Nat.ltb n 32 then ("\u00" ++ String (hexdigit (Nat.div n 16)) (String (hexdigit (Nat.modulo n 16)) ""))%string
  else String a "".
Fixpoint escapes (s : string) : string := match s with EmptyString => "" | String a r => (escape a ++ escapes r)%string end.
Definition quote : string := String (ascii_of_nat 34) "".
Definition quoted (s : string) : string := (quote ++ escapes s ++ quote)%string.

(* comparison of two strings, s <= t *)
Fixpoint str_le (s t : string) : bool :=
  match s, t with
  | EmptyString, _ => true
  | String _ _, EmptyString => false
  | String a r, String b u => if Ascii.eqb a b then str_le r u else Nat.ltb (nat_of_ascii a) (nat_of_ascii b)
  end.
(* sorted(dct.items()): keys are unique, so only they are compared *)
Fixpoint insert_key {V} (p : string * V) (l : list (string * V)) : list (string * V) :=
  match l with [] => [p] | q :: r => if str_le (fst p) (fst q) then p :: l else q :: insert_key p r end.
Definition sort_keys {V} (l : list (string * V)) : list (string * V) := fold_right insert_key [] l.

Section Json.
Context {F : Type}.
Variable float_text : F -> string.      (* float.__repr__, or NaN, Infinity and -Infinity *)
(* what json.dumps can encode, with dictionaries whose keys are strings *)
Inductive json := JNull | JBool (b : bool) | JInt (z : Z) | JFloat (f : F) | JStr (s : string) | JList (l : list json) | JDict (l : list (string * json)).

(* json.encoder: encoding of a value *)
Fixpoint text (j : json) {struct j} : string :=
  match j with
  | JNull => "null"
  | JBool true => "true"
  | JBool false => "false"
  | JInt z => str_Z z
  | JFloat f => float_text f
  | JStr s => quoted s
  | JList l => ("[" ++ join "," (map text l) ++ "]")%string
  | JDict l => ("{" ++ join "," (map (fun p => quoted (fst p) ++ ":" ++ snd p)%string
                                     (sort_keys (map (fun p => match p with (k, v) => (k, text v) end) l))) ++ "}")%string
  end.
End Json.
Arguments json F : clear implicits.
Arguments text {F} _ _.
(* hash_dictionary; [digest] is the SHA256 of a text, in hexadecimal *)
Definition hash_dictionary {F} (float_text : F -> string) (digest : string -> string) (j : json F) : string := digest (text float_text j).
