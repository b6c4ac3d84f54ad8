(* Model of json.dumps(value, cls=CausyJSONEncoder, indent=4) as used at workspaces/cli.py:370 and cli.py:102, of
   CausyJSONEncoder (serialization.py:89-95) and of json.load (workspaces/cli.py:328, 346, data_loader.py), that is of
   json.encoder and json.decoder of the Python standard library with their default settings (ensure_ascii, strict,
   allow_nan).  A string is the list of its code points.  Writing and reading a float is an argument.  Not modelled:
   RecursionError for deep nesting and the limit on the number of digits of an integer. *)
From Coq Require Import Ascii.
From Verif Require Import Base PyDict PyStr.
Open Scope string_scope.
Open Scope list_scope.
Open Scope Z_scope.

Definition ustr := list Z.
(* a literal, one code point per character *)
Definition lit (s : string) : ustr := map (fun a => Z.of_nat (nat_of_ascii a)) (list_ascii_of_string s).
Definition unlit (s : ustr) : string := string_of_list_ascii (map (fun z => ascii_of_nat (Z.to_nat z)) s).

(* equality of strings, for dictionary keys *)
Fixpoint ustr_eqb (a b : ustr) : bool := match a, b with [], [] => true | x :: r, y :: t => Z.eqb x y && ustr_eqb r t | _, _ => false end.
Lemma ustr_eqb_spec : forall a b, reflect (a = b) (ustr_eqb a b).
Proof.
  induction a as [|x r IH]; intros [|y t]; cbn; try (constructor; congruence). destruct (Z.eqb_spec x y) as [->|N]; cbn; [|constructor; congruence].
  destruct (IH t); constructor; congruence.
Qed.
#[global] Instance EqB_ustr : EqB ustr := { eqb := ustr_eqb; eqb_spec := ustr_eqb_spec }.

Section Text.
Context {F : Type}.
Variable float_text : F -> ustr.       (* float.__repr__, or NaN, Infinity and -Infinity *)
Variable read_float : ustr -> F.       (* float(text), and the constants NaN, Infinity and -Infinity *)

(* the values json.loads returns *)
Inductive jval := JNull | JBool (b : bool) | JInt (z : Z) | JFloat (f : F) | JStr (s : ustr) | JList (l : list jval) | JDict (l : list (ustr * jval)).
(* the values given to json.dumps: the same, tensors, datetimes (with their isoformat) and other objects; keys of
   dictionaries are strings *)
Inductive pval := PNull | PBool (b : bool) | PInt (z : Z) | PFloat (f : F) | PStr (s : ustr) | PList (l : list pval) | PDict (l : list (ustr * pval))
| PTensor | PDate (iso : ustr) | PObject.

(* ---- writing ---- *)
(* all elements, or the first error *)
Section All.
Context {A B : Type}.
Variable f : A -> res B.
Fixpoint all_of (l : list A) : res (list B) := match l with [] => Ok [] | x :: r => rbind (f x) (fun y => rbind (all_of r) (fun t => Ok (y :: t))) end.
End All.
(* CausyJSONEncoder.default (serialization.py:89-95) inside the traversal: a tensor becomes null, a datetime its
   isoformat, any other object raises TypeError *)
Fixpoint plain (v : pval) : res jval :=
  match v with
  | PNull => Ok JNull
  | PBool b => Ok (JBool b)
  | PInt z => Ok (JInt z)
  | PFloat f => Ok (JFloat f)
  | PStr s => Ok (JStr s)
  | PList l => rbind (all_of plain l) (fun t => Ok (JList t))
  | PDict l => rbind (all_of (fun p => match p with (k, x) => rbind (plain x) (fun y => Ok (k, y)) end) l) (fun t => Ok (JDict t))
  | PTensor => Ok JNull
  | PDate s => Ok (JStr s)
  | PObject => Err TypeError
  end.

(* json.encoder.py_encode_basestring_ascii *)
Definition hex1 (n : Z) : Z := if n <? 10 then 48 + n else 87 + n.
Definition hex4 (n : Z) : ustr := [hex1 (n / 4096 mod 16); hex1 (n / 256 mod 16); hex1 (n / 16 mod 16); hex1 (n mod 16)].
Definition esc_u (n : Z) : ustr := 92 :: 117 :: hex4 n.
Definition escape (c : Z) : ustr :=
  if c =? 34 then [92; 34] else if c =? 92 then [92; 92]
  else if c =? 10 then [92; 110] else if c =? 13 then [92; 114] else if c =? 9 then [92; 116] else if c =? 12 then [92; 102] else if c =? 8 then [92; 98]
  else if (32 <=? c) && (c <=? 126) then [c]
  else if c <? 65536 then esc_u c
  else esc_u (55296 + (c - 65536) / 1024) ++ esc_u (56320 + (c - 65536) mod 1024).
Definition quoted (s : ustr) : ustr := 34 :: flat_map escape s ++ [34].
(* the newline and indentation of a level *)
Definition newline (lvl : nat) : ustr := 10 :: repeat 32 (4 * lvl).
(* the parts with the separator between them *)
Fixpoint sep_by (sep : ustr) (l : list ustr) : ustr := match l with [] => [] | [x] => x | x :: r => x ++ sep ++ sep_by sep r end.
(* json.encoder._make_iterencode with indent 4, item separator "," and key separator ": " *)
Fixpoint jtext (lvl : nat) (j : jval) {struct j} : ustr :=
  match j with
  | JNull => lit "null"
  | JBool true => lit "true"
  | JBool false => lit "false"
  | JInt z => lit (str_Z z)
  | JFloat f => float_text f
  | JStr s => quoted s
  | JList [] => lit "[]"
  | JList l => 91 :: newline (S lvl) ++ sep_by (44 :: newline (S lvl)) (map (jtext (S lvl)) l) ++ newline lvl ++ [93]
  | JDict [] => lit "{}"
  | JDict l => 123 :: newline (S lvl) ++ sep_by (44 :: newline (S lvl)) (map (fun p => match p with (k, x) => quoted k ++ [58; 32] ++ jtext (S lvl) x end) l) ++ newline lvl ++ [125]
  end.
Definition dumps (v : pval) : res ustr := rbind (plain v) (fun j => Ok (jtext 0 j)).

(* ---- reading ---- *)
Definition is_ws (c : Z) : bool := (c =? 32) || (c =? 9) || (c =? 10) || (c =? 13).
Fixpoint skip_ws (s : ustr) : ustr := match s with c :: r => if is_ws c then skip_ws r else s | [] => [] end.
Fixpoint strip_prefix (p s : ustr) : option ustr :=
  match p, s with [], _ => Some s | x :: p', y :: s' => if x =? y then strip_prefix p' s' else None | _, [] => None end.
Definition unhex1 (c : Z) : option Z :=
  if (48 <=? c) && (c <=? 57) then Some (c - 48) else if (97 <=? c) && (c <=? 102) then Some (c - 87) else if (65 <=? c) && (c <=? 70) then Some (c - 55) else None.
Definition unhex4 (s : ustr) : option (Z * ustr) :=
  match s with
  | a :: b :: c :: d :: r =>
      match unhex1 a, unhex1 b, unhex1 c, unhex1 d with Some w, Some x, Some y, Some z => Some (4096 * w + 256 * x + 16 * y + z, r) | _, _, _, _ => None end
  | _ => None
  end.
Definition high (c : Z) : bool := (55296 <=? c) && (c <=? 56319).
Definition low (c : Z) : bool := (56320 <=? c) && (c <=? 57343).
(* the second half of a surrogate pair *)
Definition second_half (s : ustr) : option (Z * ustr) :=
  match s with a :: b :: r => if (a =? 92) && (b =? 117) then match unhex4 r with Some (c, t) => if low c then Some (c, t) else None | None => None end else None | _ => None end.
(* one character of a string literal after a backslash (json.decoder.py_scanstring) *)
Definition unescape (s : ustr) : option (Z * ustr) :=
  match s with
  | [] => None
  | c :: r =>
      if c =? 117 then
        match unhex4 r with
        | None => None
        | Some (h, t) => if high h then match second_half t with Some (l, t') => Some (65536 + 1024 * (h - 55296) + (l - 56320), t') | None => Some (h, t) end else Some (h, t)
        end
      else if c =? 34 then Some (34, r) else if c =? 92 then Some (92, r) else if c =? 47 then Some (47, r) else if c =? 98 then Some (8, r)
      else if c =? 102 then Some (12, r) else if c =? 110 then Some (10, r) else if c =? 114 then Some (13, r) else if c =? 116 then Some (9, r) else None
  end.
(* the rest of a string literal after the opening quote; JSONDecodeError is a ValueError *)
Fixpoint scan_string (fuel : nat) (s : ustr) : res (ustr * ustr) :=
  match fuel with
  | O => Err OutOfFuel
  | S f =>
      match s with
      | [] => Err ValueError
      | c :: r =>
          if c =? 34 then Ok ([], r)
          else if c =? 92 then match unescape r with Some (x, t) => rbind (scan_string f t) (fun p => Ok (x :: fst p, snd p)) | None => Err ValueError end
          else if c <=? 31 then Err ValueError
          else rbind (scan_string f r) (fun p => Ok (c :: fst p, snd p))
      end
  end.
Definition is_digit (c : Z) : bool := (48 <=? c) && (c <=? 57).
Fixpoint take_digits (s : ustr) : ustr * ustr := match s with c :: r => if is_digit c then let p := take_digits r in (c :: fst p, snd p) else ([], s) | [] => ([], []) end.
(* the groups of json.scanner.NUMBER_RE: (-?(?:0|[1-9]\d* ))(\.\d+)?([eE][-+]?\d+)? *)
Definition int_part (s : ustr) : option (ustr * ustr) :=
  let go (sign : ustr) (s : ustr) := match s with c :: r => if c =? 48 then Some (sign ++ [48], r) else if is_digit c then let p := take_digits s in Some (sign ++ fst p, snd p) else None | [] => None end in
  match s with c :: r => if c =? 45 then go [45] r else go [] s | [] => None end.
Definition frac_part (s : ustr) : ustr * ustr :=
  match s with c :: r => if c =? 46 then match take_digits r with ([], _) => ([], s) | (d, t) => (46 :: d, t) end else ([], s) | [] => ([], s) end.
Definition exp_part (s : ustr) : ustr * ustr :=
  match s with
  | c :: r =>
      if (c =? 101) || (c =? 69) then
        let '(sg, r') := match r with d :: t => if (d =? 43) || (d =? 45) then ([d], t) else ([], r) | [] => ([], r) end in
        match take_digits r' with ([], _) => ([], s) | (d, t) => (c :: sg ++ d, t) end
      else ([], s)
  | [] => ([], s)
  end.
(* the integer text, the text of fraction and exponent, and the rest *)
Definition match_number (s : ustr) : option (ustr * ustr * ustr) :=
  match int_part s with
  | None => None
  | Some (i, r) => let f := frac_part r in let e := exp_part (snd f) in Some (i, fst f ++ fst e, snd e)
  end.
(* the cases of json.scanner.py_make_scanner for numbers and constants *)
Definition scan_number (s : ustr) : res (jval * ustr) :=
  match match_number s with
  | Some (i, [], r) => match py_int (unlit i) with Some z => Ok (JInt z, r) | None => Err ValueError end
  | Some (i, fe, r) => Ok (JFloat (read_float (i ++ fe)), r)
  | None =>
      match strip_prefix (lit "NaN") s with Some r => Ok (JFloat (read_float (lit "NaN")), r) | None =>
      match strip_prefix (lit "Infinity") s with Some r => Ok (JFloat (read_float (lit "Infinity")), r) | None =>
      match strip_prefix (lit "-Infinity") s with Some r => Ok (JFloat (read_float (lit "-Infinity")), r) | None => Err ValueError end end end
  end.
Definition scan_word (s : ustr) : res (jval * ustr) :=
  match strip_prefix (lit "null") s with Some r => Ok (JNull, r) | None =>
  match strip_prefix (lit "true") s with Some r => Ok (JBool true, r) | None =>
  match strip_prefix (lit "false") s with Some r => Ok (JBool false, r) | None => scan_number s end end end.
(* dict(pairs): the last value of a key counts *)
Definition dict_of (l : list (ustr * jval)) : list (ustr * jval) := fold_left (fun d p => dset d (fst p) (snd p)) l [].
(* scan_once, JSONArray and JSONObject of json.decoder *)
Fixpoint scan (fuel : nat) (s : ustr) {struct fuel} : res (jval * ustr) :=
  match fuel with
  | O => Err OutOfFuel
  | S f =>
      match s with
      | [] => Err ValueError
      | c :: r =>
          if c =? 34 then rbind (scan_string f r) (fun p => Ok (JStr (fst p), snd p))
          else if c =? 91 then
            match skip_ws r with
            | [] => Err ValueError
            | d :: t => if d =? 93 then Ok (JList [], t) else rbind (scan_items f (d :: t)) (fun p => Ok (JList (fst p), snd p))
            end
          else if c =? 123 then
            match skip_ws r with
            | [] => Err ValueError
            | d :: t => if d =? 125 then Ok (JDict [], t) else rbind (scan_members f (d :: t)) (fun p => Ok (JDict (dict_of (fst p)), snd p))
            end
          else scan_word s
      end
  end
with scan_items (fuel : nat) (s : ustr) {struct fuel} : res (list jval * ustr) :=
  match fuel with
  | O => Err OutOfFuel
  | S f =>
      rbind (scan f s) (fun p =>
      match skip_ws (snd p) with
      | [] => Err ValueError
      | d :: t => if d =? 93 then Ok ([fst p], t) else if d =? 44 then rbind (scan_items f (skip_ws t)) (fun q => Ok (fst p :: fst q, snd q)) else Err ValueError
      end)
  end
with scan_members (fuel : nat) (s : ustr) {struct fuel} : res (list (ustr * jval) * ustr) :=
  match fuel with
  | O => Err OutOfFuel
  | S f =>
      match s with
      | [] => Err ValueError
      | c :: r =>
          if negb (c =? 34) then Err ValueError else
          rbind (scan_string f r) (fun k =>
          match skip_ws (snd k) with
          | [] => Err ValueError
          | d :: t =>
              if negb (d =? 58) then Err ValueError else
              rbind (scan f (skip_ws t)) (fun p =>
              match skip_ws (snd p) with
              | [] => Err ValueError
              | e :: u => if e =? 125 then Ok ([(fst k, fst p)], u) else if e =? 44 then rbind (scan_members f (skip_ws u)) (fun q => Ok ((fst k, fst p) :: fst q, snd q)) else Err ValueError
              end)
          end)
      end
  end.
(* json.loads: JSONDecoder.decode.  The fuel is never used up (JsonTextFacts.v). *)
Definition loads (s : ustr) : res jval :=
  rbind (scan (2 * List.length s + 2) (skip_ws s)) (fun p => match skip_ws (snd p) with [] => Ok (fst p) | _ => Err ValueError end).
End Text.
Arguments jval F : clear implicits.
Arguments pval F : clear implicits.
