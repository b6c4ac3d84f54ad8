(* Python string functions used by the modelled code. *)
From Coq Require Import Ascii.
From Coq Require DecimalString.
From Verif Require Import Base.
Open Scope string_scope.
Open Scope list_scope.

Definition us : ascii := "_"%char.
Definition dot : ascii := "."%char.
Definition slash : ascii := "/"%char.
(* s.startswith(p) *)
Definition startswith (s p : string) : bool := String.prefix p s.
(* s.endswith(p) *)
Definition rev_string (s : string) : string := string_of_list_ascii (rev (list_ascii_of_string s)).
Definition endswith (s p : string) : bool := String.prefix (rev_string p) (rev_string s).
(* s.split(c) for a separator of one character *)
Fixpoint split (c : Ascii.ascii) (s : string) : list string :=
  match s with
  | EmptyString => [""]
  | String a r => if Ascii.eqb a c then "" :: split c r else match split c r with [] => [String a ""] | x :: t => String a x :: t end
  end.
(* sep.join(l) *)
Definition join (sep : string) (l : list string) : string := String.concat sep l.
(* l[-1] and l[:-1] for a list that is not empty *)
Definition last_seg (l : list string) : string := last l "".
(* the ASCII characters that int() strips *)
Definition is_space (a : Ascii.ascii) : bool := let n := Ascii.nat_of_ascii a in Nat.eqb n 32 || (Nat.leb 9 n && Nat.leb n 13) || (Nat.leb 28 n && Nat.leb n 31).
Fixpoint lstrip (s : string) : string := match s with String a r => if is_space a then lstrip r else s | EmptyString => s end.
Definition strip (s : string) : string := rev_string (lstrip (rev_string (lstrip s))).
(* int(s): None for ValueError.  Only ASCII digits; underscores between digits are not modelled (the callers split
   at underscores). *)
Definition py_int (s : string) : option Z :=
  match strip s with
  | String a r =>
      if Ascii.eqb a "-"%char then option_map (fun u => Z.opp (Z.of_uint u)) (DecimalString.NilZero.uint_of_string r)
      else if Ascii.eqb a "+"%char then option_map Z.of_uint (DecimalString.NilZero.uint_of_string r)
      else option_map Z.of_uint (DecimalString.NilZero.uint_of_string (String a r))
  | EmptyString => None
  end.
(* str(z) *)
Definition str_Z (z : Z) : string :=
  match z with
  | Z0 => "0"
  | Zpos p => DecimalString.NilZero.string_of_uint (Pos.to_uint p)
  | Zneg p => String "-"%char (DecimalString.NilZero.string_of_uint (Pos.to_uint p))
  end.
(* os.path.commonprefix([a, b]): character by character *)
Fixpoint commonprefix (a b : string) : string :=
  match a, b with
  | String x r, String y t => if Ascii.eqb x y then String x (commonprefix r t) else ""
  | _, _ => ""
  end.
(* sub in s *)
Fixpoint contains (sub s : string) : bool := String.prefix sub s || match s with String _ r => contains sub r | EmptyString => false end.
(* An absolute path from its components. *)
Definition abs_path (l : list string) : string := String slash (join "/" l).
(* os.path.realpath(s) when no component is a symbolic link; [cwd] are the components of os.getcwd() *)
Definition path_step (cur : list string) (c : string) : list string :=
  if eqb c "" || eqb c "." then cur else if eqb c ".." then removelast cur else cur ++ [c].
Definition realpath (cwd : list string) (s : string) : string := abs_path (fold_left path_step (split slash s) (if startswith s "/" then [] else cwd)).
