(* Specification vocabulary for data files. *)
From Coq Require Import Ascii.
From Verif Require Import Base JsonText JsonTextSpec JsonGrammarSpec ConstructSpec DataFile.
Open Scope string_scope.
Open Scope list_scope.
Open Scope Z_scope.

(* a table whose columns have names of code points *)
Definition named_table := list (ustr * list Z).
Definition is_named_table (T : named_table) (n : nat) : Prop :=
  NoDup (map fst T) /\ (forall k vs, In (k, vs) T -> List.length vs = n) /\ (forall k, In k (map fst T) -> Forall code_point k) /\ ~ In (lit "_dict") (map fst T).
(* the same table with the names in UTF-8, as the graph model has them *)
Definition encoded (T : named_table) : table := map (fun p => (utf8 (fst p), snd p)) T.

Section Spec.
Variable of_int : Z -> option Z.
(* a JSON number or truth value for the float64 x *)
Inductive number : jval Z -> Z -> Prop :=
| nu_float : forall x, number (JFloat x) x
| nu_int : forall z x, of_int z = Some x -> number (JInt z) x
| nu_bool : forall b x, of_int (if b : bool then 1 else 0) = Some x -> number (JBool b) x.
(* a JSON object for row i of the table, keys in any order *)
Definition row_spells (T : named_table) (i : nat) (r : list (ustr * jval Z)) : Prop :=
  Permutation (map fst r) (map fst T) /\ forall k vs, In (k, vs) T -> exists v x, In (k, v) r /\ nth_error vs i = Some x /\ number v x.
Definition rows_spell (T : named_table) (n : nat) (rows : list (list (ustr * jval Z))) : Prop :=
  List.length rows = n /\ forall i r, nth_error rows i = Some r -> row_spells T i r.
(* a JSON object for the columns of the table *)
Definition columns_spell (T : named_table) (d : list (ustr * jval Z)) : Prop :=
  Permutation (map fst d) (map fst T) /\ forall k vs, In (k, vs) T -> exists l, In (k, JList l) d /\ Forall2 number l vs.
End Spec.
(* a text of lines, one JSON object each; the last line end may be missing *)
Definition jsonl_text (read_float : ustr -> Z) (t : ustr) (rows : list (list (ustr * jval Z))) : Prop :=
  exists us, Forall2 (fun u r => ~ In 10 u /\ json_text read_float u (JDict r)) us rows /\
    (t = List.concat (map (fun u => u ++ [10]) us) \/ t ++ [10] = List.concat (map (fun u => u ++ [10]) us)).
