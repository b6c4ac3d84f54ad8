(* Specification: the JSON texts (RFC 8259, with the constants NaN, Infinity and -Infinity) and the values they denote,
   as a grammar without reference to any reader. *)
From Coq Require Import Ascii.
From Verif Require Import Base JsonText JsonTextSpec.
Open Scope string_scope.
Open Scope list_scope.
Open Scope Z_scope.

(* blanks, tabs and line ends *)
Definition space (w : ustr) : Prop := Forall (fun c => In c [32; 9; 10; 13]) w.
(* a hexadecimal digit and its value *)
Definition hex_digit (c v : Z) : Prop := 48 <= c <= 57 /\ v = c - 48 \/ 97 <= c <= 102 /\ v = c - 87 \/ 65 <= c <= 70 /\ v = c - 55.
Definition hex_quad (h : ustr) (n : Z) : Prop := exists a b c d w x y z, h = [a; b; c; d] /\ hex_digit a w /\ hex_digit b x /\ hex_digit c y /\ hex_digit d z /\ n = 4096 * w + 256 * x + 16 * y + z.
(* \uXXXX *)
Definition unicode_escape (t : ustr) (n : Z) : Prop := exists h, t = 92 :: 117 :: h /\ hex_quad h n.
(* the two-character escapes *)
Definition short_escapes : list (Z * Z) := [(34, 34); (92, 92); (47, 47); (98, 8); (102, 12); (110, 10); (114, 13); (116, 9)].
(* what stands between the quotes, and the string it denotes *)
Inductive spelled : ustr -> ustr -> Prop :=
| sp_end : spelled [] []
| sp_plain : forall c t s, 32 <= c -> c <> 34 -> c <> 92 -> spelled t s -> spelled (c :: t) (c :: s)
| sp_short : forall e c t s, In (e, c) short_escapes -> spelled t s -> spelled (92 :: e :: t) (c :: s)
| sp_code : forall h n t s, unicode_escape h n -> (high_surrogate n -> forall l m t', unicode_escape l m -> low_surrogate m -> t <> l ++ t') -> spelled t s -> spelled (h ++ t) (n :: s)
| sp_pair : forall h n l m t s, unicode_escape h n -> unicode_escape l m -> high_surrogate n -> low_surrogate m -> spelled t s ->
    spelled (h ++ l ++ t) (65536 + 1024 * (n - 55296) + (m - 56320) :: s).
(* a decimal integer without leading zeros *)
Definition decimal (ds : ustr) : Z := fold_left (fun a c => 10 * a + (c - 48)) ds 0.
Definition integer (t : ustr) (z : Z) : Prop := exists ip, (ip = [48] \/ exists d ds, ip = d :: ds /\ 49 <= d <= 57 /\ Forall digit ds) /\
  (t = ip /\ z = decimal ip \/ t = 45 :: ip /\ z = - decimal ip).
(* each key once, in the order of first appearance *)
Fixpoint firsts (l : list ustr) : list ustr := match l with [] => [] | x :: r => x :: filter (fun y => negb (eqb x y)) (firsts r) end.
(* the value of a key is the last one given for it *)
Definition last_given {A} (l : list (ustr * A)) (k : ustr) (v : A) : Prop := exists l1 l2, l = l1 ++ (k, v) :: l2 /\ ~ In k (map fst l2).
Definition as_dict {A} (l d : list (ustr * A)) : Prop := map fst d = firsts (map fst l) /\ forall k v, In (k, v) d -> last_given l k v.

Section Grammar.
Context {F : Type}.
Variable read_float : ustr -> F.
Inductive json_value : ustr -> jval F -> Prop :=
| jv_null : json_value (lit "null") JNull
| jv_true : json_value (lit "true") (JBool true)
| jv_false : json_value (lit "false") (JBool false)
| jv_int : forall t z, integer t z -> json_value t (JInt z)
| jv_float : forall t, float_lexeme t -> json_value t (JFloat (read_float t))
| jv_const : forall t, In t [lit "NaN"; lit "Infinity"; lit "-Infinity"] -> json_value t (JFloat (read_float t))
| jv_str : forall t s, spelled t s -> json_value (34 :: t ++ [34]) (JStr s)
| jv_nolist : forall w, space w -> json_value (91 :: w ++ [93]) (JList [])
| jv_list : forall t l, json_items t l -> json_value (91 :: t ++ [93]) (JList l)
| jv_nodict : forall w, space w -> json_value (123 :: w ++ [125]) (JDict [])
| jv_dict : forall t l d, json_members t l -> as_dict l d -> json_value (123 :: t ++ [125]) (JDict d)
with json_items : ustr -> list (jval F) -> Prop :=
| ji_last : forall w t j w', space w -> json_value t j -> space w' -> json_items (w ++ t ++ w') [j]
| ji_more : forall w t j w' u l, space w -> json_value t j -> space w' -> json_items u l -> json_items (w ++ t ++ w' ++ 44 :: u) (j :: l)
with json_members : ustr -> list (ustr * jval F) -> Prop :=
| jm_last : forall w k s w1 w2 t j w', space w -> spelled k s -> space w1 -> space w2 -> json_value t j -> space w' ->
    json_members (w ++ 34 :: k ++ 34 :: w1 ++ 58 :: w2 ++ t ++ w') [(s, j)]
| jm_more : forall w k s w1 w2 t j w' u l, space w -> spelled k s -> space w1 -> space w2 -> json_value t j -> space w' -> json_members u l ->
    json_members (w ++ 34 :: k ++ 34 :: w1 ++ 58 :: w2 ++ t ++ w' ++ 44 :: u) ((s, j) :: l).
(* a whole text *)
Definition json_text (t : ustr) (j : jval F) : Prop := exists w u w', t = w ++ u ++ w' /\ space w /\ json_value u j /\ space w'.
End Grammar.
