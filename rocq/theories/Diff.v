(* Model of the diff command (workspaces/cli.py:748-850) and of the equality of edges it uses (interfaces.py:179-202).
   What is printed is kept as data: the lines of the table with their label, the texts of the cells and whether the
   line is shown as equal (green) or not (red). *)
From Verif Require Import Base PyDict PyStr Variables Workspace JsonText ResultText.
Open Scope string_scope.
Open Scope list_scope.

Section Edges.
Context {V : Type}.
(* BaseModel.__eq__ on loaded nodes: name and id; the values are None in a loaded result (interfaces.py:43-61) *)
Definition node_eqb (a b : rnode) : bool := ustr_eqb (rn_name a) (rn_name b) && ustr_eqb (rn_id a) (rn_id b).
(* EdgeInterface.__eq__ and is_connection_between_same_nodes (interfaces.py:179-202); edge types are compared by their
   names (interfaces.py:155-156) *)
Definition edge_eqb (a b : redge V) : bool :=
  if negb (ustr_eqb (ry_name (re_type a)) (ry_name (re_type b))) then false
  else if ry_directed (re_type a) then node_eqb (re_u a) (re_u b) && node_eqb (re_v a) (re_v b)
  else (node_eqb (re_u a) (re_u b) && node_eqb (re_v a) (re_v b)) || (node_eqb (re_u a) (re_v b) && node_eqb (re_v a) (re_u b)).
(* a < b for strings: by code points *)
Fixpoint ustr_ltb (a b : ustr) : bool :=
  match a, b with _, [] => false | [], _ :: _ => true | x :: r, y :: t => Z.ltb x y || (Z.eqb x y && ustr_ltb r t) end.
(* sorted([u, v]) *)
Definition sorted2 (u v : ustr) : ustr * ustr := if ustr_ltb v u then (v, u) else (u, v).

(* ---- find_equivalents (workspaces/cli.py:790-808) ---- *)
Notation columns := (dict string (redge V)).
Notation table := (dict ustr (dict ustr columns)).
Definition getd {K A} `{EqB K} (d : dict K (list A)) (k : K) : list A := match dget d k with Some x => x | None => [] end.
(* one edge of the result in column c; the third component of the state are the messages about inconsistent edges.
   The dictionaries for u and v are created when the first edge is put into them. *)
Definition record_edge (st : table * list (string * (ustr * ustr))) (x : string * redge V) : table * list (string * (ustr * ustr)) :=
  let (t, ms) := st in let (c, e) := x in
  let (u, v) := sorted2 (rn_name (re_u e)) (rn_name (re_v e)) in
  match dget (getd (getd t u) v) c with
  | Some f => (t, if edge_eqb f e then ms else ms ++ [(c, (u, v))])
  | None => (dset t u (dset (getd t u) v (dset (getd (getd t u) v) c e)), ms)
  end.
Definition equivalents (results : list (string * list (redge V))) : table * list (string * (ustr * ustr)) :=
  fold_left record_edge (flat_map (fun x => map (fun e => (fst x, e)) (snd x)) results) ([], []).

(* ---- the rows and the printed lines (workspaces/cli.py:810-850) ---- *)
Record line := mkLine { ln_label : ustr * ustr; ln_cells : list (option ustr); ln_same : bool }.
(* experiment_table_row: None for every column, then the edges *)
Definition row_of (cols : list string) (r : columns) : dict string (option (redge V)) :=
  fold_left (fun d x => dset d (fst x) (Some (snd x))) r (fold_left (fun d c => dset d c None) cols []).
(* the first element that is not None *)
Fixpoint first_edge (l : list (option (redge V))) : option (redge V) := match l with [] => None | Some e :: _ => Some e | None :: r => first_edge r end.
(* a row without an edge does not occur; Python would raise AttributeError *)
Definition line_of (cols : list string) (r : columns) : res line :=
  let row := row_of cols r in
  match first_edge (map snd row) with
  | None => Err AttributeError
  | Some f => Ok (mkLine (rn_name (re_u f), rn_name (re_v f))
                   (map (fun c => match dget row c with Some (Some e) => Some (ry_repr (re_type e)) | _ => None end) cols)
                   (forallb (fun o => match o with Some e => edge_eqb e f | None => false end) (map snd row)))
  end.
Fixpoint lines_of (cols : list string) (rs : list columns) : res (list line) :=
  match rs with [] => Ok [] | r :: q => rbind (line_of cols r) (fun l => rbind (lines_of cols q) (fun ls => Ok (l :: ls))) end.
Definition rows (t : table) : list columns := flat_map (fun s => map snd (snd s)) t.
(* the messages and the printed lines *)
Definition compare (only_differences : bool) (results : list (string * list (redge V))) : list (string * (ustr * ustr)) * res (list line) :=
  let (t, ms) := equivalents results in
  (ms, rbind (lines_of (map fst results) (rows t)) (fun ls => Ok (filter (fun l => negb (only_differences && ln_same l)) ls))).

(* ---- names and versions (workspaces/cli.py:753-788) ---- *)
Inductive refused := TooFew | UnknownName (n : string) | UnknownVersion (n : string) (v : Z).
Section Resolve.
Context {C : Type}.
Variable parse : C -> res (list (redge V)).                 (* json.load, deserialize_result, .edges *)
Variables (ws : workspace) (d : dir C) (ls : list string).
(* one of the given names: the column and the edges of the result *)
Definition resolve_name (n : string) : res (refused + string * list (redge V)) :=
  if dmem (experiments ws) n then
    rbind (load_latest d ls true n) (fun c => rbind (parse c) (fun es => Ok (inr ((n ++ "_latest")%string, es))))
  else
    match py_int (last_seg (split us n)) with
    | None => Ok (inl (UnknownName n))
    | Some v =>
        let m := join "_" (removelast (split us n)) in
        rbind (load_versions ls m) (fun vs =>
        if negb (existsb (Z.eqb v) vs) then Ok (inl (UnknownVersion m v)) else
        rbind (load_version d ls (dmem (experiments ws) m) m v) (fun c => rbind (parse c) (fun es => Ok (inr ((m ++ "_" ++ str_Z v)%string, es)))))
    end.
Fixpoint resolve_names (l : list string) : res (refused + list (string * list (redge V))) :=
  match l with
  | [] => Ok (inr [])
  | n :: r => rbind (resolve_name n) (fun x => match x with
                | inl e => Ok (inl e)
                | inr y => rbind (resolve_names r) (fun z => match z with inl e => Ok (inl e) | inr q => Ok (inr (y :: q)) end)
                end)
  end.
(* the command: refused with a message, or the messages and lines *)
Definition diff (only_differences : bool) (names : list string) : res (refused + list (string * (ustr * ustr)) * list line) :=
  if Nat.ltb (List.length names) 2 then Ok (inl TooFew) else
  rbind (resolve_names names) (fun x => match x with
    | inl e => Ok (inl e)
    | inr rs => let (ms, ls) := compare only_differences rs in rbind ls (fun ls => Ok (inr (ms, ls)))
    end).
End Resolve.
End Edges.
