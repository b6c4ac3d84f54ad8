(* causy/graph_model.py: building the graph from data; data_loader.py: the JSON loaders. *)
From Verif Require Import Base PyDict Graph Pipeline.
Open Scope string_scope.
Open Scope list_scope.

(* A table cell: a float64 bit pattern, or a value torch cannot convert. *)
Definition cell := option Z.
(* a row of a table *)
Definition row := dict string cell.

(* What a data loader yields (data_loader.py:49-57): a row, or {"_dict": columns}. *)
Inductive lrow := Row (r : row) | DictRow (cols : dict string (list cell)).

(* graph_model.py:164-184: a dict of columns, a list of rows, or a data loader *)
Inductive rawdata := DDict (cols : dict string (list cell)) | DList (rows : list row) | DLoader (rows : list lrow).

(* sorted(): insertion sort on the keys (the keys of a dict are distinct, so the values are never
   compared).  Python compares strings by code point, String.ltb compares bytes of the encoding, which
   is the same order for UTF-8. *)
Fixpoint insert_by {A} (p : string * A) (l : list (string * A)) : list (string * A) :=
  match l with
  | [] => [p]
  | q :: r => if String.leb (fst p) (fst q) then p :: l else q :: insert_by p r
  end.
Fixpoint sort_items {A} (l : list (string * A)) : list (string * A) :=
  match l with [] => [] | p :: r => insert_by p (sort_items r) end.

(* torch.tensor(values, dtype=torch.float64) *)
Fixpoint tensor (l : list cell) : option (list Z) :=
  match l with
  | [] => Some []
  | c :: r => match c, tensor r with Some x, Some t => Some (x :: t) | _, _ => None end
  end.
(* for key in ..: graph.add_node(key, values, id_=key) *)
Fixpoint add_columns (l : list (string * list cell)) : ST unit :=
  match l with [] => ret tt | (k, vs) :: r => add_node k (tensor vs) k ;;; add_columns r end.
(* the new graph, returned only when nothing was raised *)
Definition new_graph (m : ST unit) : res graph :=
  match m empty_graph with (g, Ok _) => Ok g | (_, Err e) => Err e end.

(* graph_model.py:101-110 *)
Definition graph_from_dict (cols : dict string (list cell)) : res graph := new_graph (add_columns (sort_items cols)).

(* row[key] *)
Definition row_get (k : string) (r : row) : res cell := match dget r k with Some c => Ok c | None => Err KeyError end.
(* graph_model.py:121-129: the column of every key of the first row, in row order *)
Definition columns (keys : list string) (rows : list row) : res (list (string * list cell)) :=
  rmap (fun k => rbind (rmap (row_get k) rows) (fun c => Ok (k, c))) keys.
(* graph_model.py:112-134 *)
Definition graph_from_list (rows : list row) : res graph :=
  match rows with
  | [] => Err IndexError
  | r0 :: _ => rbind (columns (dkeys r0) rows) (fun l => new_graph (add_columns l))
  end.
(* graph_model.py:136-163.  A row with a key "_dict" ends the loop; if its value is not a dict, .items()
   raises.  Every row is read at the keys of the first one.  No row at all: keys is None. *)
Fixpoint split_loader (keys : option (list string)) (rows : list lrow) : res (list row) + dict string (list cell) :=
  match rows with
  | [] => inl (Ok [])
  | DictRow cols :: _ => inr cols
  | Row r :: rest =>
      if dmem r "_dict" then inl (Err AttributeError)
      else
        let ks := match keys with None => dkeys r | Some ks => ks end in
        if forallb (dmem r) ks
        then match split_loader (Some ks) rest with
             | inl (Ok l) => inl (Ok (r :: l))
             | x => x
             end
        else inl (Err KeyError)
  end.
Definition graph_from_loader (rows : list lrow) : res graph :=
  match split_loader None rows with
  | inr cols => graph_from_dict cols
  | inl (Err e) => Err e
  | inl (Ok []) => Err TypeError
  | inl (Ok l) => graph_from_list l
  end.
(* graph_model.py:164-183 (create_graph_from_data) *)
Definition create_graph_from_data (d : rawdata) : res graph :=
  match d with
  | DDict c => graph_from_dict c
  | DList l => graph_from_list l
  | DLoader l => graph_from_loader l
  end.

(* data_loader.py:78-95 (JSONDataLoader.load) and 103-106 (JSONLDataLoader.load) *)
Inductive json_file := JList (rows : list row) | JDict (cols : dict string (list cell)) | JOther.
Definition json_load (f : json_file) : res (list lrow) :=
  match f with
  | JList rows => Ok (map Row rows)
  | JDict cols => Ok [DictRow cols]
  | JOther => Err ValueError
  end.
Definition jsonl_load (lines : list row) : list lrow := map Row lines.

(* graph_model.py:185-195 (create_all_possible_edges) *)
Fixpoint add_edges (l : list (id * id)) : ST unit :=
  match l with [] => ret tt | (u, v) :: r => add_edge u v (Some []) TUndirected ;;; add_edges r end.
Definition ordered_pairs (ns : list id) : list (id * id) :=
  flat_map (fun u => flat_map (fun v => if eqb u v then [] else [(u, v)]) ns) ns.
Definition create_all_possible_edges : ST unit := g <- gget ;; add_edges (ordered_pairs (dkeys (nodes g))).

(* the start of a run: create_graph_from_data, then create_all_possible_edges *)
Definition start_graph (d : rawdata) : res graph :=
  rbind (create_graph_from_data d) (fun g =>
  match create_all_possible_edges g with (g', Ok _) => Ok g' | (_, Err e) => Err e end).
