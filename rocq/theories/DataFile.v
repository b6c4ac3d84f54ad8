(* causy/data_loader.py with causy/graph_model.py: from the text of a JSON or JSONL file to the graph.  The text is what
   reading the file in text mode gives: decoding and the translation of line ends are not modelled. *)
From Coq Require Import Ascii.
From Verif Require Import Base PyDict Graph Construct JsonText.
Open Scope string_scope.
Open Scope list_scope.
Open Scope Z_scope.

(* strings of code points as the strings of the graph model: their UTF-8 encoding *)
Definition utf8_point (c : Z) : list Z :=
  if c <? 128 then [c] else if c <? 2048 then [192 + c / 64; 128 + c mod 64]
  else if c <? 65536 then [224 + c / 4096; 128 + c / 64 mod 64; 128 + c mod 64]
  else [240 + c / 262144; 128 + c / 4096 mod 64; 128 + c / 64 mod 64; 128 + c mod 64].
Definition utf8 (s : ustr) : string := unlit (flat_map utf8_point s).

Section Files.
Variable read_float : ustr -> Z.       (* float(text), as the bit pattern *)
Variable of_int : Z -> option Z.       (* the float64 of an integer; None when it is out of range *)

(* one value given to torch.tensor(.., dtype=torch.float64).  Nested lists, which torch accepts when they are regular, count
   as values torch rejects. *)
Definition cell_of (j : jval Z) : cell :=
  match j with JInt z => of_int z | JFloat f => Some f | JBool b => of_int (if b then 1 else 0) | _ => None end.
Definition row_of (d : list (ustr * jval Z)) : row := map (fun p => (utf8 (fst p), cell_of (snd p))) d.
(* a column; one that is not a list counts as a value torch rejects (torch accepts a single number) *)
Definition column_of (j : jval Z) : list cell := match j with JList l => map cell_of l | _ => [None] end.
Definition columns_of (d : list (ustr * jval Z)) : dict string (list cell) := map (fun p => (utf8 (fst p), column_of (snd p))) d.

(* what a generator yields before it ends or raises *)
Definition stream := list (res (jval Z)).
(* data_loader.py:81-93 (JSONDataLoader.load) *)
Definition json_stream (t : ustr) : stream :=
  match loads read_float t with
  | Err e => [Err e]
  | Ok (JList l) => map Ok l
  | Ok (JDict d) => [Ok (JDict [(lit "_dict", JDict d)])]
  | Ok _ => [Err ValueError]
  end.
(* for line in f: the lines with their line ends *)
Fixpoint lines (t : ustr) : list ustr :=
  match t with
  | [] => []
  | c :: r => if c =? 10 then [10] :: lines r else match lines r with [] => [[c]] | l :: m => (c :: l) :: m end
  end.
(* data_loader.py:101-104 (JSONLDataLoader.load): the lines are parsed one by one *)
Definition jsonl_stream (t : ustr) : stream := map (loads read_float) (lines t).

(* graph_model.py:142-157: the loop over the rows.  Left: the rows or the error; right: the value under "_dict". *)
Fixpoint read_stream (keys : option (list ustr)) (rows : stream) : res (list row) + jval Z :=
  match rows with
  | [] => inl (Ok [])
  | Err e :: _ => inl (Err e)
  | Ok (JDict d) :: rest =>
      match dget d (lit "_dict") with
      | Some v => inr v
      | None =>
          let ks := match keys with None => map fst d | Some ks => ks end in
          if forallb (dmem d) ks
          then match read_stream (Some ks) rest with inl (Ok l) => inl (Ok (row_of d :: l)) | x => x end
          else inl (Err KeyError)
      end
  | Ok _ :: rest =>
      match keys with
      | None => inl (Err AttributeError)
      | Some [] => match read_stream (Some []) rest with inl (Ok l) => inl (Ok ([] :: l)) | x => x end
      | Some _ => inl (Err TypeError)
      end
  end.
(* graph_model.py:136-163 (_create_from_data_loader).  No row at all: keys is None. *)
Definition graph_from_stream (s : stream) : res graph :=
  match read_stream None s with
  | inr (JDict cols) => graph_from_dict (columns_of cols)
  | inr _ => Err AttributeError
  | inl (Err e) => Err e
  | inl (Ok []) => Err TypeError
  | inl (Ok l) => graph_from_list l
  end.
End Files.
