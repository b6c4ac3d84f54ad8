(* causy/data_loader.py: loader references, the loaders and their hashes. *)
From Coq Require Import Ascii.
From Verif Require Import Base PyDict Graph Construct Json DataFile.
From Verif Require JsonText.
Open Scope string_scope.
Open Scope list_scope.

Section Loaders.
Context {F : Type}.
(* data_loader.py:13-16 (DataLoaderType) *)
Inductive loader_type := TDynamic | TJson | TJsonl.
(* data_loader.py:19-27 (DataLoaderReference); options are a JSON object or missing *)
Record loader_ref := mkRef { r_type : loader_type; r_reference : string; r_options : option (list (string * json F)) }.
(* The surroundings: the bytes of the files, and the modules that can be imported, each with or without a class DataLoader. *)
Record surroundings := mkWorld { files : string -> option (list Z); modules : string -> option bool }.
(* a FileDataLoader after construction (data_loader.py:63-65); [l_lines] tells JSONLDataLoader from JSONDataLoader *)
Record loader := mkLoader { l_lines : bool; l_reference : string; l_options : option (list (string * json F)) }.

(* A missing module is OtherError 1.  data_loader.py:112-123 (DynamicDataLoader.__init__, _load_data_loader).  self.options is read before it is assigned, so it is
   the class attribute None (data_loader.py:36), and DataLoader is called with two stars before None. *)
Definition load_dynamic (w : surroundings) (reference : string) : res loader :=
  match modules w reference with
  | None => Err (OtherError 1)
  | Some false => Err AttributeError
  | Some true => Err TypeError
  end.
(* data_loader.py:132-146 (DATA_LOADERS, load_data_loader) *)
Definition load_data_loader (w : surroundings) (r : loader_ref) : res loader :=
  match r_type r with
  | TDynamic => load_dynamic w (r_reference r)
  | TJson => Ok (mkLoader false (r_reference r) (r_options r))
  | TJsonl => Ok (mkLoader true (r_reference r) (r_options r))
  end.

Variable float_text : F -> string.
Variable file_digest : list Z -> string.      (* hashlib.file_digest(..).hexdigest() *)
Variable digest : string -> string.           (* the SHA256 of a text, in hexadecimal *)
(* options as a JSON value *)
Definition options_json (o : option (list (string * json F))) : json F := match o with Some d => JDict d | None => JNull end.
(* data_loader.py:54-55, 69-73 (_hash_options, FileDataLoader.hash) *)
Definition loader_hash (w : surroundings) (l : loader) : res string :=
  match files w (l_reference l) with
  | None => Err FileNotFound
  | Some b => Ok (file_digest b ++ "_" ++ hash_dictionary float_text digest (options_json (l_options l)))%string
  end.

Variable decode : list Z -> JsonText.ustr.              (* the text of the bytes, line ends translated *)
Variable read_float : JsonText.ustr -> Z.
Variable of_int : Z -> option Z.
(* data_loader.py:81-104 *)
Definition loader_stream (w : surroundings) (l : loader) : stream :=
  match files w (l_reference l) with
  | None => [Err FileNotFound]
  | Some b => if l_lines l then jsonl_stream read_float (decode b) else json_stream read_float (decode b)
  end.
(* graph_model.py:165-183 with a loader *)
Definition loader_graph (w : surroundings) (l : loader) : res graph := graph_from_stream of_int (loader_stream w l).
End Loaders.
Arguments loader_ref F : clear implicits.
Arguments loader F : clear implicits.
