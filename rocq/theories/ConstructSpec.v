(* Specification vocabulary for graph construction. *)
From Verif Require Import Base PyDict Graph Construct.

(* a table: named columns of numbers *)
Definition table := list (string * list Z).
Definition is_table (T : table) (n : nat) : Prop :=
  NoDup (map fst T) /\ forall k vs, In (k, vs) T -> List.length vs = n.

(* rows hold the table: row i maps every column name to the i-th number of that column (rows may have
   further keys, except the first one) *)
Definition rows_hold (T : table) (rows : list row) : Prop :=
  forall i r, nth_error rows i = Some r -> forall k vs, In (k, vs) T -> exists x, nth_error vs i = Some x /\ dget r k = Some (Some x).
Definition data_holds (T : table) (n : nat) (d : rawdata) : Prop :=
  match d with
  | DDict cols | DLoader [DictRow cols] => Permutation cols (map (fun p => (fst p, map Some (snd p))) T)
  | DList rows => 0 < n /\ List.length rows = n /\ rows_hold T rows /\
      exists r0 rest, rows = r0 :: rest /\ Permutation (dkeys r0) (map fst T)
  | DLoader l => 0 < n /\ exists rows, l = map Row rows /\ List.length rows = n /\ rows_hold T rows /\
      (forall r, In r rows -> dget r "_dict"%string = None) /\
      exists r0 rest, rows = r0 :: rest /\ Permutation (dkeys r0) (map fst T)
  end.

(* the graph has exactly the columns as nodes, and nothing else *)
Definition holds_only (T : table) (g : graph) : Prop :=
  (forall k n, dget (nodes g) k = Some n <-> exists vs, In (k, vs) T /\ n = mkNode k vs) /\
  NoDup (dkeys (nodes g)) /\
  edges g = [] /\ redges g = [] /\ dedges g = [] /\ ehist g = [] /\ ahist g = [].

(* the order of the nodes: sorted names for columns, the order of the first row's keys for rows *)
Inductive sorted_names : list string -> Prop :=
| sn_nil : sorted_names []
| sn_one : forall x, sorted_names [x]
| sn_cons : forall x y l, String.leb x y = true -> sorted_names (y :: l) -> sorted_names (x :: y :: l).
Definition node_order (d : rawdata) (ns : list id) : Prop :=
  match d with
  | DDict _ | DLoader (DictRow _ :: _) => sorted_names ns
  | DList (r0 :: _) | DLoader (Row r0 :: _) => ns = dkeys r0
  | _ => False
  end.
