(* Model of Result.model_dump() (models.py:97-106) as it is given to json.dumps (workspaces/cli.py:370, cli.py:102)
   and of deserialize_result (serialization.py:104-113) on what json.load returns.
   Simplified: pydantic's coercions are left out, so a loaded value of another type than the one that is written
   (for example a string for a float) is an error here although pydantic may convert it; keys that are not fields are
   ignored as in pydantic; a field with a default must be present here, as it always is in what is written.  A pydantic
   ValidationError is a ValueError. *)
From Coq Require Import Ascii.
From Verif Require Import Base PyDict PyStr JsonText.
From Verif Require Graph.
Import Graph(taction(..)).
Open Scope string_scope.
Open Scope list_scope.
Open Scope Z_scope.

Section Result.
Context {F : Type}.
Notation pval := (pval F).
Notation jval := (jval F).

(* ---- the objects; V is the type of what untyped dictionaries hold ---- *)
(* NodeInterface (interfaces.py:43-61): the values are excluded from the dump (Field(exclude=True)) *)
Record rnode := mkRNode { rn_name : ustr; rn_id : ustr }.
(* EdgeTypeInterface (interfaces.py:67-77) *)
Record retype := mkRType { ry_name : ustr; ry_directed : bool; ry_repr : ustr }.
(* EdgeInterface (interfaces.py:159-168) *)
Record redge (V : Type) := mkREdge { re_u : rnode; re_v : rnode; re_type : retype; re_meta : option (list (ustr * V)) }.
(* TestResult (models.py:55-59) *)
Record rtrial (V : Type) := mkRTrial { rt_u : rnode; rt_v : rnode; rt_action : taction; rt_data : option (list (ustr * V)) }.
(* ActionHistoryStep (models.py:87-94); its lists are never None *)
Inductive rstep (V : Type) := RStep (name : ustr) (duration : option F) (actions proposed : list (rtrial V)) (steps : list (rstep V)).
(* AlgorithmReference (models.py:62-70) *)
Inductive rreftype := RtFile | RtName | RtModule.
(* Result (models.py:97-106); created_at by its isoformat *)
Record rresult (V : Type) := mkRResult {
  rr_reference : ustr; rr_reftype : rreftype; rr_created : ustr; rr_nodes : list (ustr * rnode); rr_edges : list (redge V); rr_history : list (rstep V);
  rr_variables : option (list (ustr * V)); rr_data_hash : option ustr; rr_alg_hash : option ustr; rr_vars_hash : option ustr }.
Arguments mkREdge {V}.
Arguments re_u {V}.
Arguments re_v {V}.
Arguments re_type {V}.
Arguments re_meta {V}.
Arguments mkRTrial {V}.
Arguments rt_u {V}.
Arguments rt_v {V}.
Arguments rt_action {V}.
Arguments rt_data {V}.
Arguments RStep {V}.
Arguments mkRResult {V}.
Arguments rr_reference {V}.
Arguments rr_reftype {V}.
Arguments rr_created {V}.
Arguments rr_nodes {V}.
Arguments rr_edges {V}.
Arguments rr_history {V}.
Arguments rr_variables {V}.
Arguments rr_data_hash {V}.
Arguments rr_alg_hash {V}.
Arguments rr_vars_hash {V}.

(* the value of a member of TestResultAction (models.py:35-52) and of AlgorithmReferenceType (models.py:62-65) *)
Definition action_text (a : taction) : ustr := lit
  match a with
  | UPDATE_EDGE => "UPDATE_EDGE" | UPDATE_EDGE_DIRECTED => "UPDATE_EDGE_DIRECTED" | UPDATE_EDGE_TYPE => "UPDATE_EDGE_TYPE" | UPDATE_EDGE_TYPE_DIRECTED => "UPDATE_EDGE_TYPE_DIRECTED"
  | REMOVE_EDGE_UNDIRECTED => "REMOVE_EDGE_UNDIRECTED" | REMOVE_EDGE_DIRECTED => "REMOVE_EDGE_DIRECTED" | RESTORE_EDGE => "RESTORE_EDGE" | RESTORE_EDGE_DIRECTED => "RESTORE_EDGE_DIRECTED"
  | DO_NOTHING => "DO_NOTHING"
  end.
Definition all_actions : list taction := [UPDATE_EDGE; UPDATE_EDGE_DIRECTED; UPDATE_EDGE_TYPE; UPDATE_EDGE_TYPE_DIRECTED; REMOVE_EDGE_UNDIRECTED; REMOVE_EDGE_DIRECTED; RESTORE_EDGE; RESTORE_EDGE_DIRECTED; DO_NOTHING].
Definition reftype_text (t : rreftype) : ustr := lit match t with RtFile => "file" | RtName => "name" | RtModule => "python_module" end.
Definition all_reftypes : list rreftype := [RtFile; RtName; RtModule].

(* ---- model_dump ---- *)
Definition opt {A} (f : A -> pval) (o : option A) : pval := match o with Some a => f a | None => PNull end.
Definition dump_node (n : rnode) : pval := PDict [(lit "name", PStr (rn_name n)); (lit "id", PStr (rn_id n))].
Definition dump_etype (t : retype) : pval := PDict [(lit "name", PStr (ry_name t)); (lit "IS_DIRECTED", PBool (ry_directed t)); (lit "STR_REPRESENTATION", PStr (ry_repr t))].
Definition dump_edge (e : redge pval) : pval :=
  PDict [(lit "u", dump_node (re_u e)); (lit "v", dump_node (re_v e)); (lit "edge_type", dump_etype (re_type e)); (lit "metadata", opt PDict (re_meta e))].
Definition dump_trial (t : rtrial pval) : pval :=
  PDict [(lit "u", dump_node (rt_u t)); (lit "v", dump_node (rt_v t)); (lit "action", PStr (action_text (rt_action t))); (lit "data", opt PDict (rt_data t))].
Fixpoint dump_step (s : rstep pval) : pval :=
  match s with
  | RStep n d a p ss =>
      PDict [(lit "name", PStr n); (lit "duration", opt PFloat d); (lit "actions", PList (map dump_trial a)); (lit "all_proposed_actions", PList (map dump_trial p)); (lit "steps", PList (map dump_step ss))]
  end.
Definition dump_result (r : rresult pval) : pval :=
  PDict [(lit "algorithm", PDict [(lit "reference", PStr (rr_reference r)); (lit "type", PStr (reftype_text (rr_reftype r)))]);
         (lit "created_at", PDate (rr_created r));
         (lit "nodes", PDict (map (fun p => (fst p, dump_node (snd p))) (rr_nodes r)));
         (lit "edges", PList (map dump_edge (rr_edges r)));
         (lit "action_history", PList (map dump_step (rr_history r)));
         (lit "variables", opt PDict (rr_variables r));
         (lit "data_loader_hash", opt PStr (rr_data_hash r)); (lit "algorithm_hash", opt PStr (rr_alg_hash r)); (lit "variables_hash", opt PStr (rr_vars_hash r))].

(* ---- deserialize_result ---- *)
Variable is_date : ustr -> bool.      (* pydantic reads the text as a datetime *)
(* a required field: pydantic *)
Definition field (j : jval) (k : ustr) : res jval := match j with JDict l => match dget l k with Some x => Ok x | None => Err ValueError end | _ => Err ValueError end.
(* result[k] in deserialize_result itself *)
Definition item (j : jval) (k : ustr) : res jval := match j with JDict l => match dget l k with Some x => Ok x | None => Err KeyError end | _ => Err TypeError end.
Definition as_str (j : jval) : res ustr := match j with JStr s => Ok s | _ => Err ValueError end.
Definition as_bool (j : jval) : res bool := match j with JBool b => Ok b | _ => Err ValueError end.
Definition as_list {A} (f : jval -> res A) (j : jval) : res (list A) := match j with JList l => all_of f l | _ => Err ValueError end.
Definition as_dict (j : jval) : res (list (ustr * jval)) := match j with JDict l => Ok l | _ => Err ValueError end.
Definition as_opt {A} (f : jval -> res A) (j : jval) : res (option A) := match j with JNull => Ok None | _ => rbind (f j) (fun a => Ok (Some a)) end.
Definition as_float (j : jval) : res F := match j with JFloat f => Ok f | _ => Err ValueError end.
(* MetadataType (interfaces.py:28-31): null is not allowed, nor lists or dictionaries inside a list or dictionary *)
Definition meta_base (j : jval) : bool := match j with JStr _ | JInt _ | JFloat _ | JBool _ => true | _ => false end.
Definition meta_value (j : jval) : bool := match j with JList l => forallb meta_base l | JDict l => forallb (fun p => meta_base (snd p)) l | _ => meta_base j end.
Definition as_meta (j : jval) : res (list (ustr * jval)) := rbind (as_dict j) (fun l => if forallb (fun p => meta_value (snd p)) l then Ok l else Err ValueError).
Definition load_node (j : jval) : res rnode := rbind (field j (lit "name")) (fun a => rbind (as_str a) (fun n => rbind (field j (lit "id")) (fun b => rbind (as_str b) (fun i => Ok (mkRNode n i))))).
(* EDGE_TYPES (edge_types.py:177-181) has the names of the three shipped types *)
Definition edge_type_names : list ustr := [lit "DIRECTED"; lit "UNDIRECTED"; lit "BIDIRECTED"].
(* EDGE_TYPES[edge["edge_type"]["name"]]( **edge["edge_type"] ) (serialization.py:108-111): a name that is not a key,
   or not a string, raises KeyError *)
Definition load_etype (edge : jval) : res retype :=
  rbind (item edge (lit "edge_type")) (fun t => rbind (item t (lit "name")) (fun n =>
  match n with
  | JStr s => if existsb (eqb s) edge_type_names
              then rbind (field t (lit "IS_DIRECTED")) (fun a => rbind (as_bool a) (fun d => rbind (field t (lit "STR_REPRESENTATION")) (fun b => rbind (as_str b) (fun r => Ok (mkRType s d r)))))
              else Err KeyError
  | _ => Err KeyError
  end)).
(* an edge whose type is loaded already; metadata must be a dictionary (interfaces.py:168), None is not accepted *)
Definition load_edge (p : jval * retype) : res (redge jval) :=
  let j := fst p in
  rbind (field j (lit "u")) (fun a => rbind (load_node a) (fun u => rbind (field j (lit "v")) (fun b => rbind (load_node b) (fun v =>
  rbind (field j (lit "metadata")) (fun m => rbind (as_meta m) (fun meta => Ok (mkREdge u v (snd p) (Some meta)))))))).
Definition as_action (j : jval) : res taction := rbind (as_str j) (fun s => match find (fun a => eqb s (action_text a)) all_actions with Some a => Ok a | None => Err ValueError end).
Definition as_reftype (j : jval) : res rreftype := rbind (as_str j) (fun s => match find (fun a => eqb s (reftype_text a)) all_reftypes with Some a => Ok a | None => Err ValueError end).
Definition load_trial (j : jval) : res (rtrial jval) :=
  rbind (field j (lit "u")) (fun a => rbind (load_node a) (fun u => rbind (field j (lit "v")) (fun b => rbind (load_node b) (fun v =>
  rbind (field j (lit "action")) (fun c => rbind (as_action c) (fun act => rbind (field j (lit "data")) (fun d => rbind (as_opt as_dict d) (fun data => Ok (mkRTrial u v act data))))))))).
(* the steps of a step are loaded inside the traversal of the dictionary *)
Fixpoint load_step (j : jval) : res (rstep jval) :=
  let sub := match j with JDict l => dget (map (fun p => match p with (k, x) => (k, match x with JList xs => all_of load_step xs | _ => Err ValueError end) end) l) (lit "steps") | _ => None end in
  rbind (field j (lit "name")) (fun a => rbind (as_str a) (fun n => rbind (field j (lit "duration")) (fun b => rbind (as_opt as_float b) (fun d =>
  rbind (field j (lit "actions")) (fun c => rbind (as_list load_trial c) (fun acts => rbind (field j (lit "all_proposed_actions")) (fun e => rbind (as_list load_trial e) (fun props =>
  rbind (match sub with Some s => s | None => Err ValueError end) (fun ss => Ok (RStep n d acts props ss)))))))))).
Definition load_entry (p : ustr * jval) : res (ustr * rnode) := rbind (load_node (snd p)) (fun n => Ok (fst p, n)).
Definition load_result (j : jval) : res (rresult jval) :=
  rbind (item j (lit "algorithm")) (fun al =>
  rbind (field al (lit "reference")) (fun a => rbind (as_str a) (fun ref => rbind (field al (lit "type")) (fun b => rbind (as_reftype b) (fun ty =>
  rbind (item j (lit "edges")) (fun es =>
  rbind (match es with JList l => Ok l | _ => Err TypeError end) (fun el =>
  rbind (all_of (fun e => rbind (load_etype e) (fun t => Ok (e, t))) el) (fun ts =>
  rbind (field j (lit "created_at")) (fun c => rbind (as_str c) (fun created => rbind (if is_date created then Ok tt else Err ValueError) (fun _ =>
  rbind (field j (lit "nodes")) (fun d => rbind (as_dict d) (fun nd => rbind (all_of load_entry nd) (fun nodes =>
  rbind (all_of load_edge ts) (fun edges =>
  rbind (field j (lit "action_history")) (fun h => rbind (as_list load_step h) (fun hist =>
  rbind (field j (lit "variables")) (fun v => rbind (as_opt as_dict v) (fun vars =>
  rbind (field j (lit "data_loader_hash")) (fun x => rbind (as_opt as_str x) (fun dh =>
  rbind (field j (lit "algorithm_hash")) (fun y => rbind (as_opt as_str y) (fun ah =>
  rbind (field j (lit "variables_hash")) (fun z => rbind (as_opt as_str z) (fun vh =>
  Ok (mkRResult ref ty created nodes edges hist vars dh ah vh)))))))))))))))))))))))))).
End Result.
Arguments mkREdge {V}.
Arguments re_u {V}.
Arguments re_v {V}.
Arguments re_type {V}.
Arguments re_meta {V}.
Arguments mkRTrial {V}.
Arguments rt_u {V}.
Arguments rt_v {V}.
Arguments rt_action {V}.
Arguments rt_data {V}.
Arguments RStep {F V}.
Arguments mkRResult {F V}.
Arguments rr_reference {F V}.
Arguments rr_reftype {F V}.
Arguments rr_created {F V}.
Arguments rr_nodes {F V}.
Arguments rr_edges {F V}.
Arguments rr_history {F V}.
Arguments rr_variables {F V}.
Arguments rr_data_hash {F V}.
Arguments rr_alg_hash {F V}.
Arguments rr_vars_hash {F V}.
Arguments rstep : clear implicits.
Arguments rresult : clear implicits.
