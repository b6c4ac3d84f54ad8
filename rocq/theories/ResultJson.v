(* The texts that the execute command saves and reads, for the results of Workspace.v: model of
   json.dumps(result.model_dump(), cls=CausyJSONEncoder, indent=4) (workspaces/cli.py:370) and of
   deserialize_result(json.load(f)) (workspaces/cli.py:328, 422), put together from JsonText.v and ResultText.v.
   Simplified: names, references and hashes, which Workspace.v has as strings of bytes, are taken as Latin-1. *)
From Coq Require Import Ascii.
From Verif Require Import Base PyDict PyStr Variables Workspace JsonText ResultText.
Open Scope string_scope.
Open Scope list_scope.

(* what a run produces (models.py:100-102), without the durations; V is what data dictionaries hold *)
Record graph_result (V : Type) := mkGR { gr_nodes : list (ustr * rnode); gr_edges : list (redge V); gr_history : list (rstep fl V) }.
Arguments mkGR {V}.
Arguments gr_nodes {V}.
Arguments gr_edges {V}.
Arguments gr_history {V}.
(* what differs between two runs of the same experiment: the time (created_at, models.py:99), and the durations of the
   steps, which are addressed by their positions (models.py:87-94) *)
Record moment := mkMoment { mo_second : Z; mo_created : ustr; mo_time : list nat -> option fl }.
Section Steps.
Context {V : Type}.
Fixpoint timed (x : list nat -> option fl) (s : rstep fl V) : rstep fl V :=
  match s with
  | RStep n _ a p ss => RStep n (x []) a p ((fix go i l := match l with [] => [] | s :: r => timed (fun q => x (i :: q)) s :: go (S i) r end) O ss)
  end.
Fixpoint timed_list (x : list nat -> option fl) (i : nat) (l : list (rstep fl V)) : list (rstep fl V) :=
  match l with [] => [] | s :: r => timed (fun q => x (i :: q)) s :: timed_list x (S i) r end.
Fixpoint untimed (s : rstep fl V) : rstep fl V := match s with RStep n _ a p ss => RStep n None a p (map untimed ss) end.
End Steps.

(* VariableType = Union[str, int, float, bool] (variables.py:10) *)
Definition scalar_out (s : scalar) : pval fl := match s with SStr x => PStr (lit x) | SInt z => PInt z | SFloat f => PFloat f | SBool b => PBool b end.
Definition scalar_json (s : scalar) : jval fl := match s with SStr x => JStr (lit x) | SInt z => JInt z | SFloat f => JFloat f | SBool b => JBool b end.
(* variables is Dict[str, Any]; values of other types are never written and are refused here *)
Definition scalar_in (j : jval fl) : res scalar :=
  match j with JStr x => Ok (SStr (unlit x)) | JInt z => Ok (SInt z) | JFloat f => Ok (SFloat f) | JBool b => Ok (SBool b) | _ => Err ValueError end.
Definition reference_type (t : reftype) : rreftype := match t with RFile => RtFile | RName => RtName | RModule => RtModule end.
(* the Result that _execute_experiment returns (workspaces/cli.py:305-314) *)
Definition full_result {V} (sv : scalar -> V) (x : moment) (r : aref) (l : @result (graph_result V)) : rresult fl V :=
  mkRResult (lit (r_ref r)) (reference_type (r_type r)) (mo_created x) (gr_nodes (res_graph l)) (gr_edges (res_graph l)) (timed_list (mo_time x) O (gr_history (res_graph l)))
    (Some (map (fun p => (lit (fst p), sv (snd p))) (res_variables l))) (option_map lit (res_data_hash l)) (option_map lit (res_alg_hash l)) (option_map lit (res_vars_hash l)).
Fixpoint scalars_in (l : list (ustr * jval fl)) : res (dict string scalar) :=
  match l with [] => Ok [] | (k, j) :: r => rbind (scalar_in j) (fun s => rbind (scalars_in r) (fun d => Ok ((unlit k, s) :: d))) end.
Definition short_result (r : rresult fl (jval fl)) : res (@result (graph_result (jval fl))) :=
  rbind (match rr_variables r with Some l => scalars_in l | None => Ok [] end) (fun vs =>
  Ok (mkResult (mkGR (rr_nodes r) (rr_edges r) (map untimed (rr_history r))) vs (option_map unlit (rr_data_hash r)) (option_map unlit (rr_alg_hash r)) (option_map unlit (rr_vars_hash r)))).
Section Texts.
Variables (float_text : fl -> ustr) (read_float : ustr -> fl) (is_date : ustr -> bool).
Definition json_text (x : moment) (r : aref) (l : @result (graph_result (pval fl))) : res ustr := dumps float_text (dump_result (full_result scalar_out x r l)).
Definition json_parse (t : ustr) : res (@result (graph_result (jval fl))) := rbind (loads read_float t) (fun j => rbind (load_result is_date j) short_result).
End Texts.
