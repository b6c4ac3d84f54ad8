(* causy/cli.py:44-103 (execute).  Messages of typer and logging are not modelled. *)
From Coq Require Import Ascii.
From Verif Require Import Base PyDict PyStr Graph Actions Generators IndepTests Pipeline Construct JsonText DataFile Workspace Execute ResultText GraphResult.
From Verif Require Variables Json Config ConfigClasses.
Open Scope string_scope.
Open Scope list_scope.

(* what the command does: the lines it prints, the operations on files, how it ends.  A line shows the names of two nodes and the
   edge object between them. *)
Definition line := (string * string * edge)%type.
Record outcome := mkOutcome { o_lines : list line; o_ops : list op; o_end : res unit }.

(* the truth value of an option of the command line *)
Definition given (o : option string) : option string := match o with Some s => if eqb s "" then None else Some s | None => None end.

(* cli.py:87-90: model.graph.nodes[edge[0]].name and model.graph.edges[edge[0]][edge[1]]; the lines before an exception are printed *)
Definition line_of (g : graph) (p : id * id) : res line :=
  match dget (nodes g) (fst p), dget (nodes g) (snd p), dget2 (edges g) (fst p) (snd p) with
  | Some a, Some b, Some e => Ok (n_name a, n_name b, e)
  | _, _, _ => Err KeyError
  end.
Fixpoint print_lines (g : graph) (l : list (id * id)) : list line * res unit :=
  match l with
  | [] => ([], Ok tt)
  | p :: r => match line_of g p with Err e => ([], Err e) | Ok x => let q := print_lines g r in (x :: fst q, snd q) end
  end.

Section Execute.
Context {F : Type}.
Variables (num : Z -> Z + F) (other_type : string -> bool * ustr) (duration : list nat -> option F) (float_text : F -> ustr).   (* see GraphResult.v and JsonText.v *)
Variables (data_float : ustr -> Z) (of_int : Z -> option Z).    (* see DataFile.v *)
Variables (fuel : nat) (P : runner) (so : list id -> list id) (N : numerics).
Variables (sh sh' : nat * id * id -> list (list id) -> list (list id)) (coin : nat -> nat -> bool).
Variable coerce : Variables.vtype -> Variables.scalar -> res Variables.scalar.
Variable config : string -> res (Json.json Variables.fl).       (* load_json (serialization.py:96-99) *)
Variable factory : Config.spec -> res (list pstep).             (* graph_model_factory(algorithm)(), as the steps that are executed *)

(* cli.py:55-75 *)
Definition choose (pipeline algorithm : option string) : res (list pstep * (ustr * rreftype)) :=
  match given pipeline, given algorithm with
  | Some p, _ => rbind (config p) (fun j => rbind (Config.load_spec ConfigClasses.causy_classes coerce j) (fun a => rbind (factory a) (fun l => Ok (l, (lit p, RtFile)))))
  | None, Some a =>
      if eqb a "PC" then Ok (pc so N, (lit a, RtName))
      else if eqb a "ParallelPC" then Ok (pc_parallel so sh sh' coin N, (lit a, RtName))
      else Err KeyError
  | None, None => Err ValueError
  end.
(* cli.py:77-82: JSONDataLoader, create_graph_from_data, create_all_possible_edges *)
Definition data_graph (d : dir ustr) (f : string) : res graph :=
  match dget d f with
  | None => Err FileNotFound
  | Some t => rbind (graph_from_stream of_int (json_stream data_float t)) (fun g => match create_all_possible_edges g with (g', Ok _) => Ok g' | (_, Err e) => Err e end)
  end.
(* cli.py:92-97: the fields that do not come from the graph; variables and hashes stay None *)
Definition cli_extras (created : ustr) (r : ustr * rreftype) : extras F := mkExtras (fst r) (snd r) created None None None None.
(* cli.py:84-103 after the graph is made *)
Definition run_and_report (created : ustr) (l : list pstep) (r : ustr * rreftype) (output : option string) (g0 : graph) : outcome :=
  match execute_pipeline fuel P no_hooks l g0 with
  | (_, Err e) => mkOutcome [] [] (Err e)
  | (g, Ok _) =>
      match print_lines g (graph_utils_retrieve_edges g) with
      | (ls, Err e) => mkOutcome ls [] (Err e)
      | (ls, Ok _) =>
          match result_of num other_type duration (cli_extras created r) g with
          | Err e => mkOutcome ls [] (Err e)
          | Ok x => match given output with
                    | None => mkOutcome ls [] (Ok tt)
                    | Some f => let t := dumps float_text (dump_result x) in
                                mkOutcome ls (save_ops f t) (match t with Ok _ => Ok tt | Err e => Err e end)
                    end
          end
      end
  end.
Definition cli_execute (created : ustr) (d : dir ustr) (data_file : string) (pipeline algorithm output : option string) : outcome :=
  match choose pipeline algorithm with
  | Err e => mkOutcome [] [] (Err e)
  | Ok (l, r) => match data_graph d data_file with Err e => mkOutcome [] [] (Err e) | Ok g0 => run_and_report created l r output g0 end
  end.
End Execute.
