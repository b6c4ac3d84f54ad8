(* Decision logic of the independence tests, the correlation step and the effect estimation step. *)
From Verif Require Import Base PyDict Graph Actions Rules.
Open Scope string_scope.
Open Scope list_scope.

(* The numeric core (torch, math, scipy) is an argument.  Data and correlations are bit patterns; an
   answer [true] means "p value above the threshold", i.e. independent.  Every function may raise. *)
Record numerics := mkNum {
  n_pearson : list Z -> list Z -> res Z;                        (* calculation.py:36-47 *)
  n_corr_test : nat -> Z -> res bool;                           (* common.py:46-58: sample size, correlation *)
  n_partial : nat -> nat -> Z -> Z -> Z -> res (option bool);   (* common.py:120-143: None = denominator 0 *)
  n_matrix : list (list Z) -> res (option bool);                (* common.py:208-244: None = singular *)
  n_regress : list Z -> list Z -> list (list Z) -> res bool;    (* common.py:321-336 *)
  n_effect : list Z -> list (list Z) -> list Z -> res Z }.      (* multivariate_regression.py:38-56 *)

Definition values_of (g : graph) (x : id) : list Z :=
  match dget (nodes g) x with Some n => n_values n | None => [] end.

(* calculation.py:24-57.  The code writes into the dict returned by edge_value, which is the dict stored
   on the edge; the UPDATE_EDGE action stores the same content.  The in-place write is not modelled. *)
Definition pearson_process (N : numerics) : proc := fun g ns _ =>
  rbind (node_at g ns 0) (fun x => rbind (node_at g ns 1) (fun y =>
  rbind (edge_value g x y) (fun ev =>
  rbind (n_pearson N (values_of g x) (values_of g y)) (fun c =>
  match ev with
  | None => Err TypeError
  | Some m => Ok (Some [mkT x y UPDATE_EDGE (Some (dset m "correlation" (MNum c)))])
  end)))).

(* graph.edge_value(x, y)["correlation"] *)
Definition get_corr (g : graph) (x y : id) : res mval :=
  rbind (edge_value g x y) (fun ev =>
  match ev with
  | None => Err TypeError
  | Some m => match dget m "correlation" with None => Err KeyError | Some c => Ok c end
  end).
(* arithmetic on it *)
Definition as_num (m : mval) : res Z := match m with MNum z => Ok z | _ => Err TypeError end.

Definition separated (x y : id) (zs : list id) : tresult :=
  mkT x y REMOVE_EDGE_UNDIRECTED (Some [("separatedBy", MNodes zs); ("triple", MTriple x y zs)]).
Definition not_separated (x y : id) (zs : list id) : tresult :=
  mkT x y DO_NOTHING (Some [("triple", MTriple x y zs)]).

(* common.py:34-74 (CorrelationCoefficientTest.process) *)
Definition correlation_test (N : numerics) : proc := fun g ns _ =>
  rbind (node_at g ns 0) (fun x => rbind (node_at g ns 1) (fun y =>
  rbind (get_corr g x y) (fun m => rbind (as_num m) (fun c =>
  rbind (n_corr_test N (List.length (values_of g x)) c) (fun b =>
  Ok (Some [if b then separated x y [] else not_separated x y []])))))).

(* common.py:102-165, the loop over the nodes.  KeyError and TypeError from the three look-ups give
   "return" (None), which also drops the results collected so far. *)
Fixpoint partial_loop (N : numerics) (g : graph) (ns l : list id) (deleted : list (id * id))
         (acc : list tresult) : res outcome :=
  match l with
  | [] => Ok (Some acc)
  | z :: r =>
      match filter (fun n => negb (eqb n z)) ns with
      | x :: y :: _ =>
          if negb (edge_exists g x y) || mem (y, x) deleted then partial_loop N g ns r deleted acc
          else match rbind (get_corr g x y) (fun a => rbind (get_corr g x z) (fun b =>
                     rbind (get_corr g y z) (fun c => Ok (a, b, c)))) with
               | Err KeyError | Err TypeError => Ok None
               | Err e => Err e
               | Ok (a, b, c) =>
                   rbind (as_num a) (fun a => rbind (as_num b) (fun b => rbind (as_num c) (fun c =>
                   rbind (n_partial N (List.length (values_of g x)) (List.length ns - 2) a b c) (fun d =>
                   match d with
                   | None => Ok None
                   | Some true => partial_loop N g ns r ((x, y) :: deleted) (acc ++ [separated x y [z]])
                   | Some false => partial_loop N g ns r deleted (acc ++ [not_separated x y [z]])
                   end))))
               end
      | _ => Err IndexError
      end
  end.
(* common.py:86-165 (PartialCorrelationTest.process) *)
Definition partial_test (N : numerics) : proc := fun g ns _ =>
  if forallb (dmem (nodes g)) ns then partial_loop N g ns ns [] [] else Err KeyError.

(* common.py:178-279 (ExtendedPartialCorrelationTestMatrix.process).  [so]: order of list(set). *)
Definition matrix_test (so : list id -> list id) (N : numerics) : proc := fun g ns _ =>
  rbind (node_at g ns 0) (fun x => rbind (node_at g ns 1) (fun y =>
  if negb (edge_exists g x y) then Ok None
  else rbind (row_of g x) (fun row =>
       let others := filter (fun k => directed_edge_exists g k x) row in
       if negb (mem y others) then Err KeyError
       else let others' := filter (fun k => negb (eqb k y)) others in
            if negb (forallb (fun n => mem n others') (skipn 2 ns)) then Ok None
            else if negb (forallb (dmem (nodes g)) ns) then Err KeyError
            else rbind (n_matrix N (map (values_of g) ns)) (fun d =>
                 match d with
                 | None => Ok None
                 | Some b =>
                     let zs := so (filter (fun n => negb (eqb n x) && negb (eqb n y)) ns) in
                     Ok (Some [if b then separated x y zs else not_separated x y zs])
                 end)))).

(* common.py:316-376 (ExtendedPartialCorrelationTestLinearRegression.process) *)
Definition regression_test (so : list id -> list id) (N : numerics) : proc := fun g ns _ =>
  rbind (node_at g ns 0) (fun x => rbind (node_at g ns 1) (fun y =>
  if negb (edge_exists g x y) then Ok None
  else rbind (row_of g x) (fun row =>
       if negb (mem y row) then Err KeyError
       else if negb (forallb (dmem (nodes g)) ns) then Err KeyError
       else rbind (n_regress N (values_of g x) (values_of g y) (map (values_of g) (skipn 2 ns))) (fun b =>
            let zs := so (filter (fun n => negb (eqb n x) && negb (eqb n y)) ns) in
            Ok (Some [if b then separated x y zs else not_separated x y zs]))))).

(* multivariate_regression.py:23-67.  As above the in-place write into the stored dict is not modelled. *)
Definition effect_process (N : numerics) : proc := fun g ns _ =>
  rbind (node_at g ns 1) (fun v => rbind (node_at g ns 0) (fun u =>
  rbind (edge_value g u v) (fun ev =>
  if undirected_edge_exists g u v then Ok None
  else rbind (parents_of_node g v) (fun ps =>
       rbind (n_effect N (values_of g u) (map (values_of g) (filter (fun p => negb (eqb p u)) ps)) (values_of g v)) (fun c =>
       match ev with
       | None => Err TypeError
       | Some m => Ok (Some [mkT u v UPDATE_EDGE_DIRECTED (Some (dset m "direct_effect" (MNum c)))])
       end))))).
