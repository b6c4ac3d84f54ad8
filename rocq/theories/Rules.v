(* causy/causal_discovery/constraint/orientation_rules/pc.py and fci.py. *)
From Verif Require Import Base PyDict Graph Actions.
Open Scope string_scope.
Open Scope list_scope.

(* A pipeline step's process method: graph, node ids, unapplied actions (None: not passed).  It returns
   None or a list of results (a single TestResult is a one-element list). *)
Definition proc := graph -> list id -> option (list outcome) -> res outcome.

(* graph.nodes[nodes[i]] *)
Definition node_at (g : graph) (ns : list id) (i : nat) : res id :=
  match nth_error ns i with
  | None => Err IndexError
  | Some n => if dmem (nodes g) n then Ok n else Err KeyError
  end.
(* graph.edges[x].keys() *)
Definition row_of (g : graph) (x : id) : res (list id) :=
  match dget (edges g) x with None => Err KeyError | Some r => Ok (dkeys r) end.

Definition remove_directed (u v : id) (d : meta) : tresult := mkT u v REMOVE_EDGE_DIRECTED (Some d).
Definition between (x y z : id) : meta := [("between", MBetween x y z)].
Definition conflict (x y z : id) : meta := [("orientation_conflict", MBool true); ("between", MBetween x y z)].

(* pc.py:65-74, and any other value: KEEP_FIRST and KEEP_LAST are compared with "is" *)
Inductive cstrategy := KEEP_FIRST | KEEP_LAST | OtherStrategy.

(* pc.py:25-40.  Iterating over None raises TypeError. *)
Definition filter_unapplied_actions (us : option (list outcome)) (u v : id) : res (list tresult) :=
  match us with
  | None => Err TypeError
  | Some l => Ok (flat_map (fun o => match o with
                                     | None => []
                                     | Some rs => filter (fun r => eqb (t_u r) u && eqb (t_v r) v) rs
                                     end) l)
  end.

(* pc.py:43-62 *)
Definition generate_restores (l : list tresult) : list tresult :=
  flat_map (fun a => if taction_eqb (t_act a) REMOVE_EDGE_DIRECTED
                     then [mkT (t_u a) (t_v a) RESTORE_EDGE_DIRECTED (Some [])] else []) l.

(* pc.py:133-136: data None is not a container (TypeError); elements of separatedBy must be nodes *)
Definition separators (acts : list tresult) : res (list id) :=
  rflat (fun a => match t_data a with
                  | None => Err TypeError
                  | Some d => match dget d "separatedBy" with
                              | None => Ok []
                              | Some (MNodes s) => Ok s
                              | Some _ => Err TypeError
                              end
                  end) acts.

(* pc.py:129-213, the body of the loop over potential_zs *)
Definition collider_body (st : cstrategy) (us : option (list outcome)) (acts : list tresult)
           (g : graph) (x y z : id) : res (list tresult) :=
  if negb (dmem (nodes g) z) then Err KeyError else
  rbind (separators acts) (fun seps =>
  if mem z seps then Ok [] else
  rbind (filter_unapplied_actions us x z) (fun ux =>
  rbind (filter_unapplied_actions us y z) (fun uy =>
  let both := [remove_directed z x (between x y z); remove_directed z y (between x y z)] in
  match uy, ux with
  | [], [] => Ok both
  | _, _ =>
      match st with
      | KEEP_FIRST =>
          Ok ((match uy with [] => [] | _ => [mkT z y DO_NOTHING (Some (conflict x y z))] end) ++
              (match ux with [] => [] | _ => [mkT z x DO_NOTHING (Some (conflict x y z))] end))
      | KEEP_LAST => Ok (generate_restores ux ++ generate_restores uy ++ both)
      | OtherStrategy => Ok []
      end
  end))).

(* set(edges[x].keys()).intersection(set(edges[y].keys())); [so] is the iteration order of the set *)
Definition common_keys (so : list id -> list id) (g : graph) (x y : id) : res (list id) :=
  rbind (row_of g x) (fun rx => rbind (row_of g y) (fun ry => Ok (so (filter (fun z => mem z ry) rx)))).

(* pc.py:92-214 (ColliderTest.process) *)
Definition collider_test (st : cstrategy) (so : list id -> list id) : proc := fun g ns us =>
  rbind (node_at g ns 0) (fun x => rbind (node_at g ns 1) (fun y =>
  if undirected_edge_exists g x y then Ok None
  else rbind (common_keys so g x y) (fun zs =>
       rbind (retrieve_edge_history g x y (Some REMOVE_EDGE_UNDIRECTED)) (fun acts =>
       rbind (rflat (collider_body st us acts g x y) zs) (fun rs => Ok (Some rs)))))).

(* pc.py:262-267 and 289-294: an arrow into y from a node that is not adjacent to z *)
Definition would_collide (g : graph) (y z : id) : bool :=
  existsb (fun n => only_directed_edge_exists g n y && negb (edge_exists g n z)) (dkeys (nodes g)).

(* pc.py:254-305, the loop over potential_zs, which returns at the first match *)
Fixpoint non_collider_loop (g : graph) (x y : id) (zs : list id) : res outcome :=
  match zs with
  | [] => Ok None
  | z :: r =>
      if negb (dmem (nodes g) z) then Err KeyError
      else if only_directed_edge_exists g x z && undirected_edge_exists g z y then
        Ok (Some [if would_collide g y z then mkT y z DO_NOTHING (Some (conflict x y z))
                  else remove_directed y z (between x y z)])
      else if only_directed_edge_exists g y z && undirected_edge_exists g z x then
        Ok (Some [if would_collide g x z then mkT x z DO_NOTHING (Some (conflict x y z))
                  else remove_directed x z (between x y z)])
      else non_collider_loop g x y r
  end.
(* pc.py:226-305 (NonColliderTest.process) *)
Definition non_collider_test (so : list id -> list id) : proc := fun g ns _ =>
  rbind (node_at g ns 0) (fun x => rbind (node_at g ns 1) (fun y =>
  if edge_exists g x y then Ok None
  else rbind (common_keys so g x y) (fun zs => non_collider_loop g x y zs))).

(* pc.py:317-363 (FurtherOrientTripleTest.process) *)
Definition triple_body (g : graph) (x y z : id) : list tresult :=
  if negb (edge_exists g y z && edge_exists g x z) then []
  else (if undirected_edge_exists g x y && only_directed_edge_exists g x z && only_directed_edge_exists g z y
        then [remove_directed y x (between x y z)] else []) ++
       (if undirected_edge_exists g x y && only_directed_edge_exists g y z && only_directed_edge_exists g z x
        then [remove_directed x y (between x y z)] else []).
Definition triple_test : proc := fun g ns _ =>
  rbind (node_at g ns 0) (fun x => rbind (node_at g ns 1) (fun y =>
  Ok (Some (flat_map (triple_body g x y) (dkeys (nodes g)))))).

(* nodes adjacent to both (pc.py:391-397 and 459-465), a set *)
Definition shared_adjacent (so : list id -> list id) (g : graph) (y w : id) : list id :=
  so (filter (fun z => edge_exists g y z && edge_exists g z w) (dkeys (nodes g))).

(* pc.py:400-430, one pair from itertools.combinations(potential_zs, 2) *)
Definition quadruple_body (g : graph) (y w : id) (p : list id) : list tresult :=
  match p with
  | [x; z] =>
      (if negb (edge_exists g y w) && only_directed_edge_exists g y z && only_directed_edge_exists g w z
          && undirected_edge_exists g x y && undirected_edge_exists g x w && undirected_edge_exists g x z
       then [remove_directed z x []] else []) ++
      (if negb (edge_exists g y w) && only_directed_edge_exists g y x && only_directed_edge_exists g w x
          && undirected_edge_exists g y z && undirected_edge_exists g w z && undirected_edge_exists g x z
       then [remove_directed x z []] else [])
  | _ => []
  end.
(* pc.py:375-431 (OrientQuadrupleTest.process) *)
Definition quadruple_test (so : list id -> list id) : proc := fun g ns _ =>
  rbind (node_at g ns 0) (fun y => rbind (node_at g ns 1) (fun w =>
  Ok (Some (flat_map (quadruple_body g y w) (combos 2 (shared_adjacent so g y w)))))).

(* pc.py:468-530, one pair *)
Definition further_quadruple_body (g : graph) (x w : id) (p : list id) : list tresult :=
  match p with
  | [y; z] =>
      if negb (edge_exists g y z) && undirected_edge_exists g x z && undirected_edge_exists g x w
         && undirected_edge_exists g x y && only_directed_edge_exists g y w && only_directed_edge_exists g w z
      then [remove_directed z x []]
      else if negb (edge_exists g z y) && undirected_edge_exists g x y && undirected_edge_exists g x w
         && undirected_edge_exists g x z && only_directed_edge_exists g z w && only_directed_edge_exists g w y
      then [remove_directed y x []]
      else if negb (edge_exists g y z) && undirected_edge_exists g w z && undirected_edge_exists g x w
         && undirected_edge_exists g w y && only_directed_edge_exists g y x && only_directed_edge_exists g x z
      then [remove_directed z w []]
      else if negb (edge_exists g z y) && undirected_edge_exists g w y && undirected_edge_exists g x w
         && undirected_edge_exists g w z && only_directed_edge_exists g z x && only_directed_edge_exists g x y
      then [remove_directed y w []]
      else []
  | _ => []
  end.
(* pc.py:443-531 (FurtherOrientQuadrupleTest.process) *)
Definition further_quadruple_test (so : list id -> list id) : proc := fun g ns _ =>
  rbind (node_at g ns 0) (fun x => rbind (node_at g ns 1) (fun w =>
  Ok (Some (flat_map (further_quadruple_body g x w) (combos 2 (shared_adjacent so g x w)))))).

(* fci.py:22-88 (ColliderRuleFCI.process) *)
Definition collider_rule_fci (so : list id -> list id) : proc := fun g ns _ =>
  rbind (node_at g ns 0) (fun x => rbind (node_at g ns 1) (fun y =>
  if undirected_edge_exists g x y then Ok None
  else rbind (common_keys so g x y) (fun zs =>
       rbind (retrieve_edge_history g x y (Some REMOVE_EDGE_UNDIRECTED)) (fun acts =>
       rbind (rflat (fun z =>
         if negb (dmem (nodes g) z) then Err KeyError else
         rbind (separators acts) (fun seps =>
         if mem z seps then Ok []
         else Ok [mkT x z UPDATE_EDGE_DIRECTED (Some [("edge_type", MNone)]);
                  mkT y z UPDATE_EDGE_DIRECTED (Some [("edge_type", MNone)])])) zs) (fun rs => Ok (Some rs)))))).
