(* Properties C41, C42 (building the start graph).  Statements only. *)
From Verif Require Import Base PyDict Graph GraphSpec Actions ActionSpec Construct ConstructSpec ConstructFacts.
Open Scope string_scope.
Open Scope list_scope.

(* C41: dict of columns, list of rows, row loader, column loader *)
Theorem C41_same_table : forall T n d, is_table T n -> data_holds T n d ->
  exists g, create_graph_from_data d = Ok g /\ holds_only T g /\ node_order d (dkeys (nodes g)).
Proof. exact c41_main. Qed.
Print Assumptions C41_same_table.
(* a row without one of the columns of the first row is rejected *)
Theorem C41_ragged_rejected : forall r0 rest k r, In k (dkeys r0) -> In r (r0 :: rest) -> dget r k = None ->
  create_graph_from_data (DList (r0 :: rest)) = Err KeyError.
Proof. exact ragged_rejected. Qed.
Print Assumptions C41_ragged_rejected.
(* but a column that the first row lacks is dropped without an error *)
Theorem C41_extra_columns_refuted : exists r0 r1 g, dget r1 "b" <> None /\
  create_graph_from_data (DList [r0; r1]) = Ok g /\ dmem (nodes g) "b" = false.
Proof.
  exists [("a", Some 1%Z)], [("a", Some 2%Z); ("b", Some 3%Z)]. eexists. split; [discriminate|]. split; [vm_compute; reflexivity|reflexivity].
Qed.
Print Assumptions C41_extra_columns_refuted.

(* a loader that yields rows is read like the list of these rows, errors included *)
Theorem C41_loader_rows : forall r0 rest, (forall r, In r (r0 :: rest) -> dget r "_dict" = None) ->
  create_graph_from_data (DLoader (map Row (r0 :: rest))) = create_graph_from_data (DList (r0 :: rest)).
Proof. exact loader_rows. Qed.
Print Assumptions C41_loader_rows.
(* a table of columns ends the loading: what was yielded before (if it has the first row's columns) and
   whatever comes after is ignored *)
Theorem C41_loader_columns : forall rows cols rest, (forall r, In r rows -> dget r "_dict" = None) ->
  (forall r0 r k, hd_error rows = Some r0 -> In r rows -> In k (dkeys r0) -> dget r k <> None) ->
  create_graph_from_data (DLoader (map Row rows ++ DictRow cols :: rest)) = create_graph_from_data (DDict cols).
Proof. exact loader_dict. Qed.
Print Assumptions C41_loader_columns.
(* the contents of a JSON file: a list of rows, a table of columns, or something that is rejected *)
Theorem C41_json_file : forall f, let graph_of := rbind (json_load f) (fun l => create_graph_from_data (DLoader l)) in
  (forall r0 rest, f = JList (r0 :: rest) -> (forall r, In r (r0 :: rest) -> dget r "_dict" = None) -> graph_of = create_graph_from_data (DList (r0 :: rest))) /\
  (forall cols, f = JDict cols -> graph_of = create_graph_from_data (DDict cols)) /\
  (f = JOther -> graph_of = Err ValueError).
Proof.
  intros f graph_of. subst graph_of. split; [|split].
  - intros r0 rest -> H. exact (C41_loader_rows r0 rest H).
  - intros cols ->. exact (C41_loader_columns [] cols [] (fun r (H : In r []) => match H with end) (fun r0 r k _ (H : In r []) => match H with end)).
  - intros ->. reflexivity.
Qed.
Print Assumptions C41_json_file.
(* the lines of a JSONL file are rows, and all of them count *)
Theorem C41_jsonl_file : forall r0 rest, (forall r, In r (r0 :: rest) -> dget r "_dict" = None) ->
  create_graph_from_data (DLoader (jsonl_load (r0 :: rest))) = create_graph_from_data (DList (r0 :: rest)).
Proof. exact C41_loader_rows. Qed.
Print Assumptions C41_jsonl_file.
Example C41_json_nonvacuous : exists g, rbind (json_load (JList [[("a", Some 1%Z)]; [("a", Some 2%Z)]])) (fun l => create_graph_from_data (DLoader l)) = Ok g /\ dkeys (nodes g) = ["a"].
Proof. eexists. split; [vm_compute; reflexivity|reflexivity]. Qed.
Example C41_loader_nonvacuous : exists g, create_graph_from_data (DLoader (map Row [[("a", Some 1%Z)]; [("a", Some 2%Z); ("b", None)]] ++ [DictRow [("c", [Some 5%Z])]; Row []])) = Ok g /\
  dkeys (nodes g) = ["c"] /\ create_graph_from_data (DLoader (map Row [[("a", Some 1%Z)]; [("b", Some 2%Z)]])) = Err KeyError.
Proof. eexists. split; [vm_compute; reflexivity|]. split; reflexivity. Qed.

Definition tab : table := [("x", [1; 2]%Z); ("a", [3; 4]%Z); ("m", [5; 6]%Z)].
Definition tab_cols : dict string (list cell) := [("m", [Some 5; Some 6]%Z); ("x", [Some 1; Some 2]%Z); ("a", [Some 3; Some 4]%Z)].
Definition tab_rows : list row := [[("a", Some 3%Z); ("x", Some 1%Z); ("m", Some 5%Z)]; [("x", Some 2%Z); ("m", Some 6%Z); ("a", Some 4%Z); ("q", None)]].
Lemma tab_ok : is_table tab 2.
Proof.
  split.
  - cbn. repeat constructor; cbn; intuition discriminate.
  - cbn. intros k vs [E|[E|[E|[]]]]; injection E as <- <-; reflexivity.
Qed.
Example C41_nonvacuous : is_table tab 2 /\ data_holds tab 2 (DDict tab_cols) /\ data_holds tab 2 (DList tab_rows) /\
  data_holds tab 2 (DLoader (jsonl_load tab_rows)) /\ (exists l, json_load (JDict tab_cols) = Ok l /\ data_holds tab 2 (DLoader l)).
Proof.
  assert (P1 : Permutation tab_cols (map (fun p => (fst p, map Some (snd p))) tab)).
  { apply (Permutation_cons_append [_; _]). }
  assert (RH : rows_hold tab tab_rows).
  { intros [|[|i]] r E k vs H; cbn in E; [injection E as <-|injection E as <-|destruct i; discriminate];
      destruct H as [X|[X|[X|[]]]]; injection X as <- <-; eexists; split; reflexivity. }
  assert (P2 : Permutation ["a"; "x"; "m"] ["x"; "a"; "m"]) by apply perm_swap.
  split; [exact tab_ok|]. split; [exact P1|]. split.
  { split; [lia|]. split; [reflexivity|]. split; [exact RH|]. do 2 eexists; split; [reflexivity|exact P2]. }
  split.
  { split; [lia|]. exists tab_rows. split; [reflexivity|]. split; [reflexivity|]. split; [exact RH|]. split.
    - intros r [<-|[<-|[]]]; reflexivity.
    - do 2 eexists; split; [reflexivity|exact P2]. }
  eexists; split; [reflexivity|exact P1].
Qed.

(* C42 *)
Theorem C42_complete : forall g, reached g -> exists g', create_all_possible_edges g = (g', Ok tt) /\ nodes g' = nodes g /\ ahist g' = ahist g /\
  (forall u v, directed_edge_exists g' u v = true <-> In u (dkeys (nodes g)) /\ In v (dkeys (nodes g)) /\ u <> v) /\
  (forall u v, In u (dkeys (nodes g)) -> In v (dkeys (nodes g)) -> u <> v -> entry g' u v = Some (mkEdge u v TUndirected (Some []) false)) /\
  (forall u v, ~ (In u (dkeys (nodes g)) /\ In v (dkeys (nodes g)) /\ u <> v) -> entry g' u v = None) /\
  (forall p, history g' p = history g p).
Proof. exact c42_props. Qed.
Print Assumptions C42_complete.
(* from a table to the start graph of a run *)
Theorem C42_start : forall T n d, is_table T n -> data_holds T n d -> exists g, start_graph d = Ok g /\
  (forall k nd, dget (nodes g) k = Some nd <-> exists vs, In (k, vs) T /\ nd = mkNode k vs) /\ node_order d (dkeys (nodes g)) /\
  (forall u v, directed_edge_exists g u v = true <-> In u (map fst T) /\ In v (map fst T) /\ u <> v) /\
  (forall u v, In u (map fst T) -> In v (map fst T) -> u <> v -> entry g u v = Some (mkEdge u v TUndirected (Some []) false)) /\
  (forall p, history g p = []) /\ ahist g = [].
Proof. exact start_ok. Qed.
Print Assumptions C42_start.
Example C42_nonvacuous : exists g, start_graph (DDict tab_cols) = Ok g /\ dkeys (nodes g) = ["a"; "m"; "x"] /\
  undirected_edge_exists g "a" "x" = true /\ undirected_edge_exists g "m" "x" = true.
Proof. eexists; split; [vm_compute; reflexivity|]. split; [reflexivity|]. split; reflexivity. Qed.
