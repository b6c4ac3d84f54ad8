(* Property C101 (data files).  Statements only. *)
From Coq Require Import Ascii.
From Verif Require Import Base PyDict PyDictFacts Graph Actions Generators IndepTests Pipeline Construct ConstructSpec ConstructFacts JsonText JsonTextSpec PropsJsonText JsonGrammarSpec JsonGrammarFacts DataFile DataFileSpec DataFileFacts.
Open Scope string_scope.
Open Scope list_scope.
Open Scope Z_scope.

(* json.loads accepts exactly the JSON texts, whoever wrote them and however they are laid out, and returns what they denote *)
Theorem C101_reads_exactly : forall F (read_float : ustr -> F) t j, loads read_float t = Ok j <-> json_text read_float t j.
Proof. intros F rf t j. split; [apply loads_grammar|apply text_reads]. Qed.
Print Assumptions C101_reads_exactly.
(* a text denotes at most one value, and any other text is a ValueError *)
Theorem C101_rejects : forall F (read_float : ustr -> F) t, (forall j j', json_text read_float t j -> json_text read_float t j' -> j = j') /\
  (loads read_float t = Err ValueError <-> ~ exists j, json_text read_float t j).
Proof.
  intros F rf t. split; [intros j j' A B; apply text_reads in A, B; congruence|]. split.
  - intros E (j & H). apply text_reads in H. congruence.
  - intros N. destruct (C74_any_text F rf t) as [(j & E)|E]; [|exact E]. destruct N. exists j. apply loads_grammar. exact E.
Qed.
Print Assumptions C101_rejects.
(* the same table as a list of objects, as lines of objects and as an object of columns *)
Theorem C101_same_graph : forall read_float of_int T n rows cols ta tb tc, is_named_table T n -> (0 < n)%nat -> rows_spell of_int T n rows -> columns_spell of_int T cols ->
  json_text read_float ta (JList (map JDict rows)) -> jsonl_text read_float tb rows -> json_text read_float tc (JDict cols) ->
  exists g h, graph_from_stream of_int (json_stream read_float ta) = Ok g /\ graph_from_stream of_int (jsonl_stream read_float tb) = Ok g /\ graph_from_stream of_int (json_stream read_float tc) = Ok h /\
    holds_only (encoded T) g /\ holds_only (encoded T) h /\ dkeys (nodes g) = map utf8 (map fst (hd [] rows)) /\ sorted_names (dkeys (nodes h)).
Proof.
  intros rf oi T n rows cols ta tb tc HT Hn HR HC A B C. destruct (rows_graph oi T n rows HT Hn HR) as (g & Eg & Hg & Og). destruct (columns_graph oi T n cols HT HC) as (h & Eh & Hh & Oh). exists g, h.
  unfold json_stream. rewrite (text_reads rf _ _ A), (text_reads rf _ _ C), (jsonl_rows rf _ _ B). rewrite map_map. auto 10.
Qed.
Print Assumptions C101_same_graph.
(* a file that is no JSON text, or a text of a single number, string or constant *)
Theorem C101_other_file : forall read_float of_int t, (forall l, ~ json_text read_float t (JList l)) -> (forall d, ~ json_text read_float t (JDict d)) ->
  graph_from_stream of_int (json_stream read_float t) = Err ValueError.
Proof.
  intros rf oi t L D. unfold json_stream. destruct (C74_any_text Z rf t) as [(j & E)|E]; rewrite E; [|reflexivity]. apply loads_grammar in E.
  destruct j as [|b|z|f|s|l|d]; try reflexivity; [destruct (L l E)|destruct (D d E)].
Qed.
Print Assumptions C101_other_file.

Lemma dget_single {A} k (v : A) : dget [(k : ustr, v)] k = Some v.
Proof. apply NoDup_dget; [repeat constructor; intros []|left; reflexivity]. Qed.
Lemma rmap_in {A B} (f : A -> res B) l m : rmap f l = Ok m -> forall a, In a l -> exists b, f a = Ok b /\ In b m.
Proof.
  revert m. induction l as [|x l IH]; intros m H a Ha; [destruct Ha|]. cbn [rmap] in H. destruct (f x) as [y|] eqn:E; [|discriminate]. cbn [rbind] in H. destruct (rmap f l) as [ys|] eqn:Q; [|discriminate]. cbn [rbind] in H. injection H as <-.
  destruct Ha as [<-|Ha]; [exists y; split; [exact E|left; reflexivity]|]. destruct (IH ys eq_refl a Ha) as (b & Hb & Hi). exists b. split; [exact Hb|right; exact Hi].
Qed.
(* an object is accepted only if every column is a list of numbers, *)
Lemma added l : forall g g', add_columns l g = (g', Ok tt) -> forall k vs, In (k, vs) l -> exists t, tensor vs = Some t.
Proof.
  induction l as [|[k0 v0] l IH]; intros g g' H k vs I; [destruct I|]. cbn [add_columns] in H. unfold bind, add_node in H. destruct (dmem (nodes g) k0); [discriminate|]. destruct (tensor v0) as [t|] eqn:T; [|discriminate].
  destruct I as [I|I]; [injection I as <- <-; eauto|exact (IH _ _ H k vs I)].
Qed.
Lemma tensor_cells vs : forall t, tensor vs = Some t -> forall c, In c vs -> exists x, c = Some x.
Proof.
  induction vs as [|c vs IH]; intros t H a Ha; [destruct Ha|]. cbn [tensor] in H. destruct c as [c|]; [|discriminate]. destruct (tensor vs) as [u|]; [|discriminate]. destruct Ha as [<-|Ha]; [eauto|exact (IH u eq_refl a Ha)].
Qed.
Lemma cells_numbers oi l : (forall c, In c (map (cell_of oi) l) -> exists x, c = Some x) -> exists xs, Forall2 (number oi) l xs.
Proof.
  induction l as [|j l IH]; intros H; [exists []; constructor|]. destruct IH as (xs & F); [intros c Hc; apply H; right; exact Hc|]. destruct (H _ (or_introl eq_refl)) as (x & E). exists (x :: xs). constructor; [apply cell_number; exact E|exact F].
Qed.
Theorem C101_columns_needed : forall read_float of_int t cols g, json_text read_float t (JDict cols) -> graph_from_stream of_int (json_stream read_float t) = Ok g ->
  forall k v, In (k, v) cols -> exists l xs, v = JList l /\ Forall2 (number of_int) l xs.
Proof.
  intros rf oi t cols g T G k v I. unfold json_stream in G. rewrite (text_reads rf _ _ T) in G. unfold graph_from_stream in G. cbn [read_stream] in G. rewrite dget_single in G. unfold graph_from_dict, new_graph in G.
  destruct (add_columns (sort_items (columns_of oi cols)) empty_graph) as [g' [[]|e]] eqn:A; [|discriminate].
  destruct (added _ _ _ A (utf8 k) (column_of oi v)) as (x & X). { apply (Permutation_in _ (Permutation_sym (sort_perm (columns_of oi cols)))). apply in_map_iff. exists (k, v). auto. }
  assert (C := tensor_cells _ _ X). destruct v as [|b|z|f|s|l|d]; cbn [column_of] in C; try (destruct (C None (or_introl eq_refl)); discriminate). exists l. destruct (cells_numbers oi l C) as (xs & F). eauto.
Qed.
Print Assumptions C101_columns_needed.
(* and a list only if every row is an object with a number for every key of the first row; *)
Lemma read_rows oi keys : keys <> [] -> forall rest, (forall r, In (JDict r) rest -> ~ In (lit "_dict") (map fst r)) ->
  (forall v, read_stream oi (Some keys) (map Ok rest) <> inr v) /\
  forall l, read_stream oi (Some keys) (map Ok rest) = inl (Ok l) -> exists ds, rest = map JDict ds /\ l = map (row_of oi) ds /\ forall d k, In d ds -> In k keys -> dmem d k = true.
Proof.
  intros Ne. induction rest as [|j rest IH]; intros Nd; [split; [discriminate|]; intros l H; injection H as <-; exists []; split; [reflexivity|]; split; [reflexivity|]; intros d k []|].
  destruct (IH (fun r Hr => Nd r (or_intror Hr))) as [I1 I2]. cbn [map read_stream].
  assert (Other : forall x : res (list row) + jval Z, (match keys with [] => x | _ :: _ => inl (Err TypeError) end) = inl (Err TypeError)) by (intros x; destruct keys; [congruence|reflexivity]).
  destruct j as [|b|z|f|s|l0|d]; try (rewrite Other; split; [discriminate|discriminate]).
  destruct (dget d (lit "_dict")) as [x|] eqn:D. { exfalso. apply dget_In in D. apply (Nd d (or_introl eq_refl)). apply (in_map fst) in D. exact D. }
  destruct (forallb (dmem d) keys) eqn:K; [|split; discriminate]. destruct (read_stream oi (Some keys) (map Ok rest)) as [[l|e]|v] eqn:R; [|split; discriminate|destruct (I1 v eq_refl)].
  split; [discriminate|]. intros l' H. injection H as <-. destruct (I2 l eq_refl) as (ds & -> & -> & Kd). exists (d :: ds). split; [reflexivity|]. split; [reflexivity|]. intros d' k [<-|Hd] Hk; [rewrite forallb_forall in K; exact (K k Hk)|exact (Kd d' k Hd Hk)].
Qed.
Theorem C101_rows_needed : forall read_float of_int t r0 rest g, json_text read_float t (JList (JDict r0 :: rest)) -> r0 <> [] ->
  (forall r, In (JDict r) (JDict r0 :: rest) -> NoDup (map fst r) /\ ~ In (lit "_dict") (map fst r) /\ forall k, In k (map fst r) -> Forall code_point k) ->
  graph_from_stream of_int (json_stream read_float t) = Ok g ->
  forall j, In j (JDict r0 :: rest) -> exists r, j = JDict r /\ forall k, In k (map fst r0) -> exists v x, In (k, v) r /\ number of_int v x.
Proof.
  intros rf oi t r0 rest g T Ne Nd G. unfold json_stream in G. rewrite (text_reads rf _ _ T) in G. unfold graph_from_stream in G. cbn [map read_stream] in G.
  destruct (dget r0 (lit "_dict")) as [x|] eqn:D0. { exfalso. apply dget_In in D0. apply (in_map fst) in D0. exact (proj1 (proj2 (Nd r0 (or_introl eq_refl))) D0). }
  assert (Nk : map fst r0 <> []) by (destruct r0; [congruence|discriminate]).
  destruct (forallb (dmem r0) (map fst r0)) eqn:K0; [|discriminate]. destruct (read_rows oi (map fst r0) Nk rest (fun r Hr => proj1 (proj2 (Nd r (or_intror Hr))))) as [I1 I2].
  destruct (read_stream oi (Some (map fst r0)) (map Ok rest)) as [[l|e]|v]; [|discriminate|destruct (I1 v eq_refl)]. destruct (I2 l eq_refl) as (ds & -> & -> & Kd). clear I1 I2.
  change (row_of oi r0 :: map (row_of oi) ds) with (map (row_of oi) (r0 :: ds)) in G. unfold graph_from_list in G. cbn [map] in G.
  change (row_of oi r0 :: map (row_of oi) ds) with (map (row_of oi) (r0 :: ds)) in G. destruct (columns (dkeys (row_of oi r0)) (map (row_of oi) (r0 :: ds))) as [cs|] eqn:C; [|discriminate]. cbn [rbind] in G.
  unfold new_graph in G. destruct (add_columns cs empty_graph) as [g' [[]|e]] eqn:A; [|discriminate]. clear G.
  intros j Hj. change (In j (map JDict (r0 :: ds))) in Hj. apply in_map_iff in Hj. destruct Hj as (d & <- & Hd). exists d. split; [reflexivity|]. intros k Hk.
  assert (Hdk : In k (map fst d)). { apply dmem_In. destruct Hd as [<-|Hd]; [rewrite forallb_forall in K0; exact (K0 k Hk)|exact (Kd d k Hd Hk)]. }
  apply in_map_iff in Hdk. destruct Hdk as ((k' & v) & E & Hv). cbn [fst] in E. subst k'.
  destruct (rmap_in _ _ _ C (utf8 k)) as (kc & Hc & Hin). { unfold dkeys, row_of. rewrite map_map. cbn [fst]. rewrite <- (map_map fst utf8). apply in_map. exact Hk. }
  destruct (rmap (row_get (utf8 k)) (map (row_of oi) (r0 :: ds))) as [c|] eqn:Q; [|discriminate]. cbn [rbind] in Hc. injection Hc as <-. destruct (added _ _ _ A _ _ Hin) as (u & U).
  destruct (rmap_in _ _ _ Q (row_of oi d)) as (ce & Hce & Hci); [apply in_map; exact Hd|]. unfold row_get in Hce.
  assert (Hj : In (JDict d) (JDict r0 :: map JDict ds)) by (change (In (JDict d) (map JDict (r0 :: ds))); apply in_map; exact Hd). destruct (Nd d Hj) as (N1 & _ & N3).
  assert (Dg : dget (row_of oi d) (utf8 k) = Some (cell_of oi v)).
  { apply NoDup_dget; [unfold dkeys, row_of; rewrite map_map; cbn [fst]; rewrite <- (map_map fst utf8); apply utf8_NoDup; [exact N1|exact N3]|]. apply in_map_iff. exists (k, v). auto. }
  rewrite Dg in Hce. injection Hce as <-. destruct (tensor_cells _ _ U _ Hci) as (x & X). exists v, x. split; [exact Hv|]. apply cell_number. exact X.
Qed.
Print Assumptions C101_rows_needed.
(* a row with the key "_dict" replaces the table by its value, whatever rows came before *)
Theorem C101_dict_row_refuted : forall of_int rows d v rest, let r0 := hd d rows in
  (forall r k, In r rows -> In k (map fst r0) -> dmem r k = true) -> (forall r, In r rows -> dget r (lit "_dict") = None) -> dget d (lit "_dict") = Some v ->
  graph_from_stream of_int (map Ok (map JDict rows) ++ Ok (JDict d) :: rest) = graph_from_stream of_int [Ok (JDict [(lit "_dict", v)])].
Proof.
  intros oi rows d v rest r0 K N D. unfold graph_from_stream. assert (R : read_stream oi None [Ok (JDict [(lit "_dict", v)])] = inr v) by (cbn [read_stream]; rewrite dget_single; reflexivity). rewrite R.
  assert (G : forall keys rows, (forall r k, In r rows -> In k keys -> dmem r k = true) -> (forall r, In r rows -> dget r (lit "_dict") = None) -> read_stream oi (Some keys) (map Ok (map JDict rows) ++ Ok (JDict d) :: rest) = inr v).
  { clear - D. intros keys rows. induction rows as [|r rows IH]; intros K N; cbn [map app read_stream]; [rewrite D; reflexivity|]. rewrite (N r (or_introl eq_refl)).
    assert (B : forallb (dmem r) keys = true) by (apply forallb_forall; intros k Hk; exact (K r k (or_introl eq_refl) Hk)). rewrite B, IH; [reflexivity|intros r' k Hr; apply K; right; exact Hr|intros r' Hr; apply N; right; exact Hr]. }
  destruct rows as [|r rows]; cbn [map app read_stream]; [rewrite D; reflexivity|]. rewrite (N r (or_introl eq_refl)).
  assert (B : forallb (dmem r) (map fst r) = true) by (apply forallb_forall; intros k Hk; exact (K r k (or_introl eq_refl) Hk)). rewrite B, G; [reflexivity|intros r' k Hr; apply K; right; exact Hr|intros r' Hr; apply N; right; exact Hr].
Qed.
Print Assumptions C101_dict_row_refuted.

(* the text of a demonstration float is read as the number of its characters *)
Definition len_float (t : ustr) : Z := Z.of_nat (List.length t).
Definition t_list : ustr := lit "[ {""a"": 1, ""b"": 2.50}," ++ [10] ++ lit "  {""b"":3e0,""a"":-4} ]".
Definition t_lines : ustr := lit "{""a"": 1, ""b"": 2.50}" ++ [10] ++ lit "{""b"":3e0,""a"":-4}".
Definition t_columns : ustr := lit "{""b"": [0, 2.50 , 3e0], ""a"": [1,-4], ""b"": [2.50, 3e0]}".
Definition demo_rows : list (list (ustr * jval Z)) := [[(lit "a", JInt 1); (lit "b", JFloat 4)]; [(lit "b", JFloat 3); (lit "a", JInt (-4))]].
Definition demo_cols : list (ustr * jval Z) := [(lit "b", JList [JFloat 4; JFloat 3]); (lit "a", JList [JInt 1; JInt (-4)])].
Definition demo_table : named_table := [(lit "a", [1; -4]); (lit "b", [4; 3])].
Example C101_nonvacuous : is_named_table demo_table 2 /\ rows_spell Some demo_table 2 demo_rows /\ columns_spell Some demo_table demo_cols /\
  json_text len_float t_list (JList (map JDict demo_rows)) /\ jsonl_text len_float t_lines demo_rows /\ json_text len_float t_columns (JDict demo_cols) /\
  (exists g, graph_from_stream Some (jsonl_stream len_float t_lines) = Ok g /\ nodes g = [("a", mkNode "a" [1; -4]); ("b", mkNode "b" [4; 3])]).
Proof.
  assert (P : Permutation [lit "b"; lit "a"] [lit "a"; lit "b"]) by apply perm_swap.
  split; [|split; [|split; [|split; [|split; [|split]]]]].
  - split; [repeat constructor; cbn; intuition discriminate|]. split; [intros k vs [E|[E|[]]]; injection E as <- <-; reflexivity|]. split; [|cbn; intuition discriminate].
    intros k [<-|[<-|[]]]; repeat constructor; cbn; lia.
  - split; [reflexivity|]. intros [|[|i]] r E; cbn in E; [injection E as <-|injection E as <-|destruct i; discriminate].
    + split; [reflexivity|]. intros k vs [E|[E|[]]]; injection E as <- <-; do 2 eexists; (split; [cbn; eauto|]); (split; [reflexivity|]); constructor. reflexivity.
    + split; [exact P|]. intros k vs [E|[E|[]]]; injection E as <- <-; do 2 eexists; (split; [cbn; eauto|]); (split; [reflexivity|]); constructor. reflexivity.
  - split; [exact P|]. intros k vs [E|[E|[]]]; injection E as <- <-; eexists; (split; [cbn; eauto|]); repeat constructor.
  - apply C101_reads_exactly. vm_compute. reflexivity.
  - exists [lit "{""a"": 1, ""b"": 2.50}"; lit "{""b"":3e0,""a"":-4}"]. split; [|right; reflexivity].
    constructor; [|constructor; [|constructor]]; (split; [cbn; intuition discriminate|apply C101_reads_exactly; vm_compute; reflexivity]).
  - apply C101_reads_exactly. vm_compute. reflexivity.
  - eexists. split; [vm_compute; reflexivity|reflexivity].
Qed.

(* but a blank line in a file of lines, for instance at its end, is an error although every other line is a row of the table *)
Theorem C101_blank_line_refuted : exists of_int T n rows t, is_named_table T n /\ (0 < n)%nat /\ rows_spell of_int T n rows /\ jsonl_text len_float t rows /\
  graph_from_stream of_int (jsonl_stream len_float (t ++ [10; 10])) = Err ValueError.
Proof.
  exists Some, demo_table, 2%nat, demo_rows, t_lines. destruct C101_nonvacuous as (A & B & _ & _ & C & _). split; [exact A|]. split; [lia|]. split; [exact B|]. split; [exact C|]. vm_compute. reflexivity.
Qed.
Print Assumptions C101_blank_line_refuted.
(* and a file without rows is a TypeError, while one without columns is an empty graph *)
Theorem C101_empty_refuted : json_text len_float (lit "[]") (JList []) /\ graph_from_stream Some (json_stream len_float (lit "[]")) = Err TypeError /\
  jsonl_text len_float [] [] /\ graph_from_stream Some (jsonl_stream len_float []) = Err TypeError /\ graph_from_stream Some (json_stream len_float (lit "{}")) = Ok empty_graph.
Proof.
  split; [apply C101_reads_exactly; vm_compute; reflexivity|]. split; [vm_compute; reflexivity|]. split; [exists []; split; [constructor|left; reflexivity]|]. split; vm_compute; reflexivity.
Qed.
Print Assumptions C101_empty_refuted.
Example C101_needed_nonvacuous :
  json_text len_float (lit "{""a"": [1, true]}") (JDict [(lit "a", JList [JInt 1; JBool true])]) /\ (exists g, graph_from_stream Some (json_stream len_float (lit "{""a"": [1, true]}")) = Ok g) /\
  json_text len_float (lit "[{""a"": 1}, {""b"": null, ""a"": 2}]") (JList [JDict [(lit "a", JInt 1)]; JDict [(lit "b", JNull); (lit "a", JInt 2)]]) /\
  (exists g, graph_from_stream Some (json_stream len_float (lit "[{""a"": 1}, {""b"": null, ""a"": 2}]")) = Ok g) /\
  exists g, graph_from_stream Some (json_stream len_float (lit "[{""a"": 1}, {""a"": 2, ""_dict"": {""c"": [7]}}, 5]")) = Ok g /\ dkeys (nodes g) = ["c"].
Proof.
  split; [apply C101_reads_exactly; vm_compute; reflexivity|]. split; [eexists; vm_compute; reflexivity|]. split; [apply C101_reads_exactly; vm_compute; reflexivity|]. split; [eexists; vm_compute; reflexivity|].
  eexists. split; vm_compute; reflexivity.
Qed.
