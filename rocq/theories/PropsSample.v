(* Property theorems about the sample generators (causy/sample_generator.py). *)
From Verif Require Import Base PyDict PyDictFacts Graph ActionSpec Dag DagFacts PathSpec SampleGen SampleSpec SampleFacts SeriesFacts GraphCheck.
Open Scope list_scope.

(* C43: the generator of an acyclic edge list returns; every variable equals its noise plus the weighted sum
   of its sources, row by row *)
Theorem C43_iid_structural : forall (T : Type) (add mul : T -> T -> T) (rnd : nat -> T) fuel so (es : list (sedge T)) size,
  set_order so -> acyclic (cause es) -> 2 * List.length es <= fuel ->
  exists vs d, iid_variables fuel so es = Ok vs /\ generate_data add mul rnd es vs size = Ok d /\
    NoDup (dkeys d) /\ (forall k, In k (dkeys d) <-> mentioned es k) /\ (forall k c, dget d k = Some c -> List.length c = size) /\
    forall j k i, nth_error (dkeys d) j = Some k -> i < size -> structural add mul es d i k (rnd (j * size + i)).
Proof.
  intros T add mul rnd fuel so es size SO AC F. destruct (iid_variables_end es fuel so SO AC F) as [vs Hv]. assert (TP := iid_variables_ok es fuel so vs SO Hv).
  destruct (generate_data_ok add mul rnd es vs size TP) as (d & R & K & L & S). destruct TP as (ND & IN & _). exists vs, d. rewrite K. repeat (split; [assumption|]). exact S.
Qed.
Print Assumptions C43_iid_structural.
Open Scope string_scope.
Open Scope list_scope.
Definition es_abc : list (sedge Z) := [mkSE "B" 0%Z "C" 7%Z; mkSE "A" 0%Z "B" 5%Z; mkSE "A" 0%Z "C" 2%Z].
Lemma es_abc_acyclic : acyclic (cause es_abc).
Proof.
  apply (before_acyclic es_abc ["A"; "B"; "C"]); [repeat constructor; cbn; intuition discriminate|].
  intros x y (e & He & <- & <-). destruct He as [<-|[<-|[<-|[]]]]; cbn; [exists ["A"], [], []|exists [], [], ["C"]|exists [], ["B"], []]; reflexivity.
Qed.
Example C43_nonvacuous : set_order dedup /\ acyclic (cause es_abc) /\ 2 * List.length es_abc <= 6 /\
  generate_data Z.add Z.mul Z.of_nat es_abc ["A"; "B"; "C"] 2 = Ok [("A", [0; 1]%Z); ("B", [2; 8]%Z); ("C", [18; 63]%Z)].
Proof. split; [exact dedup_order|]. split; [exact es_abc_acyclic|]. split; [cbn; lia|]. vm_compute. reflexivity. Qed.

(* C44: the order is valid when the sort returns, the sort returns for every acyclic edge list, and it does not
   return for any cyclic one, no matter how long it runs.  The order does not depend on the iteration order
   of the set of variables. *)
Theorem C44_topologic_sort : forall (T : Type) (es : list (sedge T)) so, set_order so ->
  (forall fuel l, iid_variables fuel so es = Ok l -> NoDup l /\ (forall x, In x l <-> mentioned es x) /\ (forall x y, cause es x y -> before l x y)) /\
  (acyclic (cause es) -> forall fuel, 2 * List.length es <= fuel -> exists l, iid_variables fuel so es = Ok l) /\
  (~ acyclic (cause es) -> forall fuel, iid_variables fuel so es = Err OutOfFuel) /\
  (forall so' fuel, set_order so' -> iid_variables fuel so' es = iid_variables fuel so es).
Proof.
  intros T es so SO. split; [intros fuel l; apply iid_variables_ok; exact SO|]. split; [intros AC fuel; apply iid_variables_end; assumption|].
  split; [intros C fuel; apply iid_variables_cyclic; assumption|]. intros so' fuel SO'. apply iid_variables_order; assumption.
Qed.
Print Assumptions C44_topologic_sort.
Definition es_cycle : list (sedge Z) := [mkSE "A" 0%Z "B" 1%Z; mkSE "B" 0%Z "A" 1%Z].
Example C44_nonvacuous : iid_variables 6 dedup es_abc = Ok ["A"; "B"; "C"] /\ ~ acyclic (cause es_cycle) /\ iid_variables 50 dedup es_cycle = Err OutOfFuel.
Proof.
  split; [vm_compute; reflexivity|]. split; [|vm_compute; reflexivity]. intros AC. apply (AC "A"). exists "B". split; [eexists; split; [left; reflexivity|split; reflexivity]|].
  econstructor; [|constructor]. eexists; split; [right; left; reflexivity|split; reflexivity].
Qed.

(* C54: what generate returns *)
Theorem C54_iid_generate : forall add mul rnd fuel so (es : list (sedge Z)) size, set_order so -> acyclic (cause es) -> 2 * List.length es <= fuel ->
  exists d g, iid_generate add mul rnd fuel so es size = Ok (d, g) /\ reached g /\ dkeys (nodes g) = dkeys d /\
    (forall k, dmem (nodes g) k = true <-> mentioned es k) /\
    (forall k, mentioned es k -> exists c, dget d k = Some c /\ List.length c = size /\ dget (nodes g) k = Some (mkNode k c)) /\
    (forall u v, arrow g u v <-> cause es u v) /\ dag_graph g.
Proof.
  intros add mul rnd fuel so es size SO AC F. destruct (iid_generate_ok add mul rnd fuel so es size SO AC F) as (vs & d & g & Hv & Hd & Hg & TP & RG & KG & VG & AG & DG & EG).
  destruct (generate_data_ok add mul rnd es vs size TP) as (d' & R & K & L & S). rewrite Hd in R. injection R as <-. destruct TP as (ND & IN & _).
  exists d, g. split; [exact Hg|]. split; [exact RG|]. split; [congruence|]. split; [intros k; rewrite dmem_In, KG; apply IN|]. split; [|split; [exact AG|exact DG]].
  intros k Hk. apply IN in Hk. destruct (VG k Hk) as (c & Hc & Hn). exists c. split; [exact Hc|]. split; [eapply L; exact Hc|exact Hn].
Qed.
Print Assumptions C54_iid_generate.
(* the row-wise form holds the same numbers: row i has the entries i of all columns, in the same order *)
Theorem C54_shaped_rows : forall (T : Type) (add mul : T -> T -> T) rnd fuel so (es : list (sedge T)) size vs,
  set_order so -> iid_variables fuel so es = Ok vs ->
  exists d rows, generate_data add mul rnd es vs size = Ok d /\ generate_shaped_data add mul rnd es vs size = Ok rows /\ List.length rows = size /\
    forall i, i < size -> exists r, nth_error rows i = Some r /\ dkeys r = dkeys d /\ forall k, dget r k = cell_at d k i.
Proof.
  intros T add mul rnd fuel so es size vs SO Hv. assert (TP := iid_variables_ok es fuel so vs SO Hv). destruct (generate_data_ok add mul rnd es vs size TP) as (d & R & K & L & S).
  destruct TP as (ND & _). destruct (shaped_rows_ok d size) with (is := seq 0 size) as (rows & RR & F); [rewrite K; exact ND|exact L|intros i Hi; apply in_seq in Hi; lia|].
  exists d, rows. split; [exact R|]. split; [unfold generate_shaped_data; rewrite R; exact RR|]. split; [clear - F; rewrite <- (seq_length size 0) at 1; induction F; cbn; congruence|].
  assert (G : forall l rows, Forall2 (fun i r => dkeys r = dkeys d /\ forall k, dget r k = cell_at d k i) l rows -> forall n i, nth_error l n = Some i ->
    exists r, nth_error rows n = Some r /\ dkeys r = dkeys d /\ forall k, dget r k = cell_at d k i).
  { clear. intros l rows F. induction F as [|i r l rows H F IH]; intros [|n] x E; try discriminate; cbn in E; [injection E as ->; exists r; split; [reflexivity|exact H]|]. cbn [nth_error]. apply IH; exact E. }
  intros i Hi. eapply G; [exact F|]. rewrite nth_error_nth' with (d := 0) by (rewrite seq_length; exact Hi). rewrite seq_nth by exact Hi. reflexivity.
Qed.
Print Assumptions C54_shaped_rows.
Example C54_nonvacuous : exists g, iid_generate Z.add Z.mul Z.of_nat 6 dedup es_abc 2 = Ok ([("A", [0; 1]%Z); ("B", [2; 8]%Z); ("C", [18; 63]%Z)], g) /\
  arrow g "A" "B" /\ arrow g "B" "C" /\ arrow g "A" "C" /\ ~ arrow g "B" "A" /\
  generate_shaped_data Z.add Z.mul Z.of_nat es_abc ["A"; "B"; "C"] 2 = Ok [[("A", 0%Z); ("B", 2%Z); ("C", 18%Z)]; [("A", 1%Z); ("B", 8%Z); ("C", 63%Z)]].
Proof. eexists. split; [vm_compute; reflexivity|]. repeat (split; [vm_compute; reflexivity|]). split; [vm_compute; discriminate|]. vm_compute. reflexivity. Qed.

(* C55: a time series whose edges all point to the past follows its autoregression; the graph has one node per
   variable and time step and exactly the arrows of the edge list shifted in time.  [vs] is the iteration order
   of the set of variables. *)
Theorem C55_series_equations : forall (T : Type) (add mul : T -> T -> T) rnd zero init (es : list (sedge T)) vs size,
  NoDup vs -> (forall x, mentioned es x -> In x vs) -> (forall e, In e es -> (se_time e < 0)%Z) -> 1 <= size ->
  exists d, generate_series add mul rnd zero init es vs size = Ok d /\ dkeys d = vs /\
    (forall k, In k vs -> exists c, dget d k = Some c /\ List.length c = size) /\ (forall k, In k vs -> cell_at d k 0 = Some (init k)) /\
    (forall t j k, 1 <= t < size -> nth_error vs j = Some k -> autoregressive add mul zero init es d t k (rnd ((t - 1) * List.length vs + j))).
Proof. intros T add mul rnd zero init es vs size ND M P Hs. exact (series_ok add mul rnd zero init es vs ND M P size Hs). Qed.
Print Assumptions C55_series_equations.
Theorem C55_series_graph : forall add mul rnd zero init (es : list (sedge Z)) vs size,
  NoDup vs -> (forall x, mentioned es x -> In x vs) -> (forall e, In e es -> (se_time e < 0)%Z) -> 1 <= size ->
  exists d g, generate_series add mul rnd zero init es vs size = Ok d /\ series_generate add mul rnd zero init es vs size = Ok (d, g) /\ reached g /\
    (forall k, dmem (nodes g) k = true <-> exists i t, In i vs /\ t < size /\ k = time_id i t) /\
    (forall i t, In i vs -> t < size -> exists x, cell_at d i t = Some x /\ dget (nodes g) (time_id i t) = Some (mkNode (i ++ " - t" ++ dec t)%string [x])) /\
    (forall a b, arrow g a b <-> exists e t, In e es /\ t < size /\ Z.abs_nat (se_time e) <= t /\
                                             a = time_id (se_from e) (t - Z.abs_nat (se_time e)) /\ b = time_id (se_to e) t) /\
    acyclic (arrow g).
Proof. exact series_generate_ok. Qed.
Print Assumptions C55_series_graph.
(* no two of these nodes share an id *)
Theorem C55_time_ids_distinct : forall i t j u, time_id i t = time_id j u -> i = j /\ t = u.
Proof. exact time_id_inj. Qed.
Print Assumptions C55_time_ids_distinct.
Definition es_ts : list (sedge Z) := [mkSE "X" (-1)%Z "X" 2%Z; mkSE "X" (-2)%Z "Y" 3%Z].
Example C55_nonvacuous : exists d g, series_generate Z.add Z.mul (fun _ => 1%Z) 0%Z (fun _ => 1%Z) es_ts ["Y"; "X"] 4 = Ok (d, g) /\
  d = [("Y", [1; 4; 4; 10]%Z); ("X", [1; 3; 7; 15]%Z)] /\ arrow g "X-t1" "Y-t3" /\ ~ arrow g "X-t2" "Y-t3" /\ ~ arrow g "Y-t3" "X-t1".
Proof. do 2 eexists. split; [vm_compute; reflexivity|]. split; [reflexivity|]. split; [vm_compute; reflexivity|]. split; vm_compute; discriminate. Qed.
(* without the restriction to the past the result depends on the iteration order of a set: one order raises
   IndexError, the other returns *)
Theorem C55_contemporaneous_refuted : exists (es : list (sedge Z)) vs vs' size d, NoDup vs /\ Permutation vs vs' /\ (forall x, mentioned es x <-> In x vs) /\
  (forall e, In e es -> (se_time e <= 0)%Z) /\
  generate_series Z.add Z.mul (fun _ => 0%Z) 0%Z (fun _ => 1%Z) es vs size = Ok d /\
  generate_series Z.add Z.mul (fun _ => 0%Z) 0%Z (fun _ => 1%Z) es vs' size = Err IndexError.
Proof.
  exists [mkSE "X" 0%Z "Y" 2%Z], ["X"; "Y"], ["Y"; "X"], 2. eexists. split; [repeat constructor; cbn; intuition discriminate|]. split; [apply perm_swap|]. split; [|split].
  - intros x. split.
    + intros (y & [(e & [<-|[]] & E1 & E2)|(e & [<-|[]] & E1 & E2)]); cbn in *; auto.
    + intros [<-|[<-|[]]]; [exists "Y"; left|exists "X"; right]; eexists; (split; [left; reflexivity|split; reflexivity]).
  - intros e [<-|[]]. cbn. lia.
  - split; vm_compute; reflexivity.
Qed.
Print Assumptions C55_contemporaneous_refuted.
