(* Properties C23-C25 (generators).  Statements only. *)
From Verif Require Import Base PyDict Graph GraphSpec GraphPaths PathSpec Actions ActionSpec ActionMain Generators GenSpec GenFacts GraphCheck GraphMain GraphInv.
Open Scope string_scope.

Definition gg : graph := build ["a"; "b"; "c"; "d"] [("a", "d")] [("a", "b"); ("a", "c")].
Lemma gg_reached : reached gg.
Proof. apply reachable_reached, build_reachable. Qed.

(* C23 *)
Theorem C23_all_combinations : forall cs g out, reached g -> emitted (gen_all cs g) g out ->
  (forall c, In c out <-> subseq c (dkeys (nodes g)) /\ size_in cs (List.length (nodes g)) (List.length c)) /\
  NoDup out /\
  (forall l1 a b l2, out = (l1 ++ a :: b :: l2)%list -> List.length a <= List.length b).
Proof. intros cs g out R. exact (c23_main cs g out (wf_nodes _ (reached_WF _ R))). Qed.
Print Assumptions C23_all_combinations.
(* it always yields *)
Theorem C23_no_error : forall cs g, exists out, emitted (gen_all cs g) g out.
Proof. intros cs g. eexists; eexists; split; reflexivity. Qed.
Print Assumptions C23_no_error.
Example C23_nonvacuous : reached gg /\ emitted (gen_all (mkCS 2 3) gg) gg
  [["a";"b"];["a";"c"];["a";"d"];["b";"c"];["b";"d"];["c";"d"];["a";"b";"c"];["a";"b";"d"];["a";"c";"d"];["b";"c";"d"]]
  /\ emitted (gen_all (mkCS 3 0) gg) gg [["a";"b";"c"];["a";"b";"d"];["a";"c";"d"];["b";"c";"d"];["a";"b";"c";"d"]]
  /\ emitted (gen_all (mkCS 5 9) gg) gg [].
Proof. split; [exact gg_reached|]. split; [|split]; eexists; split; vm_compute; reflexivity. Qed.

(* C24, not chunked *)
Theorem C24_edge_pairs : forall g out, reached g -> emitted (gen_edges false 0 g) g out ->
  (forall c, In c out <-> exists u v, c = [u; v] /\ arrow g u v) /\ NoDup out.
Proof. exact c24_main. Qed.
Print Assumptions C24_edge_pairs.
(* C24, chunked: the chunks partition the pairs, but every pair is then yielded again on its own,
   outside of any chunk.  Missing for the full claim: "exactly once". *)
Theorem C24_chunked_partial : forall g size es, reached g -> 0 < size -> gen_run (gen_edges true size g) g = Ok es ->
  exists cs ps, es = (map Chunk cs ++ map One ps)%list /\ List.concat cs = ps /\ NoDup ps /\
    (forall c, In c ps <-> exists u v, c = [u; v] /\ arrow g u v) /\
    forall c, In c cs -> 1 <= List.length c <= size.
Proof. exact c24_chunked'. Qed.
Print Assumptions C24_chunked_partial.
Theorem C24_chunked_refuted : exists g size out, reached g /\ emitted (gen_edges true size g) g out /\ ~ NoDup out.
Proof.
  exists gg, 100, [["a";"d"];["a";"b"];["a";"c"];["b";"a"];["c";"a"]; ["a";"d"];["a";"b"];["a";"c"];["b";"a"];["c";"a"]].
  split; [exact gg_reached|]. split.
  - eexists; split; vm_compute; reflexivity.
  - intros N. inversion N as [|x l H _]; subst. apply H. do 4 right; left; reflexivity.
Qed.
Print Assumptions C24_chunked_refuted.
Example C24_nonvacuous : reached gg /\ emitted (gen_edges false 0 gg) gg [["a";"d"];["a";"b"];["a";"c"];["b";"a"];["c";"a"]].
Proof. split; [exact gg_reached|]. eexists; split; vm_compute; reflexivity. Qed.

(* C25 *)
Theorem C25_neighbours : forall so sh chunked cs g out, set_order so -> is_shuffle sh -> reached g ->
  emitted (gen_neighbours so sh chunked cs g) g out -> 2 <= cs_min cs ->
  (forall c, In c out -> exists x y S, c = x :: y :: S /\ arrow g x y /\
      size_in cs (List.length (nodes g)) (List.length c) /\ NoDup S /\ forall z, In z S -> neighbour g x z /\ z <> y) /\
  (forall x y S, arrow g x y -> size_in cs (List.length (nodes g)) (List.length (x :: y :: S)) -> NoDup S ->
      (forall z, In z S -> neighbour g x z /\ z <> y) -> exists S', Permutation S' S /\ In (x :: y :: S') out) /\
  NoDup out /\
  (forall x y S S', In (x :: y :: S) out -> In (x :: y :: S') out -> (forall z, In z S <-> In z S') -> S = S').
Proof. intros so sh chunked cs g out SO SH R. exact (c25_main so sh SO SH chunked cs g out (reached_WF _ R)). Qed.
Print Assumptions C25_neighbours.
Theorem C25_no_error : forall so sh chunked cs g, reached g -> 2 <= cs_min cs ->
  exists out, emitted (gen_neighbours so sh chunked cs g) g out.
Proof.
  intros so sh chunked cs g R M. destruct (pwn_emitted so sh chunked cs g (reached_WF _ R) M) as (es & E & _).
  exists (flat_map contents es), es; split; [exact E|reflexivity].
Qed.
Print Assumptions C25_no_error.
Theorem C25_rejects_small_min : forall so sh chunked cs g, cs_min cs < 2 -> (exists k, size_in cs (List.length (nodes g)) k) ->
  gen_run (gen_neighbours so sh chunked cs g) g = Err ValueError.
Proof.
  intros so sh chunked cs g M (k & K). assert (K' := K). apply cs_stop_spec in K'. destruct K as (K1 & K2 & _).
  apply c25_reject; lia.
Qed.
Print Assumptions C25_rejects_small_min.
(* "yields node combinations" is false without chunking for size 2: the pair comes wrapped in a list *)
Theorem C25_unchunked_pairs_refuted : exists g, reached g /\
  exists es, gen_run (gen_neighbours (fun l => l) None false (mkCS 2 2) g) g = Ok es /\ In (Chunk [["a"; "b"]]) es.
Proof. exists gg; split; [exact gg_reached|]. eexists; split; [vm_compute; reflexivity|right; left; reflexivity]. Qed.
Print Assumptions C25_unchunked_pairs_refuted.
Example C25_nonvacuous : reached gg /\ set_order dedup /\ is_shuffle (Some (fun _ l => rev l)) /\
  emitted (gen_neighbours dedup (Some (fun _ l => rev l)) true (mkCS 2 0) gg) gg
   [["a";"d"];["a";"b"];["a";"c"];["b";"a"];["c";"a"]; ["a";"d";"c"];["a";"d";"b"];["a";"b";"c"];["a";"c";"b"]; ["a";"d";"b";"c"]].
Proof.
  split; [exact gg_reached|]. split; [exact dedup_order|]. split; [intros s l; apply Permutation_sym, Permutation_rev|].
  eexists; split; vm_compute; reflexivity.
Qed.
