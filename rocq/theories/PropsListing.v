(* Property C58: queries that list edges or neighbours agree with the queries about a single pair. *)
From Verif Require Import Base PyDict PyDictFacts Graph GraphFacts GraphInv GraphQ GraphSpec GraphMain PropsGraph.
Open Scope string_scope.
Open Scope list_scope.

(* siblings are the nodes joined by an undirected edge, each once; with the nodes that have only an arrow to v they
   are the parents of v *)
Theorem C58_siblings : forall g v, reachable g ->
  NoDup (get_siblings g v) /\ (forall u, In u (get_siblings g v) <-> directed_edge_exists g u v = true /\ directed_edge_exists g v u = true) /\
  (forall u, In u (get_siblings g v) <-> In v (get_siblings g u)) /\
  (forall l, parents_of_node g v = Ok l -> forall u, In u l <-> In u (get_siblings g v) \/ only_directed_edge_exists g u v = true).
Proof.
  intros g v R. assert (W := reachable_WF g R).
  assert (S : forall v u, In u (get_siblings g v) <-> directed_edge_exists g u v = true /\ directed_edge_exists g v u = true).
  { intros w u. unfold get_siblings, undirected_edge_exists. rewrite filter_In, !andb_true_iff. split; [tauto|]. intros [A B]. split; [|split; [|tauto]].
    - apply dee_iff0 in A. destruct A as (A & _). apply dmem_In. exact A.
    - apply dee_iff in A; [|exact W]. destruct A as (e & A & _). destruct (wf_fwd _ W _ _ _ A) as (_ & _ & N & _). destruct (eqb_spec u w); [contradiction|reflexivity]. }
  split; [apply NoDup_filter; apply (wf_nodes _ W)|]. split; [apply S|]. split; [intros u; rewrite !S; tauto|]. intros l P u. rewrite S. unfold only_directed_edge_exists. rewrite andb_true_iff, negb_true_iff.
  assert (Q : In u l <-> directed_edge_exists g u v = true). { apply (parents_spec g v l W P). }
  rewrite Q. destruct (directed_edge_exists g v u); intuition discriminate.
Qed.
Print Assumptions C58_siblings.

Lemma retrieve_aux_ok g l : (forall u v e, In (u, v, e) l -> dmem (nodes g) u = true /\ dmem (nodes g) v = true) ->
  retrieve_edges_aux g l = Ok (map snd (filter (fun p => negb (directed_edge_is_soft_deleted g (fst (fst p)) (snd (fst p)))) l)).
Proof.
  induction l as [|[[u v] e] l IH]; intros H; [reflexivity|]. cbn [retrieve_edges_aux filter fst snd]. destruct (H u v e (or_introl eq_refl)) as [-> ->]. cbn [andb]. rewrite IH; [|intros a b x I; apply (H a b x); right; exact I].
  cbn [rbind]. destruct (negb (directed_edge_is_soft_deleted g u v)); reflexivity.
Qed.
Lemma retrieve_wf : forall g, WF g -> exists l, retrieve_edges g = Ok l /\ NoDup (map (fun e => (e_u e, e_v e)) l) /\
  (forall e, In e l <-> directed_edge_exists g (e_u e) (e_v e) = true /\ get_edge g (e_u e) (e_v e) = Ok e) /\
  (forall u v, directed_edge_exists g u v = true -> exists e, In e l /\ e_u e = u /\ e_v e = v).
Proof.
  intros g W. assert (WE := wf_e _ W). unfold retrieve_edges. rewrite retrieve_aux_ok.
  2:{ intros u v e I. apply all_entries_In in I; [|exact WE]. destruct (wf_fwd _ W _ _ _ I) as (A & B & _). auto. }
  eexists. split; [reflexivity|].
  assert (M : forall e, In e (map snd (filter (fun p => negb (directed_edge_is_soft_deleted g (fst (fst p)) (snd (fst p)))) (all_entries (edges g)))) <-> directed_edge_exists g (e_u e) (e_v e) = true /\ get_edge g (e_u e) (e_v e) = Ok e).
  { intros e. rewrite in_map_iff. split.
    - intros ([[u v] x] & E & I). cbn in E. subst x. apply filter_In in I. destruct I as [I D]. cbn [fst snd] in D. apply all_entries_In in I; [|exact WE]. destruct (wf_fwd _ W _ _ _ I) as (A & B & N & -> & ->).
      split; [|rewrite get_edge_eget; unfold eget; rewrite I; reflexivity]. apply dee_iff; [exact W|]. exists e. split; [exact I|]. unfold directed_edge_is_soft_deleted in D. rewrite I in D. destruct (e_del e); [discriminate|reflexivity].
    - intros [A B]. rewrite get_edge_eget in B. destruct (eget g (e_u e) (e_v e)) as [x|] eqn:E; [|discriminate]. injection B as ->. exists (e_u e, e_v e, e). split; [reflexivity|]. apply filter_In. split; [apply all_entries_In; [exact WE|exact E]|].
      cbn [fst snd]. apply dee_iff in A; [|exact W]. destruct A as (y & Y & Dy). unfold directed_edge_is_soft_deleted. unfold eget in E, Y. rewrite E in *. injection Y as <-. rewrite Dy. reflexivity. }
  split; [|split; [exact M|]].
  - assert (N := NoDup_all_entries _ WE). assert (F : forall p, In p (all_entries (edges g)) -> (e_u (snd p), e_v (snd p)) = fst p).
    { intros [[u v] e] I. apply all_entries_In in I; [|exact WE]. destruct (wf_fwd _ W _ _ _ I) as (_ & _ & _ & <- & <-). reflexivity. }
    revert N F. generalize (all_entries (edges g)). intros l N F. rewrite map_map. rewrite (map_ext_in _ fst). 2:{ intros p I. apply filter_In in I. apply F. apply I. }
    clear F M. induction l as [|p l IH]; [constructor|]. cbn [filter]. inversion N as [|? ? NI N']; subst. destruct (negb _); [|apply IH; exact N']. cbn [map]. constructor; [|apply IH; exact N'].
    intros I. apply NI. apply in_map_iff in I. destruct I as (q & E & I). apply filter_In in I. rewrite <- E. apply in_map. apply I.
  - intros u v A. assert (A' := A). apply dee_iff in A'; [|exact W]. destruct A' as (e & E & De). destruct (wf_fwd _ W _ _ _ E) as (_ & _ & _ & Eu & Ev). exists e. split; [|auto]. apply M. rewrite Eu, Ev. split; [exact A|]. rewrite get_edge_eget, E. reflexivity.
Qed.
(* the list of edges has exactly one entry for each direction that exists, and it is the one returned for the pair *)
Theorem C58_edges : forall g, reachable g -> exists l, retrieve_edges g = Ok l /\ NoDup (map (fun e => (e_u e, e_v e)) l) /\
  (forall e, In e l <-> directed_edge_exists g (e_u e) (e_v e) = true /\ get_edge g (e_u e) (e_v e) = Ok e) /\
  (forall u v, directed_edge_exists g u v = true -> exists e, In e l /\ e_u e = u /\ e_v e = v).
Proof. intros g R. apply retrieve_wf, reachable_WF, R. Qed.
Print Assumptions C58_edges.
(* an edge of a type exists iff the edge exists and that is its type *)
Theorem C58_type : forall g u v t, edge_of_type_exists g u v t = true <-> directed_edge_exists g u v = true /\ edge_type g u v = Ok (Some t).
Proof.
  intros g u v t. unfold edge_of_type_exists, edge_type. destruct (directed_edge_exists g u v) eqn:D; cbn [negb]; [|split; [discriminate|intros [H _]; discriminate]].
  rewrite edge_exists_or, D. cbn [orb negb]. apply dee_iff0 in D. destruct D as (_ & _ & e & E & _). unfold eget in E. rewrite E. split.
  - intros H. split; [reflexivity|]. destruct (e_type e) as [| | |n], t as [| | |m]; try discriminate; try reflexivity. cbn [etype_eqb] in H. destruct (String.eqb n m) eqn:X; [|discriminate]. apply String.eqb_eq in X. rewrite X. reflexivity.
  - intros [_ H]. injection H as <-. destruct (e_type e) as [| | |n]; try reflexivity. cbn [etype_eqb]. rewrite String.eqb_refl. reflexivity.
Qed.
Print Assumptions C58_type.
(* the history for an action is the part of the whole history with that action, in order *)
Theorem C58_history : forall g u v a h, retrieve_edge_history g u v None = Ok h -> exists l, retrieve_edge_history g u v (Some a) = Ok l /\
  (forall r, In r l <-> In r h /\ t_act r = a) /\ (forall p x q, l = p ++ x :: q -> exists p' q', h = p' ++ x :: q' /\ p = filter (fun i => taction_eqb (t_act i) a) p').
Proof.
  intros g u v a h. unfold retrieve_edge_history. destruct (dget (ehist g) (u, v)) as [k|]; [|discriminate]. intros H. injection H as ->. eexists. split; [reflexivity|]. split.
  - intros r. rewrite filter_In. assert (X : taction_eqb (t_act r) a = true <-> t_act r = a) by (destruct (t_act r), a; cbn; split; intros; try reflexivity; discriminate). rewrite X. tauto.
  - induction h as [|y h IH]; intros p x q E; cbn [filter] in E; [destruct p; discriminate|]. destruct (taction_eqb (t_act y) a) eqn:Y.
    + destruct p as [|z p]; [injection E as -> _; exists [], h; split; reflexivity|]. injection E as -> E. destruct (IH p x q E) as (p' & q' & -> & ->). exists (z :: p'), q'. split; [reflexivity|]. cbn [filter]. rewrite Y. reflexivity.
    + destruct (IH p x q E) as (p' & q' & -> & ->). exists (y :: p'), q'. split; [reflexivity|]. cbn [filter]. rewrite Y. reflexivity.
Qed.
Print Assumptions C58_history.
Example C58_nonvacuous : reachable g1 /\ get_siblings g1 "a" = ["b"] /\ get_siblings g1 "c" = [] /\ only_directed_edge_exists g1 "b" "c" = true /\
  (exists l, retrieve_edges g1 = Ok l /\ map (fun e => (e_u e, e_v e)) l = [("a", "b"); ("b", "a"); ("b", "c")]).
Proof. split; [exact g1_reachable|]. repeat (split; [vm_compute; reflexivity|]). eexists. split; vm_compute; reflexivity. Qed.
