(* Proofs about graph construction (C41, C42). *)
From Verif Require Import Base PyDict PyDictFacts Graph GraphSpec GraphFacts GraphInv GraphInv2 GraphQ GraphMain
  Actions ActionSpec ActionFacts ActionMain Generators Rules IndepTests Pipeline Construct ConstructSpec.

(* ---- sorting ---- *)
Lemma insert_perm {A} (p : string * A) l : Permutation (insert_by p l) (p :: l).
Proof.
  induction l as [|q l IH]; cbn; [reflexivity|]. destruct (String.leb _ _); [reflexivity|].
  rewrite IH. apply perm_swap.
Qed.
Lemma sort_perm {A} (l : list (string * A)) : Permutation (sort_items l) l.
Proof. induction l as [|p l IH]; cbn; [reflexivity|]. rewrite insert_perm, IH. reflexivity. Qed.
Lemma leb_total a b : String.leb a b = false -> String.leb b a = true.
Proof.
  unfold String.leb. rewrite (String.compare_antisym a b). destruct (String.compare b a); cbn; congruence.
Qed.
Lemma insert_sorted {A} (p : string * A) l : sorted_names (map fst l) -> sorted_names (map fst (insert_by p l)).
Proof.
  induction l as [|q l IH]; intros S; cbn; [constructor|]. destruct (String.leb (fst p) (fst q)) eqn:L; cbn.
  - constructor; [exact L|exact S].
  - apply leb_total in L. destruct l as [|q2 l]; cbn in *; [constructor; [exact L|constructor]|].
    inversion S as [| |x y l' Hxy S']; subst. specialize (IH S'). destruct (String.leb (fst p) (fst q2)); cbn in *; constructor; auto.
Qed.
Lemma sort_sorted {A} (l : list (string * A)) : sorted_names (map fst (sort_items l)).
Proof. induction l as [|p l IH]; cbn; [constructor|apply insert_sorted; exact IH]. Qed.

(* ---- adding columns ---- *)
Lemma tensor_some l : tensor (map Some l) = Some l.
Proof. induction l as [|x l IH]; cbn; [reflexivity|rewrite IH; reflexivity]. Qed.

Definition somes (T : table) : list (string * list cell) := map (fun p => (fst p, map Some (snd p))) T.
Definition col_nodes (T : table) : dict id node := map (fun p => (fst p, mkNode (fst p) (snd p))) T.

Lemma add_columns_ok : forall T g, NoDup (map fst T) -> (forall k, In k (map fst T) -> dmem (nodes g) k = false) ->
  add_columns (somes T) g = (with_nodes g (nodes g ++ col_nodes T), Ok tt).
Proof.
  induction T as [|[k vs] T IH]; intros g N F; cbn.
  - unfold ret. rewrite app_nil_r. destruct g; reflexivity.
  - inversion N as [|x l Hn N']; subst. unfold bind, add_node. rewrite (F k (or_introl eq_refl)), tensor_some.
    rewrite IH.
    + cbn. f_equal. unfold with_nodes; cbn. f_equal. fold (col_nodes T).
      assert (D : dset (nodes g) k (mkNode k vs) = nodes g ++ [(k, mkNode k vs)]).
      { specialize (F k (or_introl eq_refl)). apply dmem_not_In in F. revert F. generalize (nodes g). clear.
        intros d; induction d as [|[a b] d IH]; cbn; intros F; [reflexivity|]. rewrite (eqb_neq k a) by (intros ->; tauto). rewrite IH by tauto. reflexivity. }
      rewrite D, <- app_assoc. reflexivity.
    + exact N'.
    + intros k' Hk'. cbn. apply dmem_not_In. rewrite In_dkeys_dset. intros [->|Hin]; [contradiction|].
      specialize (F k' (or_intror Hk')). apply dmem_not_In in F. contradiction.
Qed.

Lemma col_nodes_keys T : dkeys (col_nodes T) = map fst T.
Proof. unfold dkeys, col_nodes. rewrite map_map. apply map_ext. reflexivity. Qed.
Lemma new_graph_ok T : NoDup (map fst T) ->
  new_graph (add_columns (somes T)) = Ok (with_nodes empty_graph (col_nodes T)).
Proof. intros N. unfold new_graph. rewrite add_columns_ok; [reflexivity|exact N|reflexivity]. Qed.
Lemma holds_with T T' : NoDup (map fst T) -> Permutation T T' -> holds_only T' (with_nodes empty_graph (col_nodes T)).
Proof.
  intros N P. unfold holds_only. change (nodes (with_nodes empty_graph (col_nodes T))) with (col_nodes T).
  split; [|split; [rewrite col_nodes_keys; exact N|repeat split]]. intros k n. split.
  - intros G. apply dget_In in G. unfold col_nodes in G. apply in_map_iff in G. destruct G as ([k' vs] & E & Hin). injection E as <- <-.
    exists vs; split; [eapply Permutation_in; eassumption|reflexivity].
  - intros (vs & Hin & ->). apply NoDup_dget; [rewrite col_nodes_keys; exact N|]. unfold col_nodes. apply in_map_iff.
    exists (k, vs). split; [reflexivity|]. eapply Permutation_in; [apply Permutation_sym; exact P|exact Hin].
Qed.

(* ---- rows ---- *)
Lemma rmap_ok {A B} (f : A -> res B) (h : A -> B) l : (forall a, In a l -> f a = Ok (h a)) -> rmap f l = Ok (map h l).
Proof.
  induction l as [|a l IH]; intros H; cbn; [reflexivity|]. rewrite H by (left; reflexivity). cbn. rewrite IH by (intros b Hb; apply H; right; exact Hb). reflexivity.
Qed.
Lemma rows_column (rows : list row) k vs : List.length vs = List.length rows ->
  (forall i r, nth_error rows i = Some r -> exists x, nth_error vs i = Some x /\ dget r k = Some (Some x)) ->
  rmap (row_get k) rows = Ok (map Some vs).
Proof.
  revert vs; induction rows as [|r rows IH]; intros vs L H.
  - destruct vs; [reflexivity|discriminate].
  - destruct vs as [|x vs]; [discriminate|]. cbn [rmap]. destruct (H 0 r eq_refl) as (x' & E & G). cbn in E. injection E as <-.
    assert (RG : row_get k r = Ok (Some x)) by (unfold row_get; rewrite G; reflexivity). rewrite RG. cbn [rbind]. rewrite (IH vs).
    + reflexivity.
    + cbn in L; lia.
    + intros i r' Hr. apply (H (S i) r' Hr).
Qed.

Definition lookup_col (T : table) (k : string) : list Z := match dget T k with Some vs => vs | None => [] end.
Lemma from_list_ok T n r0 rest : is_table T n -> List.length (r0 :: rest) = n -> rows_hold T (r0 :: rest) ->
  Permutation (dkeys r0) (map fst T) ->
  exists T', Permutation T' T /\ map fst T' = dkeys r0 /\ graph_from_list (r0 :: rest) = Ok (with_nodes empty_graph (col_nodes T')).
Proof.
  intros [N L] Hn H P. exists (map (fun k => (k, lookup_col T k)) (dkeys r0)).
  assert (K : map fst (map (fun k => (k, lookup_col T k)) (dkeys r0)) = dkeys r0) by (rewrite map_map; cbn; apply map_id).
  assert (PT : Permutation (map (fun k => (k, lookup_col T k)) (dkeys r0)) T).
  { rewrite P. rewrite map_map. rewrite (map_ext_in _ (fun p => p)); [rewrite map_id; reflexivity|].
    intros [k vs] Hin. cbn. unfold lookup_col. rewrite (NoDup_dget T k vs N Hin). reflexivity. }
  split; [exact PT|]. split; [exact K|].
  unfold graph_from_list, columns. rewrite (rmap_ok _ (fun k => (k, map Some (lookup_col T k)))).
  - cbn [rbind]. rewrite <- new_graph_ok; [|rewrite K; eapply Permutation_NoDup; [apply Permutation_sym; exact P|exact N]].
    unfold somes. rewrite map_map. reflexivity.
  - intros k Hk. assert (Hin : In (k, lookup_col T k) T).
    { assert (X := Permutation_in _ P Hk). apply in_map_iff in X. destruct X as ([k' vs] & E & X). cbn in E; subst.
      unfold lookup_col. rewrite (NoDup_dget T k vs N X). exact X. }
    rewrite (rows_column _ k (lookup_col T k)); [reflexivity|rewrite Hn; eapply L; exact Hin|].
    intros i r Hr. eapply H; [exact Hr|exact Hin].
Qed.

Lemma from_dict_ok T n cols : is_table T n -> Permutation cols (somes T) ->
  exists T', Permutation T' T /\ sorted_names (map fst T') /\ graph_from_dict cols = Ok (with_nodes empty_graph (col_nodes T')).
Proof.
  intros [N _] P. assert (P2 : Permutation (sort_items cols) (somes T)) by (rewrite sort_perm; exact P).
  apply Permutation_map_inv in P2. destruct P2 as (T' & E & PT). exists T'. split; [symmetry; exact PT|].
  assert (K : map fst (sort_items cols) = map fst T') by (rewrite E, map_map; reflexivity).
  split; [rewrite <- K; apply sort_sorted|]. unfold graph_from_dict. rewrite E. apply new_graph_ok.
  eapply Permutation_NoDup; [|exact N]. apply Permutation_map; exact PT.
Qed.

(* rows that lack a column of the first row are rejected, further columns are dropped silently *)
Lemma ragged_rejected r0 rest k r : In k (dkeys r0) -> In r (r0 :: rest) -> dget r k = None -> graph_from_list (r0 :: rest) = Err KeyError.
Proof.
  intros Hk Hr G. unfold graph_from_list, columns.
  assert (RG : forall k' rows, (exists c, rmap (row_get k') rows = Ok c) \/ rmap (row_get k') rows = Err KeyError).
  { intros k'. induction rows as [|x rows [[c IH]|IH]]; cbn [rmap]; [eauto|..]; rewrite IH; destruct (dget x k') eqn:X;
      unfold row_get; rewrite X; cbn [rbind]; eauto. }
  assert (RK : forall rows, In r rows -> rmap (row_get k) rows = Err KeyError).
  { induction rows as [|x rows IH]; intros Hi; [destruct Hi|]. cbn [rmap]. destruct Hi as [->|Hi].
    - replace (row_get k r) with (@Err cell KeyError) by (unfold row_get; rewrite G; reflexivity). reflexivity.
    - rewrite (IH Hi). unfold row_get. destruct (dget x k); reflexivity. }
  assert (C : forall keys, In k keys -> rmap (fun k => rbind (rmap (row_get k) (r0 :: rest)) (fun c => Ok (k, c))) keys = Err KeyError).
  { induction keys as [|k' keys IH]; intros Hi; [destruct Hi|]. change (rmap ?f (k' :: keys)) with (rbind (f k') (fun b => rbind (rmap f keys) (fun t => Ok (b :: t)))).
    cbn beta. destruct Hi as [->|Hi].
    - rewrite (RK _ Hr). reflexivity.
    - destruct (RG k' (r0 :: rest)) as [[c Hc]|Hc]; rewrite Hc; cbn [rbind]; [rewrite (IH Hi)|]; reflexivity. }
  rewrite (C _ Hk). reflexivity.
Qed.


Lemma split_rows keys rows : (forall r, In r rows -> dget r "_dict"%string = None) ->
  split_loader (Some keys) (map Row rows) = if forallb (fun r => forallb (dmem r) keys) rows then inl (Ok rows) else inl (Err KeyError).
Proof.
  induction rows as [|r rows IH]; intros H; [reflexivity|]. cbn [map split_loader forallb]. unfold dmem at 1. rewrite (H r (or_introl eq_refl)).
  destruct (forallb (dmem r) keys); [|reflexivity]. cbn [andb]. rewrite IH by (intros r' Hr; apply H; right; exact Hr). destruct (forallb _ rows); reflexivity.
Qed.
Lemma self_keys (r : row) : forallb (dmem r) (dkeys r) = true.
Proof. apply forallb_forall. intros k Hk. apply dmem_In. exact Hk. Qed.
Lemma loader_rows r0 rest : (forall r, In r (r0 :: rest) -> dget r "_dict"%string = None) -> graph_from_loader (map Row (r0 :: rest)) = graph_from_list (r0 :: rest).
Proof.
  intros H. unfold graph_from_loader. cbn [map split_loader]. unfold dmem at 1. rewrite (H r0 (or_introl eq_refl)). rewrite self_keys.
  rewrite split_rows by (intros r' Hr; apply H; right; exact Hr). destruct (forallb _ rest) eqn:F; [reflexivity|].
  assert (X : exists r, In r rest /\ exists k, In k (dkeys r0) /\ dget r k = None).
  { clear -F. induction rest as [|r rest IH]; [discriminate|]. cbn [forallb] in F. destruct (forallb (dmem r) (dkeys r0)) eqn:E.
    - cbn [andb] in F. destruct (IH F) as (r' & Hr & Y). exists r'. split; [right; exact Hr|exact Y].
    - exists r. split; [left; reflexivity|]. clear -E. induction (dkeys r0) as [|k ks IHk]; [discriminate|]. cbn [forallb] in E. unfold dmem at 1 in E.
      destruct (dget r k) eqn:G; [|exists k; split; [left; reflexivity|exact G]]. destruct (IHk E) as (k' & Hk & Y). exists k'. split; [right; exact Hk|exact Y]. }
  destruct X as (r & Hr & k & Hk & G). symmetry. apply (ragged_rejected r0 rest k r Hk (or_intror Hr) G).
Qed.
Lemma loader_dict rows cols rest : (forall r, In r rows -> dget r "_dict"%string = None) ->
  (forall r0 r k, hd_error rows = Some r0 -> In r rows -> In k (dkeys r0) -> dget r k <> None) ->
  graph_from_loader (map Row rows ++ DictRow cols :: rest) = graph_from_dict cols.
Proof.
  intros H K. unfold graph_from_loader. assert (S : forall ks l, (forall r, In r l -> dget r "_dict"%string = None) -> (forall r k, In r l -> In k ks -> dget r k <> None) ->
    split_loader (Some ks) (map Row l ++ DictRow cols :: rest) = inr cols).
  { intros ks. induction l as [|r l IH]; intros H1 H2; [reflexivity|]. cbn [map app split_loader]. unfold dmem at 1. rewrite (H1 r (or_introl eq_refl)).
    assert (F : forallb (dmem r) ks = true). { apply forallb_forall. intros k Hk. unfold dmem. destruct (dget r k) eqn:G; [reflexivity|]. exfalso. exact (H2 r k (or_introl eq_refl) Hk G). }
    rewrite F, IH; [reflexivity|intros r' Hr; apply H1; right; exact Hr|intros r' k Hr; apply H2; right; exact Hr]. }
  destruct rows as [|r0 rows]; [reflexivity|]. cbn [map app split_loader]. unfold dmem at 1. rewrite (H r0 (or_introl eq_refl)), self_keys.
  rewrite S; [reflexivity|intros r' Hr; apply H; right; exact Hr|intros r' k Hr; apply (K r0 r' k eq_refl); right; exact Hr].
Qed.

Lemma c41_main T n d : is_table T n -> data_holds T n d ->
  exists g, create_graph_from_data d = Ok g /\ holds_only T g /\ node_order d (dkeys (nodes g)).
Proof.
  intros IT HD. assert (Fin : forall T', Permutation T' T -> holds_only T (with_nodes empty_graph (col_nodes T'))).
  { intros T' P. apply holds_with; [|exact P]. eapply Permutation_NoDup; [apply Permutation_map, Permutation_sym; exact P|apply IT]. }
  assert (FD : forall cols, Permutation cols (somes T) -> exists g, graph_from_dict cols = Ok g /\ holds_only T g /\ sorted_names (dkeys (nodes g))).
  { intros cols P. destruct (from_dict_ok T n cols IT P) as (T' & PT & S & E). exists (with_nodes empty_graph (col_nodes T')).
    split; [exact E|]. split; [apply Fin; exact PT|]. change (nodes (with_nodes empty_graph (col_nodes T'))) with (col_nodes T'). rewrite col_nodes_keys. exact S. }
  assert (FL : forall r0 rest, List.length (r0 :: rest) = n -> rows_hold T (r0 :: rest) -> Permutation (dkeys r0) (map fst T) ->
    exists g, graph_from_list (r0 :: rest) = Ok g /\ holds_only T g /\ dkeys (nodes g) = dkeys r0).
  { intros r0 rest L R P. destruct (from_list_ok T n r0 rest IT L R P) as (T' & PT & K & E). exists (with_nodes empty_graph (col_nodes T')).
    split; [exact E|]. split; [apply Fin; exact PT|]. change (nodes (with_nodes empty_graph (col_nodes T'))) with (col_nodes T'). rewrite col_nodes_keys. exact K. }
  destruct d as [cols|rows|l].
  - apply FD; exact HD.
  - destruct HD as (_ & L & R & r0 & rest & -> & P). apply FL; assumption.
  - assert (HR : (exists cols, l = [DictRow cols] /\ Permutation cols (somes T)) \/ (0 < n /\ exists rows, l = map Row rows /\ List.length rows = n /\ rows_hold T rows /\
      (forall r, In r rows -> dget r "_dict"%string = None) /\ exists r0 rest, rows = r0 :: rest /\ Permutation (dkeys r0) (map fst T))).
    { destruct l as [|[r|cols] [|x l]]; cbn [data_holds] in HD; auto. left; exists cols; auto. }
    destruct HR as [(cols & -> & P)|(_ & rows & -> & L & R & ND & r0 & rest & -> & P)].
    + apply FD; exact P.
    + destruct (FL r0 rest L R P) as (g & E & X). exists g. split; [|exact X]. exact (eq_trans (loader_rows r0 rest ND) E).
Qed.

(* ---- C42 ---- *)
Definition fresh (u v : id) : edge := mkEdge u v TUndirected (Some []) false.

Lemma ordered_pairs_In ns u v : In (u, v) (ordered_pairs ns) <-> In u ns /\ In v ns /\ u <> v.
Proof.
  unfold ordered_pairs. rewrite in_flat_map. split.
  - intros (a & Ha & H). apply in_flat_map in H. destruct H as (b & Hb & H). destruct (eqb_spec a b) as [->|N]; [destruct H|].
    destruct H as [E|[]]. injection E as <- <-. auto.
  - intros (Hu & Hv & N). exists u; split; [exact Hu|]. apply in_flat_map. exists v; split; [exact Hv|]. rewrite eqb_neq by exact N. left; reflexivity.
Qed.

Lemma add_edges_ok : forall l g, WF g -> (forall u v, In (u, v) l -> dmem (nodes g) u = true /\ dmem (nodes g) v = true /\ u <> v) ->
  exists g', add_edges l g = (g', Ok tt) /\ WF g' /\ nodes g' = nodes g /\ ahist g' = ahist g /\
    (forall p, history g' p = history g p) /\ (forall a b, dget2 (dedges g') a b = dget2 (dedges g) a b) /\
    (forall u v, eget g' u v = if mem (u, v) l || mem (v, u) l then Some (fresh u v) else eget g u v) /\
    (forall u v, In (u, v) l \/ In (v, u) l -> dmem (edges g') u = true) /\ (forall u, dmem (edges g) u = true -> dmem (edges g') u = true).
Proof.
  induction l as [|[u v] l IH]; intros g W F.
  - exists g. cbn. split; [reflexivity|]. split; [exact W|]. repeat (split; [reflexivity|]). split; [|auto]. intros u v [[]|[]].
  - destruct (F u v (or_introl eq_refl)) as (Hu & Hv & N). destruct (add_edge_ok g u v (Some []) TUndirected W Hu Hv N) as (g1 & R1 & W1 & F1).
    destruct (IH g1 W1) as (g2 & R2 & W2 & N2 & A2 & H2 & D2 & G2 & K2 & K2').
    { intros a b Hab. rewrite (ef_nodes _ _ _ _ F1). apply F; right; exact Hab. }
    exists g2. cbn [add_edges]. unfold bind. rewrite R1, R2. split; [reflexivity|]. split; [exact W2|].
    split; [rewrite N2; apply (ef_nodes _ _ _ _ F1)|]. split; [rewrite A2; apply (ef_ah _ _ _ _ F1)|].
    split. { intros p. rewrite H2. unfold history. destruct (ef_eh _ _ _ _ F1 p) as [->|[-> ->]]; reflexivity. }
    split; [intros a b; rewrite D2; apply (ef_del _ _ _ _ F1)|].
    assert (GG : forall a b, eget g1 a b = if mem (a, b) [(u, v); (v, u)] then Some (fresh a b) else eget g a b).
    { intros a b. rewrite (ef_get _ _ _ _ F1). unfold at2. destruct (mem (a, b) [(u, v); (v, u)]) eqn:M.
      - apply mem_In in M. destruct M as [E|[E|[]]]; injection E as <- <-.
        + rewrite !eqb_refl, (eqb_neq v u) by congruence. rewrite ?(eqb_neq u v) by congruence. reflexivity.
        + rewrite !eqb_refl. cbn. rewrite ?(eqb_neq v u), ?(eqb_neq u v) by congruence. reflexivity.
      - apply mem_not_In in M. cbn in M.
        assert (X1 : eqb a v && eqb b u = false) by (apply andb_false_iff; rewrite !eqb_false; destruct (eqb_spec a v) as [->|]; [right; intros ->; tauto|left; assumption]).
        assert (X2 : eqb a u && eqb b v = false) by (apply andb_false_iff; rewrite !eqb_false; destruct (eqb_spec a u) as [->|]; [right; intros ->; tauto|left; assumption]).
        rewrite X1, X2. reflexivity. }
    split.
    { intros a b. rewrite G2, GG. cbn [mem existsb]. destruct (mem (a, b) l || mem (b, a) l) eqn:M.
      - apply orb_true_iff in M. destruct M as [M|M]; unfold mem in M; rewrite M, ?orb_true_r; reflexivity.
      - apply orb_false_iff in M. destruct M as [M1 M2]. unfold mem in M1, M2; rewrite M1, M2.
        rewrite !orb_false_r.
        assert (X : eqb (b, a) (u, v) = eqb (a, b) (v, u)).
        { destruct (eqb_spec (b, a) (u, v)) as [E|E], (eqb_spec (a, b) (v, u)) as [E'|E']; congruence. }
        rewrite X. reflexivity. }
    split.
    + assert (KE : forall a b, (a, b) = (u, v) \/ (a, b) = (v, u) -> dmem (edges g1) a = true).
      { intros a b Hab. assert (E : eget g1 a b = Some (fresh a b)).
        { rewrite GG. assert (M : mem (a, b) [(u, v); (v, u)] = true) by (apply mem_In; destruct Hab as [->| ->]; cbn; auto). rewrite M; reflexivity. }
        unfold eget, dget2 in E. apply dmem_get. destruct (dget (edges g1) a); [eauto|discriminate]. }
      intros a b [[E|H]|[E|H]].
      * injection E as <- <-. apply K2'. apply (KE u v); auto.
      * apply (K2 a b); auto.
      * injection E as <- <-. apply K2'. apply (KE v u); auto.
      * apply (K2 a b); auto.
    + intros a Ha. apply K2'. apply (ef_keys _ _ _ _ F1); exact Ha.
Qed.

Lemma c42_main g : WF g -> exists g', create_all_possible_edges g = (g', Ok tt) /\ WF g' /\ nodes g' = nodes g /\ ahist g' = ahist g /\
  (forall p, history g' p = history g p) /\ (forall a b, dget2 (dedges g') a b = dget2 (dedges g) a b) /\
  (forall u v, eget g' u v = if dmem (nodes g) u && dmem (nodes g) v && negb (eqb u v) then Some (fresh u v) else eget g u v) /\
  (forall u v, dmem (nodes g) u = true -> dmem (nodes g) v = true -> u <> v -> dmem (edges g') u = true).
Proof.
  intros W. unfold create_all_possible_edges, bind at 1, gget at 1.
  destruct (add_edges_ok (ordered_pairs (dkeys (nodes g))) g W) as (g' & R & W' & N & A & Hh & D & G & K & _).
  { intros u v H. apply ordered_pairs_In in H. rewrite !dmem_In. exact H. }
  exists g'. split; [exact R|]. split; [exact W'|]. split; [exact N|]. split; [exact A|]. split; [exact Hh|]. split; [exact D|]. split.
  - intros u v. rewrite G. destruct (dmem (nodes g) u && dmem (nodes g) v && negb (eqb u v)) eqn:B.
    + rewrite !andb_true_iff, negb_true_iff, eqb_false, !dmem_In in B.
      assert (M : mem (u, v) (ordered_pairs (dkeys (nodes g))) = true) by (apply mem_In, ordered_pairs_In; tauto). rewrite M. reflexivity.
    + assert (M : forall a b, (a = u /\ b = v) \/ (a = v /\ b = u) -> mem (a, b) (ordered_pairs (dkeys (nodes g))) = false).
      { intros a b Hab. apply mem_not_In. rewrite ordered_pairs_In, <- !dmem_In. intros (X & Y & Z).
        assert (Bt : dmem (nodes g) u && dmem (nodes g) v && negb (eqb u v) = true); [|congruence].
        destruct Hab as [[-> ->]|[-> ->]]; rewrite X, Y, eqb_neq by congruence; reflexivity. }
      rewrite (M u v), (M v u) by auto. reflexivity.
  - intros u v Hu Hv Nuv. apply (K u v). left. apply ordered_pairs_In. rewrite <- !dmem_In. auto.
Qed.

(* ---- the graphs a run starts from ---- *)
Lemma add_columns_reached : forall l g, reached g -> reached (fst (add_columns l g)).
Proof.
  induction l as [|[k vs] l IH]; intros g R; cbn [add_columns]; [exact R|]. unfold bind.
  assert (X := rd_op g (OAddNode k (tensor vs) k) R I). cbn [run_op] in X.
  destruct (add_node k (tensor vs) k g) as [g1 [u|e]]; [apply IH; exact X|exact X].
Qed.
Lemma add_edges_reached : forall l g, reached g -> reached (fst (add_edges l g)).
Proof.
  induction l as [|[u v] l IH]; intros g R; cbn [add_edges]; [exact R|]. unfold bind.
  assert (X := rd_op g (OAddEdge u v (Some []) TUndirected) R I). cbn [run_op] in X.
  destruct (add_edge u v (Some []) TUndirected g) as [g1 [x|e]]; [apply IH; exact X|exact X].
Qed.
Lemma new_graph_reached l g : new_graph (add_columns l) = Ok g -> reached g.
Proof.
  unfold new_graph. assert (X := add_columns_reached l empty_graph rd_empty). destruct (add_columns l empty_graph) as [g1 [u|e]]; [|discriminate].
  intros E; injection E as <-; exact X.
Qed.
Lemma created_reached d g : create_graph_from_data d = Ok g -> reached g.
Proof.
  assert (FD : forall c, graph_from_dict c = Ok g -> reached g) by (intros c; apply new_graph_reached).
  assert (FL : forall l, graph_from_list l = Ok g -> reached g).
  { intros [|r l] E; [discriminate|]. unfold graph_from_list in E. destruct (columns _ _); cbn in E; [|discriminate]. eapply new_graph_reached; exact E. }
  destruct d as [c|l|l]; cbn [create_graph_from_data]; [apply FD|apply FL|]. unfold graph_from_loader.
  destruct (split_loader None l) as [[[|r rs]|e]|c]; [discriminate|apply FL|discriminate|apply FD].
Qed.
Lemma start_reached d g : start_graph d = Ok g -> reached g.
Proof.
  unfold start_graph. destruct (create_graph_from_data d) as [g1|e] eqn:C; cbn; [|discriminate]. apply created_reached in C.
  assert (X := add_edges_reached (ordered_pairs (dkeys (nodes g1))) g1 C). change (create_all_possible_edges g1) with (add_edges (ordered_pairs (dkeys (nodes g1))) g1).
  destruct (add_edges _ g1) as [g2 [u|e]]; [|discriminate]. intros E; injection E as <-; exact X.
Qed.

Lemma c42_props g : reached g -> exists g', create_all_possible_edges g = (g', Ok tt) /\ nodes g' = nodes g /\ ahist g' = ahist g /\
  (forall u v, directed_edge_exists g' u v = true <-> In u (dkeys (nodes g)) /\ In v (dkeys (nodes g)) /\ u <> v) /\
  (forall u v, In u (dkeys (nodes g)) -> In v (dkeys (nodes g)) -> u <> v -> entry g' u v = Some (mkEdge u v TUndirected (Some []) false)) /\
  (forall u v, ~ (In u (dkeys (nodes g)) /\ In v (dkeys (nodes g)) /\ u <> v) -> entry g' u v = None) /\
  (forall p, history g' p = history g p).
Proof.
  intros R. assert (W := reached_WF _ R). destruct (c42_main g W) as (g' & E & W' & N & A & Hh & _ & G & _).
  exists g'. split; [exact E|]. split; [exact N|]. split; [exact A|].
  assert (In1 : forall u v, In u (dkeys (nodes g)) -> In v (dkeys (nodes g)) -> u <> v -> eget g' u v = Some (fresh u v)).
  { intros u v Hu Hv Ne. rewrite G. apply dmem_In in Hu, Hv. rewrite Hu, Hv, eqb_neq by exact Ne. reflexivity. }
  assert (Out : forall u v, ~ (In u (dkeys (nodes g)) /\ In v (dkeys (nodes g)) /\ u <> v) -> eget g' u v = None).
  { intros u v X. destruct (eget g' u v) as [e|] eqn:Y; [|reflexivity]. exfalso; apply X. destruct (wf_fwd _ W' u v e Y) as (P1 & P2 & P3 & _).
    rewrite N in P1, P2. rewrite <- !dmem_In. auto. }
  split.
  { intros u v. rewrite (dee_val g' u v W'). split.
    - intros D. destruct (eget g' u v) as [e|] eqn:Y; [|discriminate]. destruct (wf_fwd _ W' u v e Y) as (P1 & P2 & P3 & _).
      rewrite N in P1, P2. rewrite <- !dmem_In. auto.
    - intros (Hu & Hv & Ne). rewrite (In1 u v Hu Hv Ne). reflexivity. }
  split; [intros u v Hu Hv Ne; rewrite entry_eget; apply In1; assumption|]. split; [intros u v X; rewrite entry_eget; apply Out; exact X|exact Hh].
Qed.

Lemma start_ok T n d : is_table T n -> data_holds T n d -> exists g, start_graph d = Ok g /\
  (forall k nd, dget (nodes g) k = Some nd <-> exists vs, In (k, vs) T /\ nd = mkNode k vs) /\ node_order d (dkeys (nodes g)) /\
  (forall u v, directed_edge_exists g u v = true <-> In u (map fst T) /\ In v (map fst T) /\ u <> v) /\
  (forall u v, In u (map fst T) -> In v (map fst T) -> u <> v -> entry g u v = Some (mkEdge u v TUndirected (Some []) false)) /\
  (forall p, history g p = []) /\ ahist g = [].
Proof.
  intros IT HD. destruct (c41_main T n d IT HD) as (g1 & C & (HN & ND & He & Hr & Hd & Hh & Ha) & O).
  destruct (c42_props g1 (created_reached _ _ C)) as (g & E & N & A & L & En & _ & Hi).
  assert (K : forall k, In k (dkeys (nodes g1)) <-> In k (map fst T)).
  { intros k. rewrite <- dmem_In, dmem_get. split.
    - intros (nd & Hk). apply HN in Hk. destruct Hk as (vs & Hin & _). apply in_map_iff. exists (k, vs). auto.
    - intros Hk. apply in_map_iff in Hk. destruct Hk as ([k' vs] & <- & Hin). exists (mkNode k' vs). apply HN. eauto. }
  exists g. unfold start_graph. rewrite C; cbn [rbind]. rewrite E. split; [reflexivity|]. rewrite N. split; [exact HN|]. split; [exact O|].
  split; [intros u v; rewrite L, !K; reflexivity|]. split; [intros u v Hu Hv; apply En; apply K; assumption|].
  split; [intros p; rewrite Hi; unfold history; rewrite Hh; reflexivity|congruence].
Qed.
