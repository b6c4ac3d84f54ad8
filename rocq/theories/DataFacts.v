(* Runs use the data only through the numeric routines. *)
From Verif Require Import Base PyDict PyDictFacts Graph Actions Generators Rules IndepTests Pipeline Parallel PipeSpec Construct DataSpec.
Open Scope list_scope.

Section Swap.
Variables n n' : dict id node.
Hypothesis K : dkeys n' = dkeys n.
Notation sw := (on_nodes n').
Lemma dmem_same u : dmem n' u = dmem n u.
Proof.
  destruct (dmem n u) eqn:E; [apply dmem_In; rewrite K; apply dmem_In, E|apply dmem_not_In; rewrite K; apply dmem_not_In, E].
Qed.
Lemma filter_ext_in' {A} (f h : A -> bool) l : (forall a, f a = h a) -> filter f l = filter h l.
Proof. intros E. apply filter_ext. exact E. Qed.
Lemma existsb_ext {A} (f h : A -> bool) l : (forall a, f a = h a) -> existsb f l = existsb h l.
Proof. intros E. induction l; cbn; [reflexivity|]. rewrite E, IHl. reflexivity. Qed.
Lemma forallb_ext {A} (f h : A -> bool) l : (forall a, f a = h a) -> forallb f l = forallb h l.
Proof. intros E. induction l; cbn; [reflexivity|]. rewrite E, IHl. reflexivity. Qed.
Lemma rflat_ext {A B} (f h : A -> res (list B)) l : (forall a, f a = h a) -> rflat f l = rflat h l.
Proof. intros E. induction l; cbn; [reflexivity|]. rewrite E, IHl. reflexivity. Qed.
Lemma rbind_ext {A B} (r : res A) (f h : A -> res B) : (forall a, f a = h a) -> rbind r f = rbind r h.
Proof. intros E. destruct r; cbn; [apply E|reflexivity]. Qed.

(* ---- queries ---- *)
Section Queries.
Variable g : graph.
Hypothesis G : nodes g = n.
Lemma q_mem u : dmem (nodes (sw g)) u = dmem (nodes g) u.
Proof. rewrite G. apply dmem_same. Qed.
Lemma q_keys : dkeys (nodes (sw g)) = dkeys (nodes g).
Proof. rewrite G. exact K. Qed.
Lemma q_length : List.length (nodes (sw g)) = List.length (nodes g).
Proof. rewrite <- (map_length fst (nodes (sw g))), <- (map_length fst (nodes g)). change (List.length (dkeys (nodes (sw g))) = List.length (dkeys (nodes g))). rewrite q_keys. reflexivity. Qed.
Lemma q_soft u v : directed_edge_is_soft_deleted (sw g) u v = directed_edge_is_soft_deleted g u v.
Proof. reflexivity. Qed.
Lemma q_lookup l : nodes_lookup (sw g) l = nodes_lookup g l.
Proof. induction l; cbn [nodes_lookup]; [reflexivity|]. rewrite q_mem, IHl. reflexivity. Qed.
Lemma q_parents u : parents_of_node (sw g) u = parents_of_node g u.
Proof. unfold parents_of_node. change (redges (sw g)) with (redges g). destruct (dget (redges g) u); [|reflexivity]. apply q_lookup. Qed.
Lemma q_edge u v : edge_exists (sw g) u v = edge_exists g u v.
Proof. unfold edge_exists. rewrite !q_mem. reflexivity. Qed.
Lemma q_dir u v : directed_edge_exists (sw g) u v = directed_edge_exists g u v.
Proof. unfold directed_edge_exists. rewrite !q_mem. reflexivity. Qed.
Lemma q_value u v : edge_value (sw g) u v = edge_value g u v.
Proof. unfold edge_value. rewrite q_edge. reflexivity. Qed.
Lemma q_und u v : undirected_edge_exists (sw g) u v = undirected_edge_exists g u v.
Proof. unfold undirected_edge_exists. rewrite !q_dir. reflexivity. Qed.
Lemma q_only u v : only_directed_edge_exists (sw g) u v = only_directed_edge_exists g u v.
Proof. unfold only_directed_edge_exists. rewrite !q_dir. reflexivity. Qed.
Lemma q_hist u v a : retrieve_edge_history (sw g) u v a = retrieve_edge_history g u v a.
Proof. reflexivity. Qed.
Lemma q_at ns i : node_at (sw g) ns i = node_at g ns i.
Proof. unfold node_at. destruct (nth_error ns i); [rewrite q_mem|]; reflexivity. Qed.
Lemma q_row x : row_of (sw g) x = row_of g x.
Proof. reflexivity. Qed.
Lemma q_common so x y : common_keys so (sw g) x y = common_keys so g x y.
Proof. reflexivity. Qed.
Lemma q_corr x y : get_corr (sw g) x y = get_corr g x y.
Proof. unfold get_corr. rewrite q_value. reflexivity. Qed.
End Queries.

(* ---- operations ---- *)
Definition com {A} (m m' : ST A) : Prop := forall g, nodes g = n -> nodes (fst (m g)) = n /\ m' (sw g) = (sw (fst (m g)), snd (m g)).
Lemma com_ret {A} (a : A) : com (ret a) (ret a).
Proof. intros g G. split; [exact G|reflexivity]. Qed.
Lemma com_raise {A} e : com (@raise A e) (raise e).
Proof. intros g G. split; [exact G|reflexivity]. Qed.
Lemma com_bind {A B} (m m' : ST A) (k k' : A -> ST B) : com m m' -> (forall a, com (k a) (k' a)) -> com (bind m k) (bind m' k').
Proof.
  intros M KK g G. unfold bind. destruct (M g G) as [G1 ->]. destruct (m g) as [g1 [a|e]]; cbn [fst snd] in *; [apply KK, G1|split; [exact G1|reflexivity]].
Qed.
Lemma com_get {B} (k k' : graph -> ST B) : (forall g, nodes g = n -> com (k g) (k' (sw g))) -> com (bind gget k) (bind gget k').
Proof. intros H g G. unfold bind, gget. apply H; assumption. Qed.
Lemma com_need u : com (need_node u) (need_node u).
Proof. intros g G. unfold need_node. rewrite (q_mem g G). destruct (dmem (nodes g) u); split; try exact G; reflexivity. Qed.
Lemma sw_entry u g : init_entry u (sw g) = sw (init_entry u g).
Proof. unfold init_entry. change (edges (sw g)) with (edges g). destruct (dmem (edges g) u); reflexivity. Qed.
Lemma sw_hist u v g : init_hist u v (sw g) = sw (init_hist u v g).
Proof. unfold init_hist. change (ehist (sw g)) with (ehist g). destruct (dmem (ehist g) (u, v)); reflexivity. Qed.
Lemma nodes_entry u g : nodes (init_entry u g) = nodes g.
Proof. unfold init_entry. destruct (dmem (edges g) u); reflexivity. Qed.
Lemma nodes_hist u v g : nodes (init_hist u v g) = nodes g.
Proof. unfold init_hist. destruct (dmem (ehist g) (u, v)); reflexivity. Qed.
Lemma com_init u v : com (init_edge u v) (init_edge u v).
Proof.
  intros g G. unfold init_edge. cbn [fst snd]. split; [rewrite !nodes_hist, !nodes_entry; exact G|]. rewrite !sw_entry, !sw_hist. reflexivity.
Qed.
Lemma com_on_edges f : com (on_edges f) (on_edges f).
Proof. intros g G. unfold on_edges. change (edges (sw g)) with (edges g). destruct (f (edges g)); split; try exact G; reflexivity. Qed.
Lemma com_on_redges f : com (on_redges f) (on_redges f).
Proof. intros g G. unfold on_redges. change (redges (sw g)) with (redges g). destruct (f (redges g)); split; try exact G; reflexivity. Qed.
Lemma com_on_dedges f : com (on_dedges f) (on_dedges f).
Proof. intros g G. unfold on_dedges. change (dedges (sw g)) with (dedges g). destruct (f (dedges g)); split; try exact G; reflexivity. Qed.
Lemma com_add_hist u v a : com (add_edge_history u v a) (add_edge_history u v a).
Proof. intros g G. unfold add_edge_history. split; [exact G|reflexivity]. Qed.
Create HintDb com discriminated.
#[local] Hint Constants Opaque : com.
Hint Resolve com_ret com_raise com_need com_init com_on_edges com_on_redges com_on_dedges com_add_hist : com.
Ltac com_step :=
  first [ solve [auto with com]
        | match goal with |- com (bind ?m _) _ => lazymatch m with gget => fail | _ => apply com_bind; [|intros ?] end end
        | match goal with |- com (bind gget _) _ => idtac end; apply com_get; let g := fresh "g" in let G := fresh "G" in intros g G; cbn beta;
          change (edges (sw g)) with (edges g); change (dedges (sw g)) with (dedges g);
          rewrite ?(q_mem g G), ?(q_edge g G), ?(q_dir g G), ?(q_und g G)
        | match goal with |- com (if ?b then _ else _) _ => destruct b end
        | match goal with |- com (match ?x with Some _ => _ | None => _ end) _ => destruct x end ].
Ltac com_all := repeat com_step.
Lemma com_add_edge u v md t : com (add_edge u v md t) (add_edge u v md t).
Proof. unfold add_edge. com_all. Qed.
Lemma com_add_directed u v md t : com (add_directed_edge u v md t) (add_directed_edge u v md t).
Proof. unfold add_directed_edge. com_all. Qed.
Hint Resolve com_add_edge com_add_directed : com.
Lemma com_soft u v b : com (soft_flag u v b) (soft_flag u v b).
Proof. unfold soft_flag. com_all. Qed.
Lemma com_upd4 u v f : com (upd4 u v f) (upd4 u v f).
Proof. unfold upd4. com_all. Qed.
Lemma com_upd2 u v f : com (upd2 u v f) (upd2 u v f).
Proof. unfold upd2. com_all. Qed.
Hint Resolve com_soft com_upd4 com_upd2 : com.
Lemma com_remove u v s : com (remove_edge u v s) (remove_edge u v s).
Proof. unfold remove_edge. com_all. Qed.
Lemma com_half u v : com (restore_half u v) (restore_half u v).
Proof. unfold restore_half. com_all. Qed.
Hint Resolve com_half : com.
Lemma com_restore u v : com (restore_edge u v) (restore_edge u v).
Proof. unfold restore_edge. com_all. Qed.
Lemma com_remove_dir u v s : com (remove_directed_edge u v s) (remove_directed_edge u v s).
Proof. unfold remove_directed_edge. com_all. Qed.
Lemma com_restore_dir u v : com (restore_directed_edge u v) (restore_directed_edge u v).
Proof. unfold restore_directed_edge. com_all. Qed.
Lemma com_update u v md t : com (update_edge u v md t) (update_edge u v md t).
Proof. unfold update_edge. com_all. Qed.
Lemma com_update_dir u v md t : com (update_directed_edge u v md t) (update_directed_edge u v md t).
Proof. unfold update_directed_edge. com_all. Qed.
Hint Resolve com_remove com_restore com_remove_dir com_restore_dir com_update com_update_dir : com.
Lemma com_remove_all l : com (remove_all_directed l) (remove_all_directed l).
Proof. induction l as [|[u v] l IH]; cbn [remove_all_directed]; com_all. Qed.
Hint Resolve com_remove_all : com.
Lemma com_purge : com purge_soft_deleted_edges purge_soft_deleted_edges.
Proof.
  unfold purge_soft_deleted_edges. apply com_get. intros g G. cbv zeta. change (soft_deleted_entries (sw g)) with (soft_deleted_entries g).
  rewrite (forallb_ext (fun p => dmem (nodes (sw g)) (fst p) && dmem (nodes (sw g)) (snd p)) (fun p => dmem (nodes g) (fst p) && dmem (nodes g) (snd p))); [com_all|].
  intros p. rewrite !(q_mem g G). reflexivity.
Qed.
Lemma com_apply i : com (apply_action i) (apply_action i).
Proof. unfold apply_action. cbv zeta. apply com_get. intros g G. rewrite ?(q_edge g G), ?(q_dir g G), ?(q_und g G). destruct (t_act i); com_all. Qed.
Hint Resolve com_purge com_apply : com.
Lemma com_items dry l : com (take_items dry l) (take_items dry l).
Proof. induction l as [|i l IH]; cbn [take_items]; com_all. Qed.
Hint Resolve com_items : com.
Lemma com_take dry rs : com (take_action no_hooks dry rs) (take_action no_hooks dry rs).
Proof.
  induction rs as [|[l|] rs IH]; cbn [take_action]; [com_all| |exact IH]. apply com_get. intros g G. change (run_pre_hooks no_hooks g l) with (Ok l). change (run_pre_hooks no_hooks (sw g) l) with (Ok l). cbn beta iota.
  apply com_bind; [apply com_items|]. intros t. apply com_get. intros g' G'. change (run_post_hooks no_hooks g' t) with (Ok tt). change (run_post_hooks no_hooks (sw g') t) with (Ok tt). cbn beta iota. com_all.
Qed.
Hint Resolve com_take : com.
Lemma com_log h : com (log_step h) (log_step h).
Proof. intros g G. split; [exact G|reflexivity]. Qed.
Hint Resolve com_log : com.

(* ---- generators ---- *)
Definition blind (f : graph -> res (list emission)) : Prop := forall g, nodes g = n -> f (sw g) = f g.
Lemma live_pairs_same g : nodes g = n -> live_pairs (sw g) = live_pairs g.
Proof. intros G. unfold live_pairs. change (edges (sw g)) with (edges g). apply flat_map_ext. intros p. apply flat_map_ext. intros w. rewrite (q_dir g G). reflexivity. Qed.
Lemma gen_same gen : shipped_gen gen -> (forall g, nodes g = n -> gen (sw g) = gen g) /\ forall g, nodes g = n -> Forall blind (gen g).
Proof.
  induction 1 as [cs|chunked size|so sh chunked cs|coin gen H [IH1 IH2]].
  - split; intros g G; unfold gen_all; [|repeat constructor; intros ? ?; reflexivity]. assert (E : all_combinations cs (sw g) = all_combinations cs g) by (unfold all_combinations; rewrite (q_length g G), (q_keys g G); reflexivity). rewrite E. reflexivity.
  - split; intros g G; unfold gen_edges; [|repeat constructor; intros ? ?; reflexivity]. assert (E : pairs_with_edges chunked size (sw g) = pairs_with_edges chunked size g) by (unfold pairs_with_edges; rewrite (live_pairs_same g G); reflexivity). rewrite E. reflexivity.
  - split; intros g G; unfold gen_neighbours.
    + rewrite (q_length g G). change (pwn_slots (sw g)) with (pwn_slots g). reflexivity.
    + destruct (Nat.ltb _ _); [constructor|]. destruct (Nat.ltb _ _); [constructor|]. destruct (Nat.ltb _ _); [repeat constructor; intros ? ?; reflexivity|].
      apply Forall_forall. intros f Hf. apply in_map_iff in Hf. destruct Hf as ([[k node] nb] & <- & _). intros g1 G1. unfold pwn_slot. rewrite (q_dir g1 G1). destruct (negb _); [reflexivity|]. destruct (Nat.eqb k 2); [reflexivity|]. change (edges (sw g1)) with (edges g1). destruct (dget (edges g1) node) as [row|]; [|reflexivity].
      rewrite (filter_ext (fun m => directed_edge_exists (sw g1) m node) (fun m => directed_edge_exists g1 m node)); [reflexivity|]. intros m. apply (q_dir g1 G1).
  - split; intros g G.
    + rewrite (IH1 g G). reflexivity.
    + specialize (IH2 g G). unfold gen_sample. generalize 0%nat. clear - IH2. induction IH2 as [|f l Bf _ IH]; intros i; cbn [gen_sample_from]; constructor; [|apply IH]. intros g1 G1. rewrite (Bf g1 G1). reflexivity.
Qed.

(* ---- test functions ---- *)
Variables (N N' : numerics) (t t' : id -> list Z).
Hypothesis T : forall x, In x (dkeys n) -> match dget n x with Some nd => n_values nd | None => [] end = t x.
Hypothesis T' : forall x, In x (dkeys n) -> match dget n' x with Some nd => n_values nd | None => [] end = t' x.
Hypothesis SA : same_answers (dkeys n) N N' t t'.
Section Procs.
Variable g : graph.
Hypothesis G : nodes g = n.
Lemma vals x : dmem (nodes g) x = true -> In x (dkeys n) /\ values_of g x = t x /\ values_of (sw g) x = t' x.
Proof. intros M. rewrite G in M. apply dmem_In in M. unfold values_of. rewrite G. auto. Qed.
Lemma node_at_mem ns i x : node_at g ns i = Ok x -> dmem (nodes g) x = true.
Proof. unfold node_at. destruct (nth_error ns i) as [y|]; [|discriminate]. destruct (dmem (nodes g) y) eqn:M; [|discriminate]. intros E; injection E as <-; exact M. Qed.
Lemma vals_all l : forallb (dmem (nodes g)) l = true -> (forall x, In x l -> In x (dkeys n)) /\ map (values_of g) l = map t l /\ map (values_of (sw g)) l = map t' l.
Proof.
  intros M. rewrite forallb_forall in M. split; [intros x X; apply vals, M, X|]. split; apply map_ext_in; intros x X; apply vals, M, X.
Qed.
Lemma p_pearson ns us : pearson_process N' (sw g) ns us = pearson_process N g ns us.
Proof.
  unfold pearson_process. rewrite !(q_at g G). destruct (node_at g ns 0) as [x|] eqn:X; cbn [rbind]; [|reflexivity]. destruct (node_at g ns 1) as [y|] eqn:Y; cbn [rbind]; [|reflexivity]. rewrite (q_value g G).
  destruct (vals x (node_at_mem _ _ _ X)) as (Ix & -> & ->). destruct (vals y (node_at_mem _ _ _ Y)) as (Iy & -> & ->). rewrite (sa_pearson _ _ _ _ _ SA x y Ix Iy). reflexivity.
Qed.
Lemma p_corr ns us : correlation_test N' (sw g) ns us = correlation_test N g ns us.
Proof.
  unfold correlation_test. rewrite !(q_at g G). destruct (node_at g ns 0) as [x|] eqn:X; cbn [rbind]; [|reflexivity]. destruct (node_at g ns 1) as [y|] eqn:Y; cbn [rbind]; [|reflexivity]. rewrite (q_corr g G).
  destruct (vals x (node_at_mem _ _ _ X)) as (Ix & -> & ->). destruct (get_corr g x y) as [m|]; cbn [rbind]; [|reflexivity]. destruct (as_num m) as [c|]; cbn [rbind]; [|reflexivity]. rewrite (sa_corr _ _ _ _ _ SA x c Ix). reflexivity.
Qed.
Lemma p_partial_loop ns : forallb (dmem (nodes g)) ns = true -> forall l del acc, partial_loop N' (sw g) ns l del acc = partial_loop N g ns l del acc.
Proof.
  intros M. induction l as [|z r IH]; intros del acc; cbn [partial_loop]; [reflexivity|]. destruct (filter (fun m => negb (eqb m z)) ns) as [|x [|y q]] eqn:FL; [reflexivity|reflexivity|].
  assert (Mx : dmem (nodes g) x = true) by (rewrite forallb_forall in M; apply M; apply (filter_In (fun m => negb (eqb m z)) x ns); rewrite FL; left; reflexivity).
  rewrite (q_edge g G), !(q_corr g G). destruct (negb (edge_exists g x y) || mem (y, x) del); [apply IH|]. destruct (rbind _ _) as [[[a b] c]|e]; [|reflexivity].
  destruct (as_num a) as [a'|]; cbn [rbind]; [|reflexivity]. destruct (as_num b) as [b'|]; cbn [rbind]; [|reflexivity]. destruct (as_num c) as [c'|]; cbn [rbind]; [|reflexivity].
  destruct (vals x Mx) as (Ix & -> & ->). rewrite <- (sa_partial _ _ _ _ _ SA x _ a' b' c' Ix). destruct (n_partial N (Datatypes.length (t x)) (Datatypes.length ns - 2) a' b' c') as [[[|]|]|e]; cbn [rbind]; try reflexivity; apply IH.
Qed.
Lemma q_forallb ns : forallb (dmem (nodes (sw g))) ns = forallb (dmem (nodes g)) ns.
Proof. apply forallb_ext. intros x. apply (q_mem g G). Qed.
Lemma p_partial ns us : partial_test N' (sw g) ns us = partial_test N g ns us.
Proof. unfold partial_test. rewrite q_forallb. destruct (forallb (dmem (nodes g)) ns) eqn:M; [apply p_partial_loop, M|reflexivity]. Qed.
Lemma p_matrix so ns us : matrix_test so N' (sw g) ns us = matrix_test so N g ns us.
Proof.
  unfold matrix_test. rewrite !(q_at g G). destruct (node_at g ns 0) as [x|] eqn:X; cbn [rbind]; [|reflexivity]. destruct (node_at g ns 1) as [y|] eqn:Y; cbn [rbind]; [|reflexivity]. rewrite (q_edge g G), q_row. destruct (negb (edge_exists g x y)); [reflexivity|].
  destruct (row_of g x) as [row|]; cbn [rbind]; [|reflexivity]. rewrite (filter_ext (fun k => directed_edge_exists (sw g) k x) (fun k => directed_edge_exists g k x)) by (intros k; apply (q_dir g G)). rewrite q_forallb.
  destruct (negb (mem y _)); [reflexivity|]. destruct (negb (forallb _ (skipn 2 ns))); [reflexivity|]. destruct (forallb (dmem (nodes g)) ns) eqn:M; cbn [negb]; [|reflexivity]. destruct (vals_all ns M) as (Il & -> & ->).
  assert (L2 : (2 <= Datatypes.length ns)%nat). { unfold node_at in Y. destruct (nth_error ns 1) eqn:Z; [|discriminate Y]. assert (W : nth_error ns 1 <> None) by congruence. apply nth_error_Some in W. exact W. }
  rewrite (sa_matrix _ _ _ _ _ SA ns L2 Il). reflexivity.
Qed.
Lemma p_regression so ns us : same_regressions (dkeys n) N N' t t' -> regression_test so N' (sw g) ns us = regression_test so N g ns us.
Proof.
  intros SR. unfold regression_test. rewrite !(q_at g G). destruct (node_at g ns 0) as [x|] eqn:X; cbn [rbind]; [|reflexivity]. destruct (node_at g ns 1) as [y|] eqn:Y; cbn [rbind]; [|reflexivity]. rewrite (q_edge g G), q_row. destruct (negb (edge_exists g x y)); [reflexivity|].
  destruct (row_of g x) as [row|]; cbn [rbind]; [|reflexivity]. rewrite q_forallb. destruct (negb (mem y row)); [reflexivity|]. destruct (forallb (dmem (nodes g)) ns) eqn:M; cbn [negb]; [|reflexivity].
  assert (M2 : forallb (dmem (nodes g)) (skipn 2 ns) = true). { apply forallb_forall. intros z Z. rewrite forallb_forall in M. apply M. rewrite <- (firstn_skipn 2 ns). apply in_or_app. right; exact Z. }
  destruct (vals_all _ M2) as (Il & -> & ->). destruct (vals x (node_at_mem _ _ _ X)) as (Ix & -> & ->). destruct (vals y (node_at_mem _ _ _ Y)) as (Iy & -> & ->). rewrite (SR x y _ Ix Iy Il). reflexivity.
Qed.
Lemma lookup_mem l ps : nodes_lookup g l = Ok ps -> forallb (dmem (nodes g)) ps = true.
Proof.
  revert ps. induction l as [|a l IH]; intros ps; cbn [nodes_lookup]; [intros E; injection E as <-; reflexivity|]. destruct (dmem (nodes g) a) eqn:M; [|discriminate]. destruct (nodes_lookup g l) as [q|]; cbn [rbind]; [|discriminate]. intros E; injection E as <-. cbn [forallb]. rewrite M. apply IH. reflexivity.
Qed.
Lemma p_effect ns us : same_effects (dkeys n) N N' t t' -> effect_process N' (sw g) ns us = effect_process N g ns us.
Proof.
  intros SE. unfold effect_process. rewrite !(q_at g G). destruct (node_at g ns 1) as [v|] eqn:V; cbn [rbind]; [|reflexivity]. destruct (node_at g ns 0) as [u|] eqn:U; cbn [rbind]; [|reflexivity]. rewrite (q_value g G), (q_und g G), (q_parents g G). destruct (edge_value g u v) as [ev|]; cbn [rbind]; [|reflexivity]. destruct (undirected_edge_exists g u v); [reflexivity|].
  destruct (parents_of_node g v) as [ps|] eqn:PS; cbn [rbind]; [|reflexivity].
  assert (M : forallb (dmem (nodes g)) (filter (fun p => negb (eqb p u)) ps) = true).
  { unfold parents_of_node in PS. destruct (dget (redges g) v); [|discriminate PS]. apply lookup_mem in PS. apply forallb_forall. intros z Z. apply filter_In in Z. rewrite forallb_forall in PS. apply PS, Z. }
  destruct (vals_all _ M) as (Il & -> & ->). destruct (vals u (node_at_mem _ _ _ U)) as (Iu & -> & ->). destruct (vals v (node_at_mem _ _ _ V)) as (Iv & -> & ->). rewrite (SE u v _ Iu Iv Il). reflexivity.
Qed.
Lemma p_collider st so ns us : collider_test st so (sw g) ns us = collider_test st so g ns us.
Proof.
  unfold collider_test. rewrite !(q_at g G). destruct (node_at g ns 0) as [x|]; cbn [rbind]; [|reflexivity]. destruct (node_at g ns 1) as [y|]; cbn [rbind]; [|reflexivity]. rewrite (q_und g G), q_common, q_hist. destruct (undirected_edge_exists g x y); [reflexivity|].
  destruct (common_keys so g x y) as [zs|]; cbn [rbind]; [|reflexivity]. destruct (retrieve_edge_history _ _ _ _) as [acts|]; cbn [rbind]; [|reflexivity].
  rewrite (rflat_ext (collider_body st us acts (sw g) x y) (collider_body st us acts g x y)); [reflexivity|]. intros z. unfold collider_body. rewrite (q_mem g G). reflexivity.
Qed.
Lemma p_non_collider so ns us : non_collider_test so (sw g) ns us = non_collider_test so g ns us.
Proof.
  unfold non_collider_test. rewrite !(q_at g G). destruct (node_at g ns 0) as [x|]; cbn [rbind]; [|reflexivity]. destruct (node_at g ns 1) as [y|]; cbn [rbind]; [|reflexivity]. rewrite (q_edge g G), q_common. destruct (edge_exists g x y); [reflexivity|].
  destruct (common_keys so g x y) as [zs|]; cbn [rbind]; [|reflexivity]. induction zs as [|z zs IH]; cbn [non_collider_loop]; [reflexivity|]. rewrite (q_mem g G), !(q_only g G), !(q_und g G), IH.
  assert (W : forall a b, would_collide (sw g) a b = would_collide g a b) by (intros a b; unfold would_collide; rewrite (q_keys g G); apply existsb_ext; intros m; rewrite (q_only g G), (q_edge g G); reflexivity).
  rewrite !W. reflexivity.
Qed.
Lemma p_triple ns us : triple_test (sw g) ns us = triple_test g ns us.
Proof.
  unfold triple_test. rewrite !(q_at g G). destruct (node_at g ns 0) as [x|]; cbn [rbind]; [|reflexivity]. destruct (node_at g ns 1) as [y|]; cbn [rbind]; [|reflexivity]. rewrite (q_keys g G).
  rewrite (flat_map_ext (triple_body (sw g) x y) (triple_body g x y)); [reflexivity|]. intros z. unfold triple_body. rewrite !(q_edge g G), !(q_und g G), !(q_only g G). reflexivity.
Qed.
Lemma q_shared so y w : shared_adjacent so (sw g) y w = shared_adjacent so g y w.
Proof. unfold shared_adjacent. rewrite (q_keys g G). f_equal. apply filter_ext. intros z. rewrite !(q_edge g G). reflexivity. Qed.
Lemma p_quadruple so ns us : quadruple_test so (sw g) ns us = quadruple_test so g ns us.
Proof.
  unfold quadruple_test. rewrite !(q_at g G). destruct (node_at g ns 0) as [y|]; cbn [rbind]; [|reflexivity]. destruct (node_at g ns 1) as [w|]; cbn [rbind]; [|reflexivity]. rewrite q_shared.
  rewrite (flat_map_ext (quadruple_body (sw g) y w) (quadruple_body g y w)); [reflexivity|]. intros p. unfold quadruple_body. destruct p as [|x [|z [|]]]; try reflexivity. rewrite !(q_edge g G), !(q_und g G), !(q_only g G). reflexivity.
Qed.
Lemma p_further so ns us : further_quadruple_test so (sw g) ns us = further_quadruple_test so g ns us.
Proof.
  unfold further_quadruple_test. rewrite !(q_at g G). destruct (node_at g ns 0) as [x|]; cbn [rbind]; [|reflexivity]. destruct (node_at g ns 1) as [w|]; cbn [rbind]; [|reflexivity]. rewrite q_shared.
  rewrite (flat_map_ext (further_quadruple_body (sw g) x w) (further_quadruple_body g x w)); [reflexivity|]. intros p. unfold further_quadruple_body. destruct p as [|y [|z [|]]]; try reflexivity. rewrite !(q_edge g G), !(q_und g G), !(q_only g G). reflexivity.
Qed.
Lemma p_fci so ns us : collider_rule_fci so (sw g) ns us = collider_rule_fci so g ns us.
Proof.
  unfold collider_rule_fci. rewrite !(q_at g G). destruct (node_at g ns 0) as [x|]; cbn [rbind]; [|reflexivity]. destruct (node_at g ns 1) as [y|]; cbn [rbind]; [|reflexivity]. rewrite (q_und g G), q_common, q_hist. destruct (undirected_edge_exists g x y); [reflexivity|].
  destruct (common_keys so g x y) as [zs|]; cbn [rbind]; [|reflexivity]. destruct (retrieve_edge_history _ _ _ _) as [acts|]; cbn [rbind]; [|reflexivity].
  match goal with |- rbind (rflat ?f zs) _ = rbind (rflat ?h zs) _ => rewrite (rflat_ext f h); [reflexivity|] end. intros z. rewrite (q_mem g G). reflexivity.
Qed.
End Procs.
Variables (regressions effects : Prop).
Hypothesis HR : regressions -> same_regressions (dkeys n) N N' t t'.
Hypothesis HE : effects -> same_effects (dkeys n) N N' t t'.
Lemma proc_same p p' g ns us : same_proc regressions effects N N' p p' -> nodes g = n -> p' (sw g) ns us = p g ns us.
Proof.
  intros S G. destruct S; auto using p_pearson, p_corr, p_partial, p_matrix, p_regression, p_effect, p_collider, p_non_collider, p_triple, p_quadruple, p_further, p_fci.
Qed.
Notation ssame := (same_step regressions effects N N').
Lemma call_same s s' g ns us : ssame s s' -> nodes g = n -> call s' (sw g) ns us = call s g ns us.
Proof. intros [Hn Hg _ Hc Hp Hu Hs Hpr] G. unfold call. rewrite Hu. apply proc_same; assumption. Qed.

(* ---- the executor ---- *)
Lemma com_lift {A} (r r' : res A) : r' = r -> com (liftr r) (liftr r').
Proof. intros ->. destruct r; [apply com_ret|apply com_raise]. Qed.
Lemma rmap_same {A B} (f h : A -> res B) l : (forall a, f a = h a) -> rmap f l = rmap h l.
Proof. intros E. induction l; cbn [rmap]; [reflexivity|]. rewrite E, IHl. reflexivity. Qed.
Lemma com_chunks dry s s' : ssame s s' -> forall es, com (run_chunks no_hooks dry s es) (run_chunks no_hooks dry s' es).
Proof.
  intros S. induction es as [|e es IH]; cbn [run_chunks]; [apply com_ret|]. apply com_get. intros g G. apply com_bind; [apply com_lift, rmap_same; intros ns; apply (call_same _ _ g ns None S G)|]. intros rs. apply com_bind; [apply com_take|]. intros a. apply com_bind; [exact IH|]. intros b. apply com_ret.
Qed.
Lemma com_blocks dry s s' : ssame s s' -> forall bs, Forall blind bs -> com (run_blocks no_hooks dry s bs) (run_blocks no_hooks dry s' bs).
Proof.
  intros S. induction 1 as [|f bs Bf _ IH]; cbn [run_blocks]; [apply com_ret|]. apply com_get. intros g G. apply com_bind; [apply com_lift, Bf, G|]. intros es. apply com_bind; [apply com_chunks, S|]. intros a. apply com_bind; [exact IH|]. intros b. apply com_ret.
Qed.
Lemma collect_same s s' g : ssame s s' -> nodes g = n -> forall es loc, collect s' (sw g) es loc = collect s g es loc.
Proof.
  intros S G. induction es as [|e es IH]; intros loc; cbn [collect]; [reflexivity|]. destruct (as_args e) as [ns|]; cbn [rbind]; [|reflexivity]. rewrite (call_same _ _ g ns (Some loc) S G). destruct (call s g ns (Some loc)); cbn [rbind]; [apply IH|reflexivity].
Qed.
Lemma com_sync dry s s' : ssame s s' -> forall es, com (run_sync no_hooks dry s es) (run_sync no_hooks dry s' es).
Proof.
  intros S. induction es as [|e es IH]; cbn [run_sync]; [apply com_ret|]. apply com_get. intros g G. apply com_bind; [apply com_lift; apply rbind_ext; intros ns; apply (call_same _ _ g ns (Some []) S G)|]. intros o. apply com_bind; [apply com_take|]. intros a. apply com_bind; [exact IH|]. intros b. apply com_ret.
Qed.
Lemma gen_run_same g bs : nodes g = n -> Forall blind bs -> gen_run bs (sw g) = gen_run bs g.
Proof. intros G. unfold gen_run. induction 1 as [|f bs Bf _ IH]; cbn [rflat]; [reflexivity|]. rewrite (Bf g G), IH. reflexivity. Qed.
Variables P P' : runner.
Definition seq_or_same (l : list step) : Prop := forall s s' dry, In s l -> s_parallel s = true -> ssame s s' -> com (P s dry) (P' s' dry).
Lemma com_execute s s' dry : ssame s s' -> seq_or_same [s] -> com (execute_step P no_hooks s dry) (execute_step P' no_hooks s' dry).
Proof.
  intros S HP. assert (S0 := S). destruct S0 as [Hn Hg Hsg Hc Hp Hu Hs Hpr]. unfold execute_step. rewrite Hp, Hc, Hs. destruct (s_parallel s) eqn:Pa; [exact (HP s s' dry (or_introl eq_refl) Pa S)|]. destruct (gen_same _ Hsg) as [Gs Gb].
  destruct (s_chunked s).
  - apply com_get. intros g G. rewrite Hg, (Gs g G). apply com_blocks; [exact S|apply Gb, G].
  - apply com_get. intros g G. rewrite Hg, (Gs g G). apply com_bind; [apply com_lift, gen_run_same; [exact G|apply Gb, G]|]. intros es. destruct (s_sync s); [apply com_sync, S|]. apply com_bind; [apply com_lift, collect_same; assumption|]. intros rs. apply com_take.
Qed.
Lemma seq_one s l : seq_or_same (s :: l) -> seq_or_same [s] /\ seq_or_same l.
Proof. intros H. split; intros s1 s2 dry I; apply H; [destruct I as [<-|[]]; left; reflexivity|right; exact I]. Qed.
Lemma com_inner dry l l' : Forall2 ssame l l' -> seq_or_same l -> com (run_inner P no_hooks dry l) (run_inner P' no_hooks dry l').
Proof.
  induction 1 as [|s s' l l' S _ IH]; intros Q; cbn [run_inner]; [apply com_ret|]. destruct (seq_one _ _ Q) as [Q1 Q2]. apply com_bind; [apply com_execute; assumption|]. intros a. apply com_bind; [apply IH, Q2|]. intros b. destruct S as [-> _ _ _ _ _ _ _]. apply com_ret.
Qed.
Lemma com_loop exit l l' : Forall2 ssame l l' -> seq_or_same l -> forall fuel k last, com (run_loop fuel P no_hooks exit l k last) (run_loop fuel P' no_hooks exit l' k last).
Proof.
  intros S Q. induction fuel as [|fuel IH]; intros k last; cbn [run_loop]; [apply com_raise|]. apply com_bind; [apply com_lift; reflexivity|]. intros [|]; [apply com_ret|]. apply com_bind; [apply com_inner; assumption|]. intros a. apply com_bind; [apply IH|]. intros b. apply com_ret.
Qed.
Lemma com_together l l' : Forall2 ssame l l' -> seq_or_same l -> com (run_together P no_hooks l) (run_together P' no_hooks l').
Proof. intros S Q. unfold run_together. apply com_bind; [apply com_inner; assumption|]. intros a. apply com_bind; [apply com_take|]. intros b. apply com_ret. Qed.
Lemma com_pipeline fuel l l' : same_pipeline regressions effects N N' l l' -> same_pools regressions effects N N' n n' P P' l ->
  com (execute_pipeline fuel P no_hooks l) (execute_pipeline fuel P' no_hooks l').
Proof.
  induction 1 as [|p p' l l' S _ IH]; intros Q; cbn [execute_pipeline]; [apply com_ret|]. apply com_bind; [|intros _; apply IH; intros q s s' dry g Hq; apply Q; right; exact Hq].
  assert (Q0 : seq_or_same (steps_of p)) by (intros s s' dry I Pa Ss g G; apply (Q p s s' dry g (or_introl eq_refl) I Pa Ss G)). destruct S as [s s' S|name exit l1 l1' S|name l1 l1' S]; cbn [run_pstep steps_of] in *.
  - apply com_bind; [apply com_execute; assumption|]. intros a. destruct S as [-> _ _ _ _ _ _ _]. apply com_bind; [apply com_log|]. intros _. apply com_purge.
  - apply com_bind; [apply com_loop; assumption|]. intros hs. apply com_log.
  - apply com_bind; [apply com_together; assumption|]. intros hs. apply com_log.
Qed.

(* ---- schedules ---- *)
Lemma par_same dry s s' : ssame s s' -> forall bs tasks done_ past g a r, par_run no_hooks dry s bs tasks done_ past g a r -> Forall blind bs -> Forall (fun x => nodes x = n) past -> nodes g = n ->
  par_run no_hooks dry s' bs tasks done_ (map sw past) (sw g) a (sw (fst r), snd r).
Proof.
  intros S bs tasks done_ past g a r R.
  induction R as [past g a|f bs tasks done_ past g a g0 es r I0 E _ IH|f bs tasks done_ past g a g0 e I0 E|bs t1 t2 t3 done_ past g a g0 o r I0 E _ IH|bs t1 t2 t3 done_ past g a g0 e I0 E|bs tasks d1 o d2 past g a g' b r E _ IH|bs tasks d1 o d2 past g a g' e E]; intros B PA G; cbn [fst snd].
  - constructor.
  - inversion B as [|? ? Bf B']; subst. rewrite Forall_forall in PA. assert (G0 := PA g0 I0). eapply par_gen; [apply in_map, I0|rewrite (Bf g0 G0); exact E|]. apply IH; [exact B'|apply Forall_forall; exact PA|assumption].
  - inversion B as [|? ? Bf B']; subst. rewrite Forall_forall in PA. eapply par_gen_error; [apply in_map, I0|rewrite (Bf g0 (PA g0 I0)); exact E].
  - assert (PA' := PA). rewrite Forall_forall in PA. eapply par_work; [apply in_map, I0| |apply IH; assumption]. rewrite <- E. apply rbind_ext. intros ns. apply (call_same _ _ g0 ns None S (PA g0 I0)).
  - rewrite Forall_forall in PA. eapply par_work_error; [apply in_map, I0|]. rewrite <- E. apply rbind_ext. intros ns. apply (call_same _ _ g0 ns None S (PA g0 I0)).
  - destruct (com_take dry (single_results o) g G) as [G1 X]. rewrite E in G1, X. cbn [fst snd] in G1, X. eapply par_take; [exact X|]. apply IH; [exact B|constructor; assumption|exact G1].
  - destruct (com_take dry (single_results o) g G) as [G1 X]. rewrite E in G1, X. cbn [fst snd] in G1, X. eapply par_take_error. exact X.
Qed.
Lemma exec_same s s' dry g r : ssame s s' -> nodes g = n -> par_exec no_hooks s dry g r -> par_exec no_hooks s' dry (sw g) (sw (fst r), snd r).
Proof.
  intros S G R. unfold par_exec in *. destruct (gen_same _ (st_shipped _ _ _ _ _ _ S)) as [Gs Gb]. rewrite (st_gen _ _ _ _ _ _ S), (Gs g G). apply (par_same dry s s' S) in R; [exact R|apply Gb, G|repeat constructor; exact G|exact G].
Qed.
Lemma par_nodes dry s : forall bs tasks done_ past g a r, par_run no_hooks dry s bs tasks done_ past g a r -> nodes g = n -> nodes (fst r) = n.
Proof.
  induction 1 as [past g a|f bs tasks done_ past g a g0 es r I0 E _ IH|f bs tasks done_ past g a g0 e I0 E|bs t1 t2 t3 done_ past g a g0 o r I0 E _ IH|bs t1 t2 t3 done_ past g a g0 e I0 E|bs tasks d1 o d2 past g a g' b r E _ IH|bs tasks d1 o d2 past g a g' e E]; intros G; cbn [fst snd]; auto.
  - apply IH. destruct (com_take dry (single_results o) g G) as [G1 _]. rewrite E in G1. exact G1.
  - destruct (com_take dry (single_results o) g G) as [G1 _]. rewrite E in G1. exact G1.
Qed.
Lemma com_add_edges l : com (add_edges l) (add_edges l).
Proof. induction l as [|[u v] l IH]; cbn [add_edges]; [apply com_ret|]. apply com_bind; [apply com_add_edge|]. intros _. exact IH. Qed.
End Swap.
