(* Two runs whose tests come to the same verdicts go side by side. *)
From Verif Require Import Base PyDict PyDictFacts Graph Actions Generators Rules IndepTests Pipeline Parallel PipeSpec DataSpec DataFacts VerdictSpec.
Open Scope string_scope.
Open Scope list_scope.

(* ---- dicts with the same keys ---- *)
Section Keyed.
Context {A V : Type} `{EqB A}.
Definition krel (R : A -> V -> V -> Prop) (d d' : dict A V) : Prop := Forall2 (fun p p' => fst p' = fst p /\ R (fst p) (snd p) (snd p')) d d'.
Lemma krel_keys R d d' : krel R d d' -> dkeys d' = dkeys d.
Proof. induction 1 as [|p p' d d' [E _] _ IH]; cbn; [reflexivity|]. rewrite E. f_equal. exact IH. Qed.
Lemma krel_get R d d' k : krel R d d' -> match dget d k, dget d' k with Some v, Some v' => R k v v' | None, None => True | _, _ => False end.
Proof.
  induction 1 as [|[k1 v] [k2 v'] d d' [E X] _ IH]; cbn [dget fst snd] in *; [exact Logic.I|]. subst k2. destruct (eqb_spec k k1) as [->|Ne]; [exact X|exact IH].
Qed.
Lemma krel_set R d d' k v v' : krel R d d' -> R k v v' -> krel R (dset d k v) (dset d' k v').
Proof.
  intros D Rk. induction D as [|[k1 w] [k2 w'] d d' [E X] D IH]; cbn [dset fst snd] in *; [repeat constructor; exact Rk|]. subst k2. destruct (eqb_spec k k1) as [->|Ne]; constructor; auto.
Qed.
Lemma krel_del R d d' k : krel R d d' -> krel R (ddel d k) (ddel d' k).
Proof.
  intros D. induction D as [|[k1 w] [k2 w'] d d' [E X] D IH]; cbn [ddel fst snd] in *; [constructor|]. subst k2. destruct (eqb_spec k k1) as [->|Ne]; [exact D|constructor; auto].
Qed.
Lemma krel_mem R d d' k : krel R d d' -> dmem d' k = dmem d k.
Proof. intros D. unfold dmem. assert (X := krel_get R d d' k D). destruct (dget d k), (dget d' k); try reflexivity; destruct X; fail. Qed.
Lemma krel_imp (R R' : A -> V -> V -> Prop) d d' : (forall k v v', R k v v' -> R' k v v') -> krel R d d' -> krel R' d d'.
Proof. intros I. induction 1 as [|p p' d d' [E X] _ IH]; constructor; auto. Qed.
End Keyed.

Section Side.
Variables (n n' : dict id Graph.node).
Hypothesis K : dkeys n' = dkeys n.
Variables (N N' : numerics) (t t' : id -> list Z).
Variable ee : exn -> exn -> Prop.
Hypothesis ee_refl : forall e, ee e e.
Notation st := (stored N N' t t').
Lemma st_sym x y c c' : st x y c c' -> st y x c c'.
Proof. intros [A|A]; [right|left]; exact A. Qed.

(* ---- the relation ---- *)
Definition vrel (u v : id) (k : string) (a a' : mval) : Prop := if eqb k "correlation" then exists c c', a = MNum c /\ a' = MNum c' /\ st u v c c' else a' = a.
Definition mrel (u v : id) (m m' : option meta) : Prop :=
  match m, m' with Some m, Some m' => krel (vrel u v) m m' | None, None => True | _, _ => False end.
Definition erel (u v : id) (e e' : edge) : Prop := u <> v /\ e_u e' = e_u e /\ e_v e' = e_v e /\ e_type e' = e_type e /\ e_del e' = e_del e /\ mrel u v (e_meta e) (e_meta e').
Definition rel2 (d d' : dict id (dict id edge)) : Prop := krel (fun u => krel (erel u)) d d'.
Definition irel (i i' : tresult) : Prop := t_u i' = t_u i /\ t_v i' = t_v i /\ t_act i' = t_act i /\ mrel (t_u i) (t_v i) (t_data i) (t_data i') /\ (t_act i = REMOVE_EDGE_UNDIRECTED -> i' = i).
Definition orel (o o' : outcome) : Prop := match o, o' with Some l, Some l' => Forall2 irel l l' | None, None => True | _, _ => False end.
Record rel (g g' : graph) : Prop := {
  r_nodes : nodes g = n; r_nodes' : nodes g' = n';
  r_edges : rel2 (edges g) (edges g'); r_redges : rel2 (redges g) (redges g'); r_dedges : rel2 (dedges g) (dedges g');
  r_hist : krel (fun _ => Forall2 irel) (ehist g) (ehist g') }.
Lemma mrel_sym u v m m' : mrel u v m m' -> mrel v u m m'.
Proof.
  unfold mrel. destruct m as [m|], m' as [m'|]; auto. apply krel_imp. intros k a a'. unfold vrel. destruct (eqb k "correlation"); [|auto]. intros (c & c' & E & E' & S). exists c, c'. auto using st_sym.
Qed.
(* ---- two-level dicts ---- *)
Lemma rel2_get d d' u v : rel2 d d' -> match dget2 d u v, dget2 d' u v with Some e, Some e' => erel u v e e' | None, None => True | _, _ => False end.
Proof.
  intros D. unfold dget2. assert (X := krel_get _ d d' u D). destruct (dget d u) as [r|], (dget d' u) as [r'|]; try (exact Logic.I || (destruct X; fail)). apply (krel_get _ r r' v X).
Qed.
Lemma rel2_mem d d' u v : rel2 d d' -> dmem2 d' u v = dmem2 d u v.
Proof. intros D. unfold dmem2. assert (X := rel2_get d d' u v D). destruct (dget2 d u v), (dget2 d' u v); try reflexivity; destruct X; fail. Qed.
Definition optrel (o o' : option (dict id (dict id edge))) : Prop := match o, o' with Some d, Some d' => rel2 d d' | None, None => True | _, _ => False end.
Lemma rel2_set d d' u v e e' : rel2 d d' -> erel u v e e' -> optrel (dset2 d u v e) (dset2 d' u v e').
Proof.
  intros D E. unfold dset2. assert (X := krel_get _ d d' u D). destruct (dget d u) as [r|], (dget d' u) as [r'|]; try (exact Logic.I || (destruct X; fail)). cbn [optrel]. apply krel_set; [exact D|]. apply krel_set; assumption.
Qed.
Lemma rel2_del d d' u v : rel2 d d' -> optrel (ddel2 d u v) (ddel2 d' u v).
Proof.
  intros D. unfold ddel2. assert (X := krel_get _ d d' u D). destruct (dget d u) as [r|], (dget d' u) as [r'|]; try (exact Logic.I || (destruct X; fail)). rewrite (krel_mem _ r r' v X). destruct (dmem r v); [|exact Logic.I]. cbn [optrel]. apply krel_set; [exact D|]. apply krel_del, X.
Qed.
Lemma rel2_upd d d' u v f f' : rel2 d d' -> (forall e e', erel u v e e' -> erel u v (f e) (f' e')) -> optrel (dupd2 d u v f) (dupd2 d' u v f').
Proof.
  intros D F. unfold dupd2. assert (X := rel2_get d d' u v D). destruct (dget2 d u v), (dget2 d' u v); try (exact Logic.I || (destruct X; fail)). apply rel2_set; [exact D|]. apply F. exact X.
Qed.
Lemma erel_flip u v e e' : erel u v e e' -> erel v u e e'.
Proof. intros (Ne & A & B & C & D & M). repeat split; auto using mrel_sym. Qed.
Lemma erel_del u v b e e' : erel u v e e' -> erel u v (set_del b e) (set_del b e').
Proof. intros (Ne & A & B & C & D & M). repeat split; auto. Qed.
Lemma erel_type u v x e e' : erel u v e e' -> erel u v (set_type x e) (set_type x e').
Proof. intros (Ne & A & B & C & D & M). repeat split; auto. Qed.
Lemma erel_meta u v m m' e e' : mrel u v m m' -> erel u v e e' -> erel u v (set_meta m e) (set_meta m' e').
Proof. intros Mm (Ne & A & B & C & D & M). repeat split; auto. Qed.
Lemma erel_new u v x m m' : u <> v -> mrel u v m m' -> erel u v (mkEdge u v x m false) (mkEdge u v x m' false).
Proof. intros Ne M. repeat split; auto. Qed.

(* ---- queries ---- *)
Section Queries.
Variables g g' : graph.
Hypothesis G : rel g g'.
Lemma q_mem u : dmem (nodes g') u = dmem (nodes g) u.
Proof. rewrite (r_nodes _ _ G), (r_nodes' _ _ G). apply dmem_same, K. Qed.
Lemma q_keys : dkeys (nodes g') = dkeys (nodes g).
Proof. rewrite (r_nodes _ _ G), (r_nodes' _ _ G). exact K. Qed.
Lemma q_length : List.length (nodes g') = List.length (nodes g).
Proof. rewrite <- (map_length fst (nodes g')), <- (map_length fst (nodes g)). change (List.length (dkeys (nodes g')) = List.length (dkeys (nodes g))). rewrite q_keys. reflexivity. Qed.
Lemma q_mem2 u v : dmem2 (edges g') u v = dmem2 (edges g) u v.
Proof. apply rel2_mem, G. Qed.
Lemma q_soft u v : directed_edge_is_soft_deleted g' u v = directed_edge_is_soft_deleted g u v.
Proof. unfold directed_edge_is_soft_deleted. assert (X := rel2_get _ _ u v (r_edges _ _ G)). destruct (dget2 (edges g) u v), (dget2 (edges g') u v); try (reflexivity || (destruct X; fail)). apply X. Qed.
Lemma q_edge u v : edge_exists g' u v = edge_exists g u v.
Proof. unfold edge_exists. rewrite !q_mem, !q_mem2, !q_soft. reflexivity. Qed.
Lemma q_dir u v : directed_edge_exists g' u v = directed_edge_exists g u v.
Proof. unfold directed_edge_exists. rewrite !q_mem, !q_mem2, !q_soft. reflexivity. Qed.
Lemma q_und u v : undirected_edge_exists g' u v = undirected_edge_exists g u v.
Proof. unfold undirected_edge_exists. rewrite !q_dir. reflexivity. Qed.
Lemma q_only u v : only_directed_edge_exists g' u v = only_directed_edge_exists g u v.
Proof. unfold only_directed_edge_exists. rewrite !q_dir. reflexivity. Qed.
Lemma q_at ns i : node_at g' ns i = node_at g ns i.
Proof. unfold node_at. destruct (nth_error ns i); [rewrite q_mem|]; reflexivity. Qed.
Lemma q_row x : row_of g' x = row_of g x.
Proof.
  unfold row_of. assert (X := krel_get _ _ _ x (r_edges _ _ G)). destruct (dget (edges g) x), (dget (edges g') x); try (reflexivity || (destruct X; fail)). f_equal. apply (krel_keys _ _ _ X).
Qed.
Lemma q_common so x y : common_keys so g' x y = common_keys so g x y.
Proof. unfold common_keys. rewrite !q_row. reflexivity. Qed.
Lemma q_removals x y : retrieve_edge_history g' x y (Some REMOVE_EDGE_UNDIRECTED) = retrieve_edge_history g x y (Some REMOVE_EDGE_UNDIRECTED).
Proof.
  unfold retrieve_edge_history. assert (X := krel_get _ _ _ (x, y) (r_hist _ _ G)). destruct (dget (ehist g) (x, y)) as [l|], (dget (ehist g') (x, y)) as [l'|]; try (reflexivity || (destruct X; fail)). f_equal.
  induction X as [|i i' l l' I _ IH]; cbn [filter]; [reflexivity|]. destruct I as (_ & _ & Ea & _ & Eq). rewrite Ea. destruct (t_act i) eqn:A; cbn [taction_eqb]; try exact IH. rewrite (Eq eq_refl), IH. reflexivity.
Qed.
Lemma q_value u v : match edge_value g u v, edge_value g' u v with Ok m, Ok m' => (edge_exists g u v = true -> u <> v /\ mrel u v m m') /\ (edge_exists g u v = false -> m = None /\ m' = None) | Err e, Err e' => e' = e | _, _ => False end.
Proof.
  unfold edge_value. rewrite q_edge. destruct (edge_exists g u v) eqn:Ee; cbn [negb]; [|split; [discriminate|auto]]. assert (X := rel2_get _ _ u v (r_edges _ _ G)). destruct (dget2 (edges g) u v), (dget2 (edges g') u v); try (reflexivity || (destruct X; fail)). split; [intros _; split; apply X|discriminate].
Qed.
End Queries.

(* ---- operations ---- *)
Definition rres {A B} (Q : A -> B -> Prop) (r : res A) (r' : res B) : Prop := match r, r' with Ok a, Ok b => Q a b | Err e, Err e' => ee e e' | _, _ => False end.
Lemma rres_refl {A} (Q : A -> A -> Prop) r : (forall a, Q a a) -> rres Q r r.
Proof. destruct r; cbn; auto. Qed.
Lemma rres_err {A B} (Q : A -> B -> Prop) e : rres Q (Err e) (Err e).
Proof. apply ee_refl. Qed.
Lemma rbind_rel {A B C D} (Q : A -> B -> Prop) (Q' : C -> D -> Prop) r r' f h : rres Q r r' -> (forall a b, Q a b -> rres Q' (f a) (h b)) -> rres Q' (rbind r f) (rbind r' h).
Proof. destruct r, r'; cbn; auto; intros []. Qed.
Lemma agree_res {A} (r r' : res A) : agree ee r r' -> rres (fun a b => b = a) r r'.
Proof. exact (fun H => H). Qed.
Ltac rf := first [reflexivity | intros; apply ee_refl].
Definition com {A B} (Q : A -> B -> Prop) (m : ST A) (m' : ST B) : Prop := forall g g', rel g g' -> rel (fst (m g)) (fst (m' g')) /\ rres Q (snd (m g)) (snd (m' g')).
Definition any {A B} : A -> B -> Prop := fun _ _ => True.
Lemma com_ret {A B} (Q : A -> B -> Prop) a b : Q a b -> com Q (ret a) (ret b).
Proof. intros H g g' G. split; [exact G|exact H]. Qed.
Lemma com_raise {A B} (Q : A -> B -> Prop) e : com Q (raise e) (raise e).
Proof. intros g g' G. split; [exact G|rf]. Qed.
Lemma com_bind {A B C D} (Q : A -> B -> Prop) (Q' : C -> D -> Prop) (m : ST A) (m' : ST B) k k' : com Q m m' -> (forall a b, Q a b -> com Q' (k a) (k' b)) -> com Q' (bind m k) (bind m' k').
Proof.
  intros M KK g g' G. unfold bind. destruct (M g g' G) as [G1 R1]. destruct (m g) as [g1 [a|e]], (m' g') as [g1' [b|e']]; cbn [fst snd rres] in *; try (destruct R1; fail); [apply KK; assumption|split; [exact G1|exact R1]].
Qed.
Lemma com_seq {C D} (Q' : C -> D -> Prop) (m m' : ST unit) k k' : com any m m' -> com Q' (k tt) (k' tt) -> com Q' (bind m k) (bind m' k').
Proof. intros M KK. eapply com_bind; [exact M|]. intros [] [] _. exact KK. Qed.
Lemma com_get {C D} (Q : C -> D -> Prop) k k' : (forall g g', rel g g' -> com Q (k g) (k' g')) -> com Q (bind gget k) (bind gget k').
Proof. intros H g g' G. unfold bind, gget. apply H; assumption. Qed.
Lemma com_weak {A B} (Q Q' : A -> B -> Prop) m m' : (forall a b, Q a b -> Q' a b) -> com Q m m' -> com Q' m m'.
Proof. intros I M g g' G. destruct (M g g' G) as [A1 B1]. split; [exact A1|]. unfold rres in *. destruct (snd (m g)), (snd (m' g')); auto. Qed.
Lemma com_need u : com any (need_node u) (need_node u).
Proof. intros g g' G. unfold need_node. rewrite (q_mem g g' G). destruct (dmem (nodes g) u); split; try exact G; exact Logic.I || rf. Qed.
Lemma rel_entry u g g' : rel g g' -> rel (init_entry u g) (init_entry u g').
Proof.
  intros G. unfold init_entry. rewrite (krel_mem _ _ _ u (r_edges _ _ G)). destruct (dmem (edges g) u); [exact G|]. destruct G as [A B C D E F]. split; cbn [nodes edges redges dedges ehist]; auto; apply krel_set; try assumption; constructor.
Qed.
Lemma rel_hist u v g g' : rel g g' -> rel (init_hist u v g) (init_hist u v g').
Proof.
  intros G. unfold init_hist. rewrite (krel_mem _ _ _ (u, v) (r_hist _ _ G)). destruct (dmem (ehist g) (u, v)); [exact G|]. destruct G as [A B C D E F]. split; cbn [with_ehist nodes edges redges dedges ehist]; auto. apply krel_set; [exact F|constructor].
Qed.
Lemma com_init u v : com any (init_edge u v) (init_edge u v).
Proof. intros g g' G. unfold init_edge. cbn [fst snd]. split; [|exact Logic.I]. repeat apply rel_hist. repeat apply rel_entry. exact G. Qed.
Lemma com_on_edges f f' : (forall d d', rel2 d d' -> optrel (f d) (f' d')) -> com any (on_edges f) (on_edges f').
Proof.
  intros F g g' G. unfold on_edges. assert (X := F _ _ (r_edges _ _ G)). destruct (f (edges g)), (f' (edges g')); cbn [optrel] in X; try (destruct X; fail); split; try exact Logic.I; try rf; [|exact G]. destruct G; split; auto.
Qed.
Lemma com_on_redges f f' : (forall d d', rel2 d d' -> optrel (f d) (f' d')) -> com any (on_redges f) (on_redges f').
Proof.
  intros F g g' G. unfold on_redges. assert (X := F _ _ (r_redges _ _ G)). destruct (f (redges g)), (f' (redges g')); cbn [optrel] in X; try (destruct X; fail); split; try exact Logic.I; try rf; [|exact G]. destruct G; split; auto.
Qed.
Lemma com_on_dedges f f' : (forall d d', rel2 d d' -> optrel (f d) (f' d')) -> com any (on_dedges f) (on_dedges f').
Proof.
  intros F g g' G. unfold on_dedges. assert (X := F _ _ (r_dedges _ _ G)). destruct (f (dedges g)), (f' (dedges g')); cbn [optrel] in X; try (destruct X; fail); split; try exact Logic.I; try rf; [|exact G]. destruct G; split; auto.
Qed.
Lemma com_add_hist u v a a' : irel a a' -> com any (add_edge_history u v a) (add_edge_history u v a').
Proof.
  intros I g g' G. unfold add_edge_history. split; [|exact Logic.I]. cbn [fst]. assert (X := krel_get _ _ _ (u, v) (r_hist _ _ G)). destruct G as [A B C D E F]. split; cbn [with_ehist nodes edges redges dedges ehist]; auto.
  apply krel_set; [exact F|]. destruct (dget (ehist g) (u, v)), (dget (ehist g') (u, v)); try (destruct X; fail); [apply Forall2_app; [exact X|]|cbn [app]]; (constructor; [exact I|constructor]).
Qed.
Lemma com_add_edge u v m m' x : mrel u v m m' -> com any (add_edge u v m x) (add_edge u v m' x).
Proof.
  intros M. unfold add_edge. apply com_seq; [apply com_need|]. apply com_seq; [apply com_need|]. destruct (eqb_spec u v) as [E|Ne].
  - intros g g' G. split; [exact G|rf].
  - apply com_seq; [apply com_ret; exact Logic.I|]. apply com_seq; [apply com_init|]. cbv zeta. assert (A := erel_new u v x m m' Ne M). assert (B := erel_new v u x m m' (not_eq_sym Ne) (mrel_sym _ _ _ _ M)).
    apply com_seq; [apply com_on_edges; intros; apply rel2_set; assumption|]. apply com_seq; [apply com_on_redges; intros; apply rel2_set; [assumption|apply erel_flip; assumption]|].
    apply com_seq; [apply com_on_edges; intros; apply rel2_set; assumption|]. apply com_on_redges; intros; apply rel2_set; [assumption|apply erel_flip; assumption].
Qed.
Lemma com_add_directed u v m m' x : mrel u v m m' -> com any (add_directed_edge u v m x) (add_directed_edge u v m' x).
Proof.
  intros M. unfold add_directed_edge. apply com_seq; [apply com_need|]. apply com_seq; [apply com_need|]. destruct (eqb_spec u v) as [E|Ne].
  - intros g g' G. split; [exact G|rf].
  - apply com_seq; [apply com_ret; exact Logic.I|]. apply com_seq; [apply com_init|]. cbv zeta. assert (A := erel_new u v x m m' Ne M).
    apply com_seq; [apply com_on_edges; intros; apply rel2_set; assumption|]. apply com_on_redges; intros; apply rel2_set; [assumption|apply erel_flip; assumption].
Qed.
Lemma com_soft u v b : com any (soft_flag u v b) (soft_flag u v b).
Proof. unfold soft_flag. apply com_seq; [apply com_on_edges|apply com_on_redges]; intros; apply rel2_upd; auto using erel_del. Qed.
Lemma com_upd4 u v f f' : (forall e e', erel u v e e' -> erel u v (f e) (f' e')) -> (forall e e', erel v u e e' -> erel v u (f e) (f' e')) -> com any (upd4 u v f) (upd4 u v f').
Proof. intros F F'. unfold upd4. apply com_seq; [apply com_on_edges; intros; apply rel2_upd; auto|]. apply com_seq; [apply com_on_edges; intros; apply rel2_upd; auto|]. apply com_seq; apply com_on_redges; intros; apply rel2_upd; auto. Qed.
Lemma com_upd2 u v f f' : (forall e e', erel u v e e' -> erel u v (f e) (f' e')) -> com any (upd2 u v f) (upd2 u v f').
Proof.
  intros F. unfold upd2. apply com_seq; [apply com_on_edges; intros; apply rel2_upd; auto|]. apply com_on_redges; intros; apply rel2_upd; auto. intros e e' X. apply erel_flip, F, erel_flip, X.
Qed.
Lemma com_if {C D} (Q : C -> D -> Prop) (b : bool) m1 m2 m1' m2' : com Q m1 m1' -> com Q m2 m2' -> com Q (if b then m1 else m2) (if b then m1' else m2').
Proof. destruct b; auto. Qed.
Lemma com_drop u v e e' w : erel u v e e' -> (w = (u, v) \/ w = (v, u)) ->
  com any (on_dedges (fun d => dset2 d u v e) ;;; on_edges (fun d => ddel2 d u v) ;;; on_redges (fun d => ddel2 d (fst w) (snd w)))
          (on_dedges (fun d => dset2 d u v e') ;;; on_edges (fun d => ddel2 d u v) ;;; on_redges (fun d => ddel2 d (fst w) (snd w))).
Proof. intros E _. apply com_seq; [apply com_on_dedges; intros; apply rel2_set; assumption|]. apply com_seq; [apply com_on_edges|apply com_on_redges]; intros; apply rel2_del; assumption. Qed.
Lemma com_remove u v s : com any (remove_edge u v s) (remove_edge u v s).
Proof.
  unfold remove_edge. apply com_seq; [apply com_need|]. apply com_seq; [apply com_need|]. destruct s.
  - apply com_get. intros g g' G. rewrite (q_mem2 g g' G). apply com_seq; [apply com_if; [apply com_soft|apply com_ret; exact Logic.I]|]. apply com_get. intros h h' H. rewrite (q_mem2 h h' H). apply com_if; [apply com_soft|apply com_ret; exact Logic.I].
  - apply com_get. intros g g' G. assert (X := rel2_get _ _ u v (r_edges _ _ G)). apply com_seq.
    + destruct (dget2 (edges g) u v), (dget2 (edges g') u v); try (destruct X; fail); [apply (com_drop u v _ _ (u, v)); auto|apply com_ret; exact Logic.I].
    + apply com_get. intros h h' H. assert (Y := rel2_get _ _ v u (r_edges _ _ H)). destruct (dget2 (edges h) v u), (dget2 (edges h') v u); try (destruct Y; fail); [apply (com_drop v u _ _ (v, u)); auto|apply com_ret; exact Logic.I].
Qed.
Lemma com_half u v : com any (restore_half u v) (restore_half u v).
Proof.
  unfold restore_half. apply com_get. intros g g' G. rewrite (q_mem2 g g' G). apply com_if; [apply com_soft|]. assert (X := rel2_get _ _ u v (r_dedges _ _ G)). destruct (dget2 (dedges g) u v), (dget2 (dedges g') u v); try (destruct X; fail); [|apply com_raise].
  apply com_seq; [apply com_add_edge, X|]. apply com_on_dedges; intros; apply rel2_del; assumption.
Qed.
Lemma com_restore u v : com any (restore_edge u v) (restore_edge u v).
Proof. unfold restore_edge. repeat (apply com_seq; [apply com_need || apply com_half|]). apply com_half. Qed.
Lemma com_remove_dir u v s : com any (remove_directed_edge u v s) (remove_directed_edge u v s).
Proof.
  unfold remove_directed_edge. apply com_seq; [apply com_need|]. apply com_seq; [apply com_need|]. apply com_get. intros g g' G. assert (X := rel2_get _ _ u v (r_edges _ _ G)). destruct (dget2 (edges g) u v), (dget2 (edges g') u v); try (destruct X; fail); [|apply com_ret; exact Logic.I].
  apply com_if; [apply com_soft|]. apply (com_drop u v _ _ (v, u)); auto.
Qed.
Lemma com_restore_dir u v : com any (restore_directed_edge u v) (restore_directed_edge u v).
Proof.
  unfold restore_directed_edge. apply com_seq; [apply com_need|]. apply com_seq; [apply com_need|]. apply com_get. intros g g' G. rewrite (q_mem2 g g' G). apply com_if; [apply com_soft|]. assert (X := rel2_get _ _ u v (r_dedges _ _ G)). destruct (dget2 (dedges g) u v), (dget2 (dedges g') u v); try (destruct X; fail); [|apply com_raise].
  apply com_seq; [apply com_add_directed, X|]. apply com_on_dedges; intros; apply rel2_del; assumption.
Qed.
Lemma com_update u v m m' x : mrel u v m m' -> com any (update_edge u v m x) (update_edge u v m' x).
Proof.
  intros M. unfold update_edge. apply com_seq; [apply com_need|]. apply com_seq; [apply com_need|]. apply com_get. intros g g' G. rewrite !(krel_mem _ _ _ _ (r_edges _ _ G)), !(q_mem2 g g' G). do 4 (apply com_if; [apply com_raise|]).
  assert (M' := mrel_sym _ _ _ _ M). apply com_seq.
  - destruct m as [m|], m' as [m'|]; try (destruct M; fail); [|apply com_ret; exact Logic.I]. apply com_upd4; intros; apply erel_meta; assumption.
  - destruct x; [|apply com_ret; exact Logic.I]. apply com_upd4; intros; apply erel_type; assumption.
Qed.
Lemma com_update_dir u v m m' x : mrel u v m m' -> com any (update_directed_edge u v m x) (update_directed_edge u v m' x).
Proof.
  intros M. unfold update_directed_edge. apply com_seq; [apply com_need|]. apply com_seq; [apply com_need|]. apply com_get. intros g g' G. rewrite !(q_mem2 g g' G). apply com_if; [apply com_raise|]. apply com_seq.
  - destruct m as [m|], m' as [m'|]; try (destruct M; fail); [|apply com_ret; exact Logic.I]. apply com_upd2; intros; apply erel_meta; assumption.
  - destruct x; [|apply com_ret; exact Logic.I]. apply com_upd2; intros; apply erel_type; assumption.
Qed.
Lemma com_remove_all l : com any (remove_all_directed l) (remove_all_directed l).
Proof. induction l as [|[u v] l IH]; cbn [remove_all_directed]; [apply com_ret; exact Logic.I|]. apply com_seq; [apply com_remove_dir|exact IH]. Qed.
Lemma soft_entries g g' : rel g g' -> soft_deleted_entries g' = soft_deleted_entries g.
Proof.
  intros G. unfold soft_deleted_entries, all_entries. assert (D := r_edges _ _ G). induction D as [|[u r] [u' r'] d d' [E X] _ IH]; cbn [flat_map]; [rf|]. rewrite !filter_app, !map_app, IH. f_equal. cbn [fst snd] in *. subst u'. clear IH.
  induction X as [|[v e] [v' e'] r r' [E Y] _ IH]; cbn [map filter fst snd] in *; [rf|]. subst v'. destruct Y as (_ & _ & _ & _ & -> & _). destruct (e_del e); cbn [map fst]; rewrite IH; rf.
Qed.
Lemma com_purge : com any purge_soft_deleted_edges purge_soft_deleted_edges.
Proof.
  unfold purge_soft_deleted_edges. apply com_get. intros g g' G. cbv zeta. rewrite (soft_entries g g' G). rewrite (forallb_ext (fun p => dmem (nodes g') (fst p) && dmem (nodes g') (snd p)) (fun p => dmem (nodes g) (fst p) && dmem (nodes g) (snd p))) by (intros p; rewrite !(q_mem g g' G); rf).
  apply com_if; [apply com_remove_all|apply com_raise].
Qed.
Lemma com_log h h' : com any (log_step h) (log_step h').
Proof. intros g g' G. split; [|exact Logic.I]. destruct G; split; auto. Qed.
Lemma com_apply i i' : irel i i' -> com eq (apply_action i) (apply_action i').
Proof.
  intros I. assert (I0 := I). destruct I0 as (Eu & Ev & Ea & M & _). unfold apply_action. cbv zeta. apply com_get. intros g g' G. rewrite Eu, Ev, Ea, ?(q_edge g g' G), ?(q_dir g g' G), ?(q_und g g' G).
  assert (H1 : forall u v, com any (add_edge_history u v i) (add_edge_history u v i')) by (intros; apply com_add_hist, I).
  destruct (t_act i); try (apply com_if; [apply com_ret; rf || apply com_raise|]); try apply com_raise; try (apply com_ret; rf).
  - apply com_seq; [apply com_update, M|]. apply com_seq; [apply H1|]. apply com_seq; [apply H1|apply com_ret; rf].
  - apply com_seq; [apply com_update_dir, M|]. apply com_seq; [apply H1|apply com_ret; rf].
  - apply com_seq; [apply com_remove|]. apply com_seq; [apply H1|]. apply com_seq; [apply H1|apply com_ret; rf].
  - apply com_seq; [apply com_remove_dir|]. apply com_seq; [|apply com_seq; [apply H1|apply com_ret; rf]]. apply com_get. intros h h' H. rewrite (q_edge h h' H). apply com_if; [apply com_update_dir; exact Logic.I|apply com_ret; exact Logic.I].
  - apply com_seq; [apply com_restore|]. apply com_seq; [apply H1|]. apply com_seq; [apply H1|apply com_ret; rf].
  - apply com_seq; [apply com_restore_dir|]. apply com_seq; [apply H1|apply com_ret; rf].
Qed.
Lemma com_items dry l l' : Forall2 irel l l' -> com (Forall2 irel) (take_items dry l) (take_items dry l').
Proof.
  induction 1 as [|i i' l l' I _ IH]; cbn [take_items]; [apply com_ret; constructor|]. eapply com_bind with (Q := eq); [destruct dry; [apply com_ret; rf|apply com_apply, I]|]. intros b b' <-. eapply com_bind; [exact IH|]. intros a a' A. apply com_ret. destruct b; [constructor; assumption|exact A].
Qed.
Definition arel (a a' : acts2) : Prop := Forall2 irel (fst a) (fst a') /\ Forall2 irel (snd a) (snd a').
Lemma arel_plus a a' b b' : arel a a' -> arel b b' -> arel (plus2 a b) (plus2 a' b').
Proof. intros [A1 A2] [B1 B2]. split; apply Forall2_app; assumption. Qed.
Lemma com_take dry rs rs' : Forall2 orel rs rs' -> com arel (take_action no_hooks dry rs) (take_action no_hooks dry rs').
Proof.
  induction 1 as [|o o' rs rs' O _ IH]; cbn [take_action]; [apply com_ret; split; constructor|]. destruct o as [l|], o' as [l'|]; try (destruct O; fail); [|exact IH]. apply com_get. intros g g' G.
  change (run_pre_hooks no_hooks g l) with (Ok l). change (run_pre_hooks no_hooks g' l') with (Ok l'). cbn beta iota. eapply com_bind; [apply com_items, O|]. intros a a' A. apply com_get. intros h h' H.
  change (run_post_hooks no_hooks h a) with (Ok tt). change (run_post_hooks no_hooks h' a') with (Ok tt). cbn beta iota. eapply com_bind; [exact IH|]. intros b b' [B1 B2]. apply com_ret. split; apply Forall2_app; assumption.
Qed.

(* ---- generators ---- *)
Definition shape (d : dict id (dict id edge)) : list (id * list id) := map (fun p => (fst p, dkeys (snd p))) d.
Lemma rel2_shape d d' : rel2 d d' -> shape d' = shape d.
Proof. unfold shape. induction 1 as [|p p' d d' [E X] _ IH]; cbn [map]; [rf|]. rewrite E, IH, (krel_keys _ _ _ X). rf. Qed.
Lemma shape_flat {B} (h : id -> list id -> list B) d d' : rel2 d d' -> flat_map (fun p => h (fst p) (dkeys (snd p))) d' = flat_map (fun p => h (fst p) (dkeys (snd p))) d.
Proof. induction 1 as [|p p' d d' [E X] _ IH]; cbn [flat_map]; [rf|]. rewrite E, IH, (krel_keys _ _ _ X). rf. Qed.
Lemma live_same g g' : rel g g' -> live_pairs g' = live_pairs g.
Proof.
  intros G. unfold live_pairs. rewrite (shape_flat (fun u ws => flat_map (fun w => if directed_edge_exists g' u w then [[u; w]] else []) ws) _ _ (r_edges _ _ G)). apply flat_map_ext. intros p. apply flat_map_ext. intros w. rewrite (q_dir g g' G). rf.
Qed.
Definition brel (f f' : graph -> res (list emission)) : Prop := forall g g', rel g g' -> f' g' = f g.
Lemma gen_rel gen : shipped_gen gen -> forall g g', rel g g' -> Forall2 brel (gen g) (gen g').
Proof.
  induction 1 as [cs|chunked size|so sh chunked cs|coin gen H IH]; intros g g' G.
  - unfold gen_all. constructor; [|constructor]. intros ? ? _. unfold all_combinations. rewrite (q_length g g' G), (q_keys g g' G). rf.
  - unfold gen_edges. constructor; [|constructor]. intros ? ? _. unfold pairs_with_edges. rewrite (live_same g g' G). rf.
  - unfold gen_neighbours. rewrite (q_length g g' G). destruct (Nat.ltb _ _); [constructor|]. destruct (Nat.ltb _ _); [constructor|]. destruct (Nat.ltb _ _); [constructor; [intros ? ? _; rf|constructor]|].
    assert (E : forall ks, pwn_slots g' ks = pwn_slots g ks) by (intros ks; unfold pwn_slots; apply flat_map_ext; intros k; apply (shape_flat (fun u ws => map (fun w => (k, u, w)) ws) _ _ (r_edges _ _ G))). rewrite E.
    generalize (pwn_slots g (range (cs_min cs) (cs_stop cs (List.length (nodes g))))). intros l. induction l as [|[[k nd] nb] l IH]; cbn [map]; constructor; [|exact IH].
    intros h h' Hh. unfold pwn_slot. rewrite (q_dir h h' Hh). destruct (negb _); [rf|]. destruct (Nat.eqb k 2); [rf|]. assert (X := krel_get _ _ _ nd (r_edges _ _ Hh)). destruct (dget (edges h) nd) as [r|], (dget (edges h') nd) as [r'|]; try (rf || (destruct X; fail)).
    rewrite (krel_keys _ _ _ X). rewrite (filter_ext (fun m => directed_edge_exists h' m nd) (fun m => directed_edge_exists h m nd)); [rf|]. intros m. apply (q_dir h h' Hh).
  - specialize (IH g g' G). unfold gen_sample. generalize 0%nat. induction IH as [|f f' l l' Bf _ IH]; intros i; cbn [gen_sample_from]; constructor; [|apply IH]. intros h h' Hh. rewrite (Bf h h' Hh). rf.
Qed.

(* ---- test functions ---- *)
Definition clean_item (i : tresult) : Prop := match t_data i with Some m => ~ In "correlation" (dkeys m) | None => True end.
Definition clean (o : outcome) : Prop := match o with Some l => Forall clean_item l | None => True end.
Lemma irel_refl i : clean_item i -> irel i i.
Proof.
  intros C. repeat split; auto. unfold mrel. unfold clean_item in C. destruct (t_data i) as [m|]; [|exact Logic.I]. unfold krel. induction m as [|[k a] m IH]; constructor.
  - split; [rf|]. cbn [fst snd]. unfold vrel. destruct (eqb_spec k "correlation") as [->|]; [exfalso; apply C; left; rf|rf].
  - apply IH. intros X. apply C. right. exact X.
Qed.
Lemma orel_refl o : clean o -> orel o o.
Proof. destruct o as [l|]; cbn; [|auto]. induction 1; constructor; auto using irel_refl. Qed.
Lemma clean_eq (r r' : res outcome) : r' = r -> (forall o, r = Ok o -> clean o) -> rres orel r r'.
Proof. intros -> H. destruct r as [o|e]; cbn [rres]; [apply orel_refl, H; rf|rf]. Qed.
Lemma clean_agree (r r' : res outcome) : agree ee r r' -> (forall o, r = Ok o -> clean o) -> rres orel r r'.
Proof. intros A H. destruct r as [o|e], r' as [o'|e']; cbn [rres agree] in *; try (destruct A; fail); [subst o'; apply orel_refl, H; rf|exact A]. Qed.
Lemma agree_refl {A} (r : res A) : agree ee r r.
Proof. destruct r; cbn [agree]; rf. Qed.
Lemma agree_bind {A B} (r r' : res A) (f h : A -> res B) : agree ee r r' -> (forall a, agree ee (f a) (h a)) -> agree ee (rbind r f) (rbind r' h).
Proof. destruct r, r'; cbn [agree rbind]; intros H F; try (destruct H; fail); [subst; apply F|exact H]. Qed.
Ltac no_corr := unfold clean_item; cbn; intuition discriminate.
Hypothesis T : forall x, In x (dkeys n) -> match dget n x with Some nd => n_values nd | None => [] end = t x.
Hypothesis T' : forall x, In x (dkeys n) -> match dget n' x with Some nd => n_values nd | None => [] end = t' x.
Hypothesis SV : same_verdicts ee (dkeys n) N N' t t'.
Section Procs.
Variables g g' : graph.
Hypothesis G : rel g g'.
Lemma vals x : dmem (nodes g) x = true -> In x (dkeys n) /\ values_of g x = t x /\ values_of g' x = t' x.
Proof. intros M. rewrite (r_nodes _ _ G) in M. apply dmem_In in M. unfold values_of. rewrite (r_nodes _ _ G), (r_nodes' _ _ G). auto. Qed.
Lemma node_at_mem ns i x : node_at g ns i = Ok x -> dmem (nodes g) x = true.
Proof. unfold node_at. destruct (nth_error ns i) as [y|]; [|discriminate]. destruct (dmem (nodes g) y) eqn:M; [|discriminate]. intros E; injection E as <-; exact M. Qed.
Lemma vals_all l : forallb (dmem (nodes g)) l = true -> (forall x, In x l -> In x (dkeys n)) /\ map (values_of g) l = map t l /\ map (values_of g') l = map t' l.
Proof.
  intros M. rewrite forallb_forall in M. split; [intros x X; apply vals, M, X|]. split; apply map_ext_in; intros x X; apply vals, M, X.
Qed.
Lemma edge_mem u v : edge_exists g u v = true -> dmem (nodes g) u = true /\ dmem (nodes g) v = true.
Proof. unfold edge_exists. destruct (dmem (nodes g) u); [|discriminate]. destruct (dmem (nodes g) v); [auto|discriminate]. Qed.
Lemma q_corr x y : match get_corr g x y, get_corr g' x y with
  | Ok a, Ok a' => In x (dkeys n) /\ In y (dkeys n) /\ x <> y /\ exists c c', a = MNum c /\ a' = MNum c' /\ st x y c c'
  | Err e, Err e' => e' = e | _, _ => False end.
Proof.
  unfold get_corr. assert (X := q_value g g' G x y). destruct (edge_value g x y) as [m|e], (edge_value g' x y) as [m'|e']; cbn [rbind]; try (destruct X; fail); [|exact X]. destruct X as [X Y]. destruct (edge_exists g x y) eqn:Ee.
  - destruct (X eq_refl) as [Ne M]. destruct (edge_mem x y Ee) as [Mx My]. destruct m as [m|], m' as [m'|]; try (rf || (destruct M; fail)). assert (Z := krel_get _ _ _ "correlation" M). destruct (dget m "correlation") as [a|], (dget m' "correlation") as [a'|]; try (rf || (destruct Z; fail)).
    split; [apply (vals x Mx)|]. split; [apply (vals y My)|]. split; [exact Ne|]. unfold vrel in Z. rewrite eqb_refl in Z. exact Z.
  - destruct (Y eq_refl) as [-> ->]. rf.
Qed.
Lemma p_pearson ns us us' : rres orel (pearson_process N g ns us) (pearson_process N' g' ns us').
Proof.
  unfold pearson_process. rewrite !(q_at g g' G). destruct (node_at g ns 0) as [x|] eqn:X; cbn [rbind]; [|rf]. destruct (node_at g ns 1) as [y|] eqn:Y; cbn [rbind]; [|rf].
  assert (V := q_value g g' G x y). destruct (edge_value g x y) as [m|e], (edge_value g' x y) as [m'|e']; cbn [rbind]; try (destruct V; fail); [|subst; rf]. destruct V as [V1 V2].
  destruct (vals x (node_at_mem _ _ _ X)) as (Ix & -> & ->). destruct (vals y (node_at_mem _ _ _ Y)) as (Iy & -> & ->). assert (Pe := sv_pearson _ _ _ _ _ _ SV x y Ix Iy). destruct (n_pearson N (t x) (t y)) as [c|e] eqn:E, (n_pearson N' (t' x) (t' y)) as [c'|e'] eqn:E'; cbn [rbind]; try (destruct Pe; fail); [|exact Pe].
  destruct (edge_exists g x y) eqn:Ee; [|destruct (V2 eq_refl) as [-> ->]; rf]. destruct (V1 eq_refl) as [Ne M]. destruct m as [m|], m' as [m'|]; try (rf || (destruct M; fail)). cbn [rres orel]. constructor; [|constructor].
  repeat split; [|intros Z; discriminate Z]. cbn [t_u t_v t_data mrel]. apply krel_set; [exact M|]. unfold vrel. rewrite eqb_refl. exists c, c'. split; [rf|]. split; [rf|]. left. auto.
Qed.
Lemma p_corr ns us us' : rres orel (correlation_test N g ns us) (correlation_test N' g' ns us').
Proof.
  apply clean_agree.
  - unfold correlation_test. rewrite !(q_at g g' G). destruct (node_at g ns 0) as [x|] eqn:X; cbn [rbind]; [|apply agree_refl]. destruct (node_at g ns 1) as [y|] eqn:Y; cbn [rbind]; [|apply agree_refl].
    assert (C := q_corr x y). destruct (get_corr g x y) as [a|], (get_corr g' x y) as [a'|]; cbn [rbind]; try (destruct C; fail); [|subst; apply agree_refl]. destruct C as (_ & Iy & Ne & c & c' & -> & -> & S). cbn [as_num rbind].
    destruct (vals x (node_at_mem _ _ _ X)) as (Ix & -> & ->). apply agree_bind; [exact (sv_corr _ _ _ _ _ _ SV x y c c' Ix Iy Ne S)|]. intros b. apply agree_refl.
  - intros o. unfold correlation_test. destruct (node_at g ns 0) as [x|]; cbn [rbind]; [|discriminate]. destruct (node_at g ns 1) as [y|]; cbn [rbind]; [|discriminate]. destruct (get_corr g x y) as [a|]; cbn [rbind]; [|discriminate]. destruct (as_num a) as [c|]; cbn [rbind]; [|discriminate].
    destruct (n_corr_test _ _ _) as [b|]; cbn [rbind]; [|discriminate]. intros E; injection E as <-. constructor; [|constructor]. destruct b; no_corr.
Qed.
Lemma p_partial_loop ns : forallb (dmem (nodes g)) ns = true -> forall l del acc, (forall z, In z l -> In z ns) -> agree ee (partial_loop N g ns l del acc) (partial_loop N' g' ns l del acc).
Proof.
  intros M. induction l as [|z r IH]; intros del acc Sub; cbn [partial_loop]; [apply agree_refl|]. assert (IH' := fun d a => IH d a (fun w Hw => Sub w (or_intror Hw))). destruct (filter (fun m => negb (eqb m z)) ns) as [|x [|y q]] eqn:FL; [rf|rf|].
  assert (Fx : In x ns /\ negb (eqb x z) = true) by (apply (filter_In (fun m => negb (eqb m z)) x ns); rewrite FL; left; rf). assert (Fy : In y ns /\ negb (eqb y z) = true) by (apply (filter_In (fun m => negb (eqb m z)) y ns); rewrite FL; right; left; rf).
  assert (Mx : dmem (nodes g) x = true) by (rewrite forallb_forall in M; apply M, Fx). assert (Mz : dmem (nodes g) z = true) by (rewrite forallb_forall in M; apply M, Sub; left; rf).
  rewrite (q_edge g g' G). destruct (negb (edge_exists g x y) || mem (y, x) del); [apply IH'|].
  assert (C1 := q_corr x y). assert (C2 := q_corr x z). assert (C3 := q_corr y z).
  destruct (get_corr g x y) as [a|e], (get_corr g' x y) as [a'|e']; cbn [rbind]; try (destruct C1; fail); [|subst e'; destruct e; apply agree_refl]. destruct (get_corr g x z) as [b|e], (get_corr g' x z) as [b'|e']; cbn [rbind]; try (destruct C2; fail); [|subst e'; destruct e; apply agree_refl]. destruct (get_corr g y z) as [c|e], (get_corr g' y z) as [c'|e']; cbn [rbind]; try (destruct C3; fail); [|subst e'; destruct e; apply agree_refl].
  destruct C1 as (_ & Iy & N1 & a1 & a2 & -> & -> & S1). destruct C2 as (_ & Iz & N2 & b1 & b2 & -> & -> & S2). destruct C3 as (_ & _ & N3 & c1 & c2 & -> & -> & S3). cbn [as_num rbind].
  destruct (vals x Mx) as (Ix & -> & ->). assert (ND : NoDup [x; y; z]) by (repeat constructor; cbn; intuition congruence). apply agree_bind; [exact (sv_partial _ _ _ _ _ _ SV (List.length ns - 2) x y z a1 b1 c1 a2 b2 c2 Ix Iy Iz ND S1 S2 S3)|].
  intros [[|]|]; try apply agree_refl; apply IH'.
Qed.
Lemma partial_clean ns : forall l del acc o, Forall clean_item acc -> partial_loop N g ns l del acc = Ok o -> clean o.
Proof.
  induction l as [|z r IH]; intros del acc o C; cbn [partial_loop]; [intros E; injection E as <-; exact C|]. destruct (filter _ ns) as [|x [|y q]]; [discriminate|discriminate|]. destruct (_ || _); [apply IH, C|].
  destruct (rbind _ _) as [[[a b] c]|[]]; try discriminate; try (intros E; injection E as <-; exact Logic.I). destruct (as_num a) as [a1|]; cbn [rbind]; [|discriminate]. destruct (as_num b) as [b1|]; cbn [rbind]; [|discriminate]. destruct (as_num c) as [c1|]; cbn [rbind]; [|discriminate].
  destruct (n_partial _ _ _ _ _ _) as [[[|]|]|e]; cbn [rbind]; try discriminate; [apply IH|apply IH|intros E; injection E as <-; exact Logic.I]; (apply Forall_app; split; [exact C|constructor; [no_corr|constructor]]).
Qed.
Lemma q_forallb ns : forallb (dmem (nodes g')) ns = forallb (dmem (nodes g)) ns.
Proof. apply forallb_ext. intros x. apply (q_mem g g' G). Qed.
Lemma p_partial ns us us' : rres orel (partial_test N g ns us) (partial_test N' g' ns us').
Proof.
  apply clean_agree; unfold partial_test; [rewrite q_forallb|]; destruct (forallb (dmem (nodes g)) ns) eqn:M; try apply agree_refl; try discriminate; [apply p_partial_loop; auto|]. intros o. apply partial_clean. constructor.
Qed.
Lemma p_matrix so ns us us' : rres orel (matrix_test so N g ns us) (matrix_test so N' g' ns us').
Proof.
  apply clean_agree.
  - unfold matrix_test. rewrite !(q_at g g' G). destruct (node_at g ns 0) as [x|] eqn:X; cbn [rbind]; [|apply agree_refl]. destruct (node_at g ns 1) as [y|] eqn:Y; cbn [rbind]; [|apply agree_refl]. rewrite (q_edge g g' G), (q_row g g' G). destruct (negb (edge_exists g x y)); [apply agree_refl|].
    destruct (row_of g x) as [row|]; cbn [rbind]; [|apply agree_refl]. rewrite (filter_ext (fun k => directed_edge_exists g' k x) (fun k => directed_edge_exists g k x)) by (intros k; apply (q_dir g g' G)). rewrite q_forallb.
    destruct (negb (mem y _)); [apply agree_refl|]. destruct (negb (forallb _ (skipn 2 ns))); [apply agree_refl|]. destruct (forallb (dmem (nodes g)) ns) eqn:M; cbn [negb]; [|apply agree_refl]. destruct (vals_all ns M) as (Il & -> & ->).
    assert (L2 : (2 <= Datatypes.length ns)%nat). { unfold node_at in Y. destruct (nth_error ns 1) eqn:Z; [|discriminate Y]. assert (W : nth_error ns 1 <> None) by congruence. apply nth_error_Some in W. exact W. }
    apply agree_bind; [exact (sv_matrix _ _ _ _ _ _ SV ns L2 Il)|]. intros b. apply agree_refl.
  - intros o. unfold matrix_test. destruct (node_at g ns 0) as [x|]; cbn [rbind]; [|discriminate]. destruct (node_at g ns 1) as [y|]; cbn [rbind]; [|discriminate]. destruct (negb _); [intros E; injection E as <-; exact Logic.I|]. destruct (row_of g x) as [row|]; cbn [rbind]; [|discriminate].
    destruct (negb (mem y _)); [discriminate|]. destruct (negb (forallb _ (skipn 2 ns))); [intros E; injection E as <-; exact Logic.I|]. destruct (negb _); [discriminate|]. destruct (n_matrix _ _) as [[b|]|]; cbn [rbind]; [|intros E; injection E as <-; exact Logic.I|discriminate]. intros E; injection E as <-. constructor; [|constructor]. destruct b; no_corr.
Qed.
Lemma p_regression so ns us us' : same_regressions (dkeys n) N N' t t' -> rres orel (regression_test so N g ns us) (regression_test so N' g' ns us').
Proof.
  intros SR. apply clean_eq.
  - unfold regression_test. rewrite !(q_at g g' G). destruct (node_at g ns 0) as [x|] eqn:X; cbn [rbind]; [|rf]. destruct (node_at g ns 1) as [y|] eqn:Y; cbn [rbind]; [|rf]. rewrite (q_edge g g' G), (q_row g g' G). destruct (negb (edge_exists g x y)); [rf|].
    destruct (row_of g x) as [row|]; cbn [rbind]; [|rf]. rewrite q_forallb. destruct (negb (mem y row)); [rf|]. destruct (forallb (dmem (nodes g)) ns) eqn:M; cbn [negb]; [|rf].
    assert (M2 : forallb (dmem (nodes g)) (skipn 2 ns) = true). { apply forallb_forall. intros z Z. rewrite forallb_forall in M. apply M. rewrite <- (firstn_skipn 2 ns). apply in_or_app. right; exact Z. }
    destruct (vals_all _ M2) as (Il & -> & ->). destruct (vals x (node_at_mem _ _ _ X)) as (Ix & -> & ->). destruct (vals y (node_at_mem _ _ _ Y)) as (Iy & -> & ->). rewrite (SR x y _ Ix Iy Il). rf.
  - intros o. unfold regression_test. destruct (node_at g ns 0) as [x|]; cbn [rbind]; [|discriminate]. destruct (node_at g ns 1) as [y|]; cbn [rbind]; [|discriminate]. destruct (negb _); [intros E; injection E as <-; exact Logic.I|]. destruct (row_of g x) as [row|]; cbn [rbind]; [|discriminate].
    destruct (negb (mem y _)); [discriminate|]. destruct (negb _); [discriminate|]. destruct (n_regress _ _ _ _) as [b|]; cbn [rbind]; [|discriminate]. intros E; injection E as <-. constructor; [|constructor]. destruct b; no_corr.
Qed.
Definition urel (us us' : option (list outcome)) : Prop := match us, us' with Some l, Some l' => Forall2 orel l l' | None, None => True | _, _ => False end.
Lemma filter_rel us us' x z : urel us us' -> match filter_unapplied_actions us x z, filter_unapplied_actions us' x z with Ok l, Ok l' => Forall2 irel l l' | Err e, Err e' => e' = e | _, _ => False end.
Proof.
  unfold filter_unapplied_actions. destruct us as [l|], us' as [l'|]; cbn [urel rres]; try (intros []; fail); [|rf]. induction 1 as [|o o' l l' O _ IH]; cbn [flat_map]; [constructor|]. apply Forall2_app; [|exact IH]. destruct o as [r|], o' as [r'|]; try (destruct O; fail); [|constructor].
  cbn [orel] in O. induction O as [|i i' r r' I _ IHr]; cbn [filter]; [constructor|]. destruct (I) as (Eu & Ev & _). rewrite Eu, Ev. destruct (eqb (t_u i) x && eqb (t_v i) z); [constructor; assumption|exact IHr].
Qed.
Lemma restores_eq l l' : Forall2 irel l l' -> generate_restores l' = generate_restores l.
Proof. unfold generate_restores. induction 1 as [|i i' l l' I _ IH]; cbn [flat_map]; [rf|]. destruct I as (-> & -> & -> & _). rewrite IH. rf. Qed.
Lemma restores_clean l : Forall clean_item (generate_restores l).
Proof. unfold generate_restores. induction l as [|i l IH]; cbn [flat_map]; [constructor|]. apply Forall_app. split; [|exact IH]. destruct (taction_eqb _ _); repeat constructor. no_corr. Qed.
Lemma rflat_all {A B} (P : B -> Prop) (f : A -> res (list B)) l r : (forall a b, f a = Ok b -> Forall P b) -> rflat f l = Ok r -> Forall P r.
Proof.
  intros F. revert r. induction l as [|a l IH]; intros r; cbn [rflat]; [intros E; injection E as <-; constructor|]. destruct (f a) as [b|] eqn:Fa; cbn [rbind]; [|discriminate]. destruct (rflat f l) as [q|]; cbn [rbind]; [|discriminate]. intros E; injection E as <-. apply Forall_app. split; [apply (F a), Fa|apply IH; rf].
Qed.
Lemma body_clean s us acts x y z r : collider_body s us acts g x y z = Ok r -> Forall clean_item r.
Proof.
  unfold collider_body. destruct (negb _); [discriminate|]. destruct (separators acts) as [sp|]; cbn [rbind]; [|discriminate]. destruct (mem z sp); [intros E; injection E as <-; constructor|]. destruct (filter_unapplied_actions us x z) as [ux|]; cbn [rbind]; [|discriminate]. destruct (filter_unapplied_actions us y z) as [uy|]; cbn [rbind]; [|discriminate].
  assert (B : Forall clean_item [remove_directed z x (between x y z); remove_directed z y (between x y z)]) by (constructor; [no_corr|constructor; [no_corr|constructor]]).
  assert (D : forall a, clean_item (mkT z a DO_NOTHING (Some (conflict x y z)))) by (intros a; no_corr).
  assert (L : Forall clean_item (generate_restores ux ++ generate_restores uy ++ [remove_directed z x (between x y z); remove_directed z y (between x y z)])) by (apply Forall_app; split; [apply restores_clean|apply Forall_app; split; [apply restores_clean|exact B]]).
  destruct uy, ux; try (intros E; injection E as <-; exact B); destruct s; intros E; injection E as <-; try exact L; repeat (constructor; try apply D).
Qed.
Lemma p_collider s so ns us us' : urel us us' -> rres orel (collider_test s so g ns us) (collider_test s so g' ns us').
Proof.
  intros U. apply clean_eq.
  - unfold collider_test. rewrite !(q_at g g' G). destruct (node_at g ns 0) as [x|]; cbn [rbind]; [|rf]. destruct (node_at g ns 1) as [y|]; cbn [rbind]; [|rf]. rewrite (q_und g g' G), (q_common g g' G), (q_removals g g' G). destruct (undirected_edge_exists g x y); [rf|].
    destruct (common_keys so g x y) as [zs|]; cbn [rbind]; [|rf]. destruct (retrieve_edge_history _ _ _ _) as [acts|]; cbn [rbind]; [|rf].
    rewrite (rflat_ext (collider_body s us' acts g' x y) (collider_body s us acts g x y)); [rf|]. intros z. unfold collider_body. rewrite (q_mem g g' G). destruct (negb _); [rf|]. destruct (separators acts) as [sp|]; cbn [rbind]; [|rf]. destruct (mem z sp); [rf|].
    assert (A := filter_rel us us' x z U). assert (B := filter_rel us us' y z U). destruct (filter_unapplied_actions us x z) as [ux|], (filter_unapplied_actions us' x z) as [ux'|]; cbn [rbind rres] in *; try (destruct A; fail); [|subst; rf]. destruct (filter_unapplied_actions us y z) as [uy|], (filter_unapplied_actions us' y z) as [uy'|]; cbn [rbind rres] in *; try (destruct B; fail); [|subst; rf].
    rewrite (restores_eq _ _ A), (restores_eq _ _ B). destruct A, B; rf.
  - intros o. unfold collider_test. destruct (node_at g ns 0) as [x|]; cbn [rbind]; [|discriminate]. destruct (node_at g ns 1) as [y|]; cbn [rbind]; [|discriminate]. destruct (undirected_edge_exists g x y); [intros E; injection E as <-; exact Logic.I|]. destruct (common_keys so g x y) as [zs|]; cbn [rbind]; [|discriminate]. destruct (retrieve_edge_history _ _ _ _) as [acts|]; cbn [rbind]; [|discriminate].
    destruct (rflat _ zs) as [r|] eqn:F; cbn [rbind]; [|discriminate]. intros E; injection E as <-. apply (rflat_all clean_item _ _ _ (fun z b => body_clean s us acts x y z b) F).
Qed.
Lemma p_non_collider so ns us us' : rres orel (non_collider_test so g ns us) (non_collider_test so g' ns us').
Proof.
  apply clean_eq.
  - unfold non_collider_test. rewrite !(q_at g g' G). destruct (node_at g ns 0) as [x|]; cbn [rbind]; [|rf]. destruct (node_at g ns 1) as [y|]; cbn [rbind]; [|rf]. rewrite (q_edge g g' G), (q_common g g' G). destruct (edge_exists g x y); [rf|].
    destruct (common_keys so g x y) as [zs|]; cbn [rbind]; [|rf]. induction zs as [|z zs IH]; cbn [non_collider_loop]; [rf|]. rewrite (q_mem g g' G), !(q_only g g' G), !(q_und g g' G), IH.
    assert (W : forall a b, would_collide g' a b = would_collide g a b) by (intros a b; unfold would_collide; rewrite (q_keys g g' G); apply existsb_ext; intros m; rewrite (q_only g g' G), (q_edge g g' G); rf).
    rewrite !W. rf.
  - intros o. unfold non_collider_test. destruct (node_at g ns 0) as [x|]; cbn [rbind]; [|discriminate]. destruct (node_at g ns 1) as [y|]; cbn [rbind]; [|discriminate]. destruct (edge_exists g x y); [intros E; injection E as <-; exact Logic.I|]. destruct (common_keys so g x y) as [zs|]; cbn [rbind]; [|discriminate].
    induction zs as [|z zs IH]; cbn [non_collider_loop]; [intros E; injection E as <-; exact Logic.I|]. destruct (negb _); [discriminate|]. destruct (_ && _); [intros E; injection E as <-; constructor; [|constructor]; destruct (would_collide _ _ _); no_corr|]. destruct (_ && _); [intros E; injection E as <-; constructor; [|constructor]; destruct (would_collide _ _ _); no_corr|exact IH].
Qed.
Lemma flat_clean {A} (f : A -> list tresult) l : (forall a, Forall clean_item (f a)) -> Forall clean_item (flat_map f l).
Proof. intros F. induction l; cbn [flat_map]; [constructor|]. apply Forall_app. auto. Qed.
Ltac clean_list := repeat first [apply Forall_app; split | match goal with |- Forall _ (if ?b then _ else _) => destruct b end | constructor | no_corr].
Lemma p_triple ns us us' : rres orel (triple_test g ns us) (triple_test g' ns us').
Proof.
  apply clean_eq.
  - unfold triple_test. rewrite !(q_at g g' G). destruct (node_at g ns 0) as [x|]; cbn [rbind]; [|rf]. destruct (node_at g ns 1) as [y|]; cbn [rbind]; [|rf]. rewrite (q_keys g g' G).
    rewrite (flat_map_ext (triple_body g' x y) (triple_body g x y)); [rf|]. intros z. unfold triple_body. rewrite !(q_edge g g' G), !(q_und g g' G), !(q_only g g' G). rf.
  - intros o. unfold triple_test. destruct (node_at g ns 0) as [x|]; cbn [rbind]; [|discriminate]. destruct (node_at g ns 1) as [y|]; cbn [rbind]; [|discriminate]. intros E; injection E as <-. apply flat_clean. intros z. unfold triple_body. clean_list.
Qed.
Lemma q_shared so y w : shared_adjacent so g' y w = shared_adjacent so g y w.
Proof. unfold shared_adjacent. rewrite (q_keys g g' G). f_equal. apply filter_ext. intros z. rewrite !(q_edge g g' G). rf. Qed.
Lemma p_quadruple so ns us us' : rres orel (quadruple_test so g ns us) (quadruple_test so g' ns us').
Proof.
  apply clean_eq.
  - unfold quadruple_test. rewrite !(q_at g g' G). destruct (node_at g ns 0) as [y|]; cbn [rbind]; [|rf]. destruct (node_at g ns 1) as [w|]; cbn [rbind]; [|rf]. rewrite q_shared.
    rewrite (flat_map_ext (quadruple_body g' y w) (quadruple_body g y w)); [rf|]. intros p. unfold quadruple_body. destruct p as [|x [|z [|]]]; try rf. rewrite !(q_edge g g' G), !(q_und g g' G), !(q_only g g' G). rf.
  - intros o. unfold quadruple_test. destruct (node_at g ns 0) as [x|]; cbn [rbind]; [|discriminate]. destruct (node_at g ns 1) as [y|]; cbn [rbind]; [|discriminate]. intros E; injection E as <-. apply flat_clean. intros p. unfold quadruple_body. destruct p as [|a [|b [|]]]; clean_list.
Qed.
Lemma p_further so ns us us' : rres orel (further_quadruple_test so g ns us) (further_quadruple_test so g' ns us').
Proof.
  apply clean_eq.
  - unfold further_quadruple_test. rewrite !(q_at g g' G). destruct (node_at g ns 0) as [x|]; cbn [rbind]; [|rf]. destruct (node_at g ns 1) as [w|]; cbn [rbind]; [|rf]. rewrite q_shared.
    rewrite (flat_map_ext (further_quadruple_body g' x w) (further_quadruple_body g x w)); [rf|]. intros p. unfold further_quadruple_body. destruct p as [|y [|z [|]]]; try rf. rewrite !(q_edge g g' G), !(q_und g g' G), !(q_only g g' G). rf.
  - intros o. unfold further_quadruple_test. destruct (node_at g ns 0) as [x|]; cbn [rbind]; [|discriminate]. destruct (node_at g ns 1) as [y|]; cbn [rbind]; [|discriminate]. intros E; injection E as <-. apply flat_clean. intros p. unfold further_quadruple_body. destruct p as [|a [|b [|]]]; clean_list.
Qed.
Lemma p_fci so ns us us' : rres orel (collider_rule_fci so g ns us) (collider_rule_fci so g' ns us').
Proof.
  apply clean_eq.
  - unfold collider_rule_fci. rewrite !(q_at g g' G). destruct (node_at g ns 0) as [x|]; cbn [rbind]; [|rf]. destruct (node_at g ns 1) as [y|]; cbn [rbind]; [|rf]. rewrite (q_und g g' G), (q_common g g' G), (q_removals g g' G). destruct (undirected_edge_exists g x y); [rf|].
    destruct (common_keys so g x y) as [zs|]; cbn [rbind]; [|rf]. destruct (retrieve_edge_history _ _ _ _) as [acts|]; cbn [rbind]; [|rf].
    match goal with |- rbind (rflat ?f zs) _ = rbind (rflat ?h zs) _ => rewrite (rflat_ext f h); [rf|] end. intros z. rewrite (q_mem g g' G). rf.
  - intros o. unfold collider_rule_fci. destruct (node_at g ns 0) as [x|]; cbn [rbind]; [|discriminate]. destruct (node_at g ns 1) as [y|]; cbn [rbind]; [|discriminate]. destruct (undirected_edge_exists g x y); [intros E; injection E as <-; exact Logic.I|]. destruct (common_keys so g x y) as [zs|]; cbn [rbind]; [|discriminate]. destruct (retrieve_edge_history _ _ _ _) as [acts|]; cbn [rbind]; [|discriminate].
    destruct (rflat _ zs) as [r|] eqn:F; cbn [rbind]; [|discriminate]. intros E; injection E as <-. refine (rflat_all clean_item _ _ _ _ F). intros z b. destruct (negb _); [discriminate|]. destruct (separators acts) as [sp|]; cbn [rbind]; [|discriminate]. destruct (mem z sp); intros E; injection E as <-; clean_list.
Qed.
End Procs.
Variable regressions : Prop.
Hypothesis HR : regressions -> same_regressions (dkeys n) N N' t t'.
Notation ssame := (same_step regressions False N N').
Lemma call_rel s s' g g' ns us us' : ssame s s' -> rel g g' -> urel us us' -> rres orel (call s g ns us) (call s' g' ns us').
Proof.
  intros [Hn Hg _ Hc Hp Hu Hs Hpr] G U. unfold call. rewrite Hu. assert (U' : urel (if s_unapplied s then us else None) (if s_unapplied s then us' else None)) by (destruct (s_unapplied s); [exact U|exact Logic.I]).
  destruct Hpr; [apply p_pearson|apply p_corr|apply p_partial|apply p_matrix|apply p_regression|contradiction|apply p_collider|apply p_non_collider|apply p_triple|apply p_quadruple|apply p_further|apply p_fci]; auto.
Qed.

(* ---- the executor ---- *)
Lemma com_lift {A B} (Q : A -> B -> Prop) r r' : rres Q r r' -> com Q (liftr r) (liftr r').
Proof. destruct r, r'; cbn [rres]; intros H; try (destruct H; fail); [apply com_ret, H|intros g g' G; split; [exact G|exact H]]. Qed.
Lemma rmap_rel {A B} (Q : B -> B -> Prop) (f h : A -> res B) l : (forall a, rres Q (f a) (h a)) -> rres (Forall2 Q) (rmap f l) (rmap h l).
Proof.
  intros E. induction l as [|a l IH]; cbn [rmap]; [constructor|]. specialize (E a). destruct (f a), (h a); cbn [rbind rres] in *; try (destruct E; fail); [|exact E]. destruct (rmap f l), (rmap h l); cbn [rbind rres] in *; try (destruct IH; fail); [constructor; assumption|exact IH].
Qed.
Lemma com_chunks dry s s' : ssame s s' -> forall es, com arel (run_chunks no_hooks dry s es) (run_chunks no_hooks dry s' es).
Proof.
  intros S. induction es as [|e es IH]; cbn [run_chunks]; [apply com_ret; split; constructor|]. apply com_get. intros g g' G. eapply com_bind; [apply com_lift, (rmap_rel orel); intros ns; apply call_rel; [exact S|exact G|exact Logic.I]|]. intros rs rs' R. eapply com_bind; [apply com_take, R|]. intros a a' A. eapply com_bind; [exact IH|]. intros b b' B. apply com_ret, arel_plus; assumption.
Qed.
Lemma com_blocks dry s s' : ssame s s' -> forall bs bs', Forall2 brel bs bs' -> com arel (run_blocks no_hooks dry s bs) (run_blocks no_hooks dry s' bs').
Proof.
  intros S. induction 1 as [|f f' bs bs' Bf _ IH]; cbn [run_blocks]; [apply com_ret; split; constructor|]. apply com_get. intros g g' G. rewrite (Bf g g' G). eapply com_bind with (Q := eq); [apply com_lift; destruct (f g); rf|]. intros es es' <-. eapply com_bind; [apply com_chunks, S|]. intros a a' A. eapply com_bind; [exact IH|]. intros b b' B. apply com_ret, arel_plus; assumption.
Qed.
Lemma collect_rel s s' g g' : ssame s s' -> rel g g' -> forall es loc loc', Forall2 orel loc loc' -> rres (Forall2 orel) (collect s g es loc) (collect s' g' es loc').
Proof.
  intros S G. induction es as [|e es IH]; intros loc loc' L; cbn [collect]; [exact L|]. destruct (as_args e) as [ns|]; cbn [rbind]; [|rf]. assert (C := call_rel s s' g g' ns (Some loc) (Some loc') S G L). destruct (call s g ns (Some loc)), (call s' g' ns (Some loc')); cbn [rbind rres] in *; try (destruct C; fail); [|exact C]. apply IH. apply Forall2_app; [exact L|constructor; [exact C|constructor]].
Qed.
Lemma com_sync dry s s' : ssame s s' -> forall es, com arel (run_sync no_hooks dry s es) (run_sync no_hooks dry s' es).
Proof.
  intros S. induction es as [|e es IH]; cbn [run_sync]; [apply com_ret; split; constructor|]. apply com_get. intros g g' G. eapply com_bind with (Q := orel).
  - apply com_lift. destruct (as_args e) as [ns|]; cbn [rbind]; [|rf]. apply call_rel; [exact S|exact G|constructor].
  - intros o o' O. eapply com_bind; [apply com_take; constructor; [exact O|constructor]|]. intros a a' A. eapply com_bind; [exact IH|]. intros b b' B. apply com_ret, arel_plus; assumption.
Qed.
Lemma gen_run_rel g g' bs bs' : rel g g' -> Forall2 brel bs bs' -> gen_run bs' g' = gen_run bs g.
Proof. intros G. unfold gen_run. induction 1 as [|f f' bs bs' Bf _ IH]; cbn [rflat]; [rf|]. rewrite (Bf g g' G), IH. rf. Qed.
Variables P P' : runner.
Definition pools_rel (l : list step) : Prop := forall s s' dry, In s l -> s_parallel s = true -> ssame s s' -> com arel (P s dry) (P' s' dry).
Lemma com_execute s s' dry : ssame s s' -> pools_rel [s] -> com arel (execute_step P no_hooks s dry) (execute_step P' no_hooks s' dry).
Proof.
  intros S HP. assert (S0 := S). destruct S0 as [Hn Hg Hsg Hc Hp Hu Hs Hpr]. unfold execute_step. rewrite Hp, Hc, Hs, Hg. destruct (s_parallel s) eqn:Pa; [exact (HP s s' dry (or_introl eq_refl) Pa S)|].
  destruct (s_chunked s).
  - apply com_get. intros g g' G. apply com_blocks; [exact S|]. apply gen_rel; assumption.
  - apply com_get. intros g g' G. rewrite (gen_run_rel g g' _ _ G (gen_rel _ Hsg g g' G)). eapply com_bind with (Q := eq); [apply com_lift; destruct (gen_run _ _); rf|]. intros es es' <-. destruct (s_sync s); [apply com_sync, S|]. eapply com_bind; [apply com_lift, collect_rel; [exact S|exact G|constructor]|]. intros rs rs' R. apply com_take, R.
Qed.
Lemma pools_one s l : pools_rel (s :: l) -> pools_rel [s] /\ pools_rel l.
Proof. intros H. split; intros s1 s2 dry I; apply H; [destruct I as [<-|[]]; left; rf|right; exact I]. Qed.
Definition brel2 (a a' : list hstep * list tresult) : Prop := Forall2 irel (snd a) (snd a').
Lemma com_inner dry l l' : Forall2 ssame l l' -> pools_rel l -> com brel2 (run_inner P no_hooks dry l) (run_inner P' no_hooks dry l').
Proof.
  induction 1 as [|s s' l l' S _ IH]; intros Q; cbn [run_inner]; [apply com_ret; constructor|]. destruct (pools_one _ _ Q) as [Q1 Q2]. eapply com_bind; [apply com_execute; assumption|]. intros a a' A. eapply com_bind; [apply IH, Q2|]. intros b b' B. apply com_ret. apply Forall2_app; [apply A|exact B].
Qed.
Lemma rel_length {A B} (Q : A -> B -> Prop) l l' : Forall2 Q l l' -> List.length l' = List.length l.
Proof. induction 1; cbn; congruence. Qed.
Lemma com_loop l l' : Forall2 ssame l l' -> pools_rel l -> forall fuel k last last', match last, last' with Some a, Some a' => Forall2 irel a a' | None, None => True | _, _ => False end ->
  com any (run_loop fuel P no_hooks exit_on_no_actions l k last) (run_loop fuel P' no_hooks exit_on_no_actions l' k last').
Proof.
  intros S Q. induction fuel as [|fuel IH]; intros k last last' L; cbn [run_loop]; [apply com_raise|]. assert (E : exit_on_no_actions k last' = exit_on_no_actions k last).
  { unfold exit_on_no_actions. destruct (Nat.ltb 0 k); [|rf]. destruct last as [a|], last' as [a'|]; try (destruct L; fail); [|rf]. rewrite (rel_length _ _ _ L). rf. }
  rewrite E. eapply com_bind with (Q := eq); [apply com_lift; destruct (exit_on_no_actions k last); rf|]. intros [|] b <-; [apply com_ret; exact Logic.I|]. eapply com_bind; [apply com_inner; assumption|]. intros a a' A. eapply com_bind; [apply IH; exact A|]. intros b b' _. apply com_ret. exact Logic.I.
Qed.
Lemma com_together l l' : Forall2 ssame l l' -> pools_rel l -> com any (run_together P no_hooks l) (run_together P' no_hooks l').
Proof.
  intros S Q. unfold run_together. eapply com_bind; [apply com_inner; assumption|]. intros a a' A. eapply com_bind; [apply com_take|intros b b' _; apply com_ret; exact Logic.I]. unfold brel2 in A. induction A as [|i i' x x' I _ IH]; cbn [map]; constructor; [|exact IH]. cbn [orel]. constructor; [exact I|constructor].
Qed.
Lemma com_pipeline fuel l l' : same_pipeline regressions False N N' l l' -> shipped_exits l -> (forall p, In p l -> pools_rel (steps_of p)) ->
  com any (execute_pipeline fuel P no_hooks l) (execute_pipeline fuel P' no_hooks l').
Proof.
  induction 1 as [|p p' l l' S _ IH]; intros X Q; cbn [execute_pipeline]; [apply com_ret; exact Logic.I|]. apply com_seq; [|apply IH; [intros nm e s Hp; apply (X nm e s); right; exact Hp|intros q Hq; apply Q; right; exact Hq]].
  assert (Q0 := Q p (or_introl eq_refl)). destruct S as [s s' S|name exit l1 l1' S|name l1 l1' S]; cbn [run_pstep steps_of] in *.
  - eapply com_bind; [apply com_execute; assumption|]. intros a a' A. apply com_seq; [apply com_log|apply com_purge].
  - rewrite (X name exit l1 (or_introl eq_refl)). eapply com_bind; [apply com_loop; [assumption|assumption|exact Logic.I]|]. intros hs hs' _. apply com_log.
  - eapply com_bind; [apply com_together; assumption|]. intros hs hs' _. apply com_log.
Qed.

(* ---- schedules ---- *)
Lemma single_rel o o' : orel o o' -> Forall2 orel (single_results o) (single_results o').
Proof.
  unfold single_results. destruct o as [l|], o' as [l'|]; cbn [orel]; try (intros []; fail); [|intros _; constructor; [exact Logic.I|constructor]]. induction 1 as [|i i' l l' I _ IH]; cbn [map]; constructor; [|exact IH]. cbn [orel]. constructor; [exact I|constructor].
Qed.
Lemma par_rel dry s s' : ssame s s' -> forall bs tasks done_ past g a r, par_run no_hooks dry s bs tasks done_ past g a r ->
  forall bs' done' past' g' a', Forall2 brel bs bs' -> Forall2 orel done_ done' -> Forall2 rel past past' -> rel g g' -> arel a a' ->
  exists r', par_run no_hooks dry s' bs' tasks done' past' g' a' r' /\ rel (fst r) (fst r') /\ rres arel (snd r) (snd r').
Proof.
  intros S bs tasks done_ past g a r R.
  assert (Pick : forall past past' g0, Forall2 rel past past' -> In g0 past -> exists g0', In g0' past' /\ rel g0 g0').
  { clear. induction 1 as [|x x' l l' Rx _ IH]; intros Hin; [destruct Hin|]. destruct Hin as [->|Hin]; [exists x'; split; [left; rf|exact Rx]|]. destruct (IH Hin) as (y & Iy & Ry). exists y. split; [right; exact Iy|exact Ry]. }
  induction R as [past g a|f bs tasks done_ past g a g0 es r I0 E _ IH|f bs tasks done_ past g a g0 e I0 E|bs t1 t2 t3 done_ past g a g0 o r I0 E _ IH|bs t1 t2 t3 done_ past g a g0 e I0 E|bs tasks d1 o d2 past g a g' b r E _ IH|bs tasks d1 o d2 past g a g' e E]; intros bs' done' past' h a' B D PA G A.
  - inversion B; inversion D; subst. exists (h, Ok a'). split; [constructor|]. split; [exact G|exact A].
  - inversion B as [|? f' ? bs0 Bf B']; subst. destruct (Pick _ _ _ PA I0) as (g0' & I0' & R0). destruct (IH bs0 done' past' h a' B' D PA G A) as (r' & Rr & X). exists r'. split; [|exact X]. eapply par_gen; [exact I0'|rewrite (Bf g0 g0' R0); exact E|exact Rr].
  - inversion B as [|? f' ? bs0 Bf B']; subst. destruct (Pick _ _ _ PA I0) as (g0' & I0' & R0). exists (h, Err e). split; [eapply par_gen_error; [exact I0'|rewrite (Bf g0 g0' R0); exact E]|]. split; [exact G|rf].
  - destruct (Pick _ _ _ PA I0) as (g0' & I0' & R0). assert (C : exists o', rbind (as_args t2) (fun ns => call s' g0' ns None) = Ok o' /\ orel o o').
    { destruct (as_args t2) as [ns|]; cbn [rbind] in *; [|discriminate E]. assert (C := call_rel s s' g0 g0' ns None None S R0 Logic.I). rewrite E in C. destruct (call s' g0' ns None) as [o'|]; cbn [rres] in C; [eauto|destruct C]. }
    destruct C as (o' & C & O). destruct (IH bs' (o' :: done') past' h a' B ltac:(constructor; [exact O|exact D]) PA G A) as (r' & Rr & X). exists r'. split; [|exact X]. eapply par_work; [exact I0'|exact C|exact Rr].
  - destruct (Pick _ _ _ PA I0) as (g0' & I0' & R0). assert (C : exists e', rbind (as_args t2) (fun ns => call s' g0' ns None) = Err e' /\ ee e e').
    { destruct (as_args t2) as [ns|]; cbn [rbind] in *; [|eexists; split; [reflexivity|injection E as <-; apply ee_refl]]. assert (C := call_rel s s' g0 g0' ns None None S R0 Logic.I). rewrite E in C. destruct (call s' g0' ns None) as [o'|]; cbn [rres] in C; [destruct C|eauto]. }
    destruct C as (e' & C & EE). exists (h, Err e'). split; [eapply par_work_error; [exact I0'|exact C]|]. split; [exact G|exact EE].
  - apply Forall2_app_inv_l in D. destruct D as (d1' & d2' & D1 & D2 & ->). inversion D2 as [|? o' ? d2'' O D2']; subst.
    assert (SR := single_rel o o' O).
    destruct (com_take dry _ _ SR g h G) as [G1 X]. rewrite E in G1, X. destruct (take_action no_hooks dry (single_results o') h) as [h1 [b'|e']] eqn:E'; cbn [fst snd rres] in *; [|destruct X].
    destruct (IH bs' (d1' ++ d2'') (h1 :: past') h1 (plus2 a' b') B ltac:(apply Forall2_app; assumption) ltac:(constructor; assumption) G1 ltac:(apply arel_plus; assumption)) as (r' & Rr & Y). exists r'. split; [|exact Y]. eapply par_take; [exact E'|exact Rr].
  - apply Forall2_app_inv_l in D. destruct D as (d1' & d2' & D1 & D2 & ->). inversion D2 as [|? o' ? d2'' O D2']; subst.
    assert (SR := single_rel o o' O).
    destruct (com_take dry _ _ SR g h G) as [G1 X]. rewrite E in G1, X. destruct (take_action no_hooks dry (single_results o') h) as [h1 [b'|e']] eqn:E'; cbn [fst snd rres] in *; [destruct X|]. exists (h1, Err e'). split; [eapply par_take_error; exact E'|]. split; [exact G1|exact X].
Qed.
Lemma exec_rel s s' dry g g' r : ssame s s' -> rel g g' -> par_exec no_hooks s dry g r -> exists r', par_exec no_hooks s' dry g' r' /\ rel (fst r) (fst r') /\ rres arel (snd r) (snd r').
Proof.
  intros S G R. unfold par_exec in *. rewrite (st_gen _ _ _ _ _ _ S). apply (par_rel dry s s' S _ _ _ _ _ _ _ R); [apply gen_rel; [apply (st_shipped _ _ _ _ _ _ S)|exact G]|constructor|constructor; [exact G|constructor]|exact G|split; constructor].
Qed.
End Side.
