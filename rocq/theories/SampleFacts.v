(* Proofs about the sample generators. *)
From Verif Require Import Base PyDict PyDictFacts Graph GraphFacts GraphInv GraphQ GraphSpec ActionSpec ActionFacts ActionMain Dag DagFacts PathSpec Construct ConstructSpec ConstructFacts SampleGen SampleSpec RuleFacts GraphCheck.
From Coq Require Ascii.
Open Scope list_scope.

(* ---- sorting names ---- *)
Lemma sort_names_perm l : Permutation (sort_names l) l.
Proof. unfold sort_names. rewrite sort_perm, map_map. cbn. rewrite map_id. reflexivity. Qed.
Lemma sort_names_sorted l : sorted_names (sort_names l).
Proof. apply sort_sorted. Qed.
Lemma leb_cons x a y b : String.leb (String x a) (String y b) = true <->
  (Ascii.N_of_ascii x < Ascii.N_of_ascii y)%N \/ (x = y /\ String.leb a b = true).
Proof.
  unfold String.leb. cbn [String.compare]. unfold Ascii.compare. destruct (N.compare_spec (Ascii.N_of_ascii x) (Ascii.N_of_ascii y)) as [E|L|L].
  - assert (x = y) as -> by (rewrite <- (Ascii.ascii_N_embedding x), E, Ascii.ascii_N_embedding; reflexivity).
    split; [intros H; right; auto|intros [H|[_ H]]; [lia|exact H]].
  - split; auto.
  - split; [discriminate|intros [H|[-> _]]; lia].
Qed.
Lemma leb_trans a b c : String.leb a b = true -> String.leb b c = true -> String.leb a c = true.
Proof.
  revert b c. induction a as [|x a IH]; intros [|y b] [|z c]; try (cbn; auto; discriminate).
  rewrite !leb_cons. intros [H|[-> H]] [K|[-> K]]; [left; lia|left; exact H|left; exact K|right; eauto].
Qed.
Lemma leb_refl a : String.leb a a = true.
Proof. destruct (String.leb_total a a); assumption. Qed.
Lemma sorted_least x l : sorted_names (x :: l) -> forall y, In y (x :: l) -> String.leb x y = true.
Proof.
  revert x. induction l as [|z l IH]; intros x S y [<-|H]; try apply leb_refl; [destruct H|].
  inversion S as [| |x' y' l' L S']; subst. apply (leb_trans x z y L). apply (IH z S' y H).
Qed.
Lemma sorted_tail x l : sorted_names (x :: l) -> sorted_names l.
Proof. intros S; inversion S; subst; [constructor|assumption]. Qed.
Lemma sorted_unique : forall l l', sorted_names l -> sorted_names l' -> Permutation l l' -> l = l'.
Proof.
  induction l as [|x l IH]; intros l' S S' P; [apply Permutation_nil in P; subst; reflexivity|].
  destruct l' as [|y l']; [apply Permutation_sym, Permutation_nil in P; discriminate|].
  assert (E : x = y).
  { apply String.leb_antisym.
    - apply (sorted_least _ _ S). apply (Permutation_in y (Permutation_sym P)). left; reflexivity.
    - apply (sorted_least _ _ S'). apply (Permutation_in x P). left; reflexivity. }
  subst y. f_equal. apply (IH l'); [exact (sorted_tail _ _ S)|exact (sorted_tail _ _ S')|apply (Permutation_cons_inv P)].
Qed.

(* ---- the topological sort ---- *)
Section Topo.
Context {T : Type}.
Variable es : list (sedge T).

Lemma edges_to_In n e : In e (edges_to es n) <-> In e es /\ se_to e = n.
Proof. unfold edges_to. rewrite filter_In, eqb_true. reflexivity. Qed.
Lemma edges_to_incoming n : edges_to es n = incoming es n.
Proof.
  unfold edges_to, incoming. apply filter_ext. intros e. destruct (string_dec (se_to e) n) as [E|E]; [rewrite E; apply eqb_refl|apply eqb_neq; exact E].
Qed.
Lemma sources_in_iff sorted n : sources_in es sorted n = true <-> forall x, cause es x n -> In x sorted.
Proof.
  unfold sources_in. rewrite forallb_forall. split.
  - intros H x (e & He & <- & <-). apply mem_In, H. apply edges_to_In; auto.
  - intros H e He. apply edges_to_In in He. destruct He as [He <-]. apply mem_In, H. exists e; auto.
Qed.
Lemma remove_first_perm n l : In n l -> Permutation l (n :: remove_first n l).
Proof.
  induction l as [|m l IH]; [intros []|]. intros H. cbn. destruct (eqb_spec m n) as [->|N]; [reflexivity|].
  destruct H as [->|H]; [congruence|]. rewrite (IH H) at 1. apply perm_swap.
Qed.

(* every suffix element has its sources before it *)
Definition placed (sorted suf : list string) : Prop :=
  forall p n q, suf = p ++ n :: q -> forall x, cause es x n -> In x (sorted ++ p).

Lemma topo_ok : forall fuel ns sorted l, topologic_sort fuel es ns sorted = Ok l ->
  exists suf, l = sorted ++ suf /\ Permutation ns suf /\ placed sorted suf.
Proof.
  induction fuel as [|f IH]; intros ns sorted l H.
  - destruct ns as [|a ns]; cbn in H; [|discriminate]. injection H as <-. exists []. rewrite app_nil_r. split; [reflexivity|]. split; [reflexivity|].
    intros p n q E. destruct p; discriminate.
  - destruct ns as [|a ns].
    { cbn in H. injection H as <-. exists []. rewrite app_nil_r. split; [reflexivity|]. split; [reflexivity|]. intros p n q E. destruct p; discriminate. }
    cbn [topologic_sort] in H. destruct (find (sources_in es sorted) (a :: ns)) as [n|] eqn:F.
    + apply find_some in F. destruct F as [Hn Hs]. apply IH in H. destruct H as (suf & -> & P & PL). exists (n :: suf). rewrite <- app_assoc. split; [reflexivity|]. split.
      * rewrite (remove_first_perm n (a :: ns) Hn). constructor. exact P.
      * intros p m q E x C. destruct p as [|b p]; cbn in E; injection E as <- E.
        { rewrite app_nil_r. apply (proj1 (sources_in_iff sorted n) Hs x C). }
        { specialize (PL p m q E x C). rewrite <- app_assoc in PL. exact PL. }
    + apply IH in H. exact H.
Qed.
Lemma topo_res : forall fuel ns sorted, (exists l, topologic_sort fuel es ns sorted = Ok l) \/ topologic_sort fuel es ns sorted = Err OutOfFuel.
Proof.
  induction fuel as [|f IH]; intros ns sorted; destruct ns as [|a ns]; cbn [topologic_sort]; eauto.
  destruct (find _ _); apply IH.
Qed.

(* a repeated element of a chain lies on a cycle *)
Lemma not_nodup_split (l : list string) : ~ NoDup l -> exists x p q r, l = p ++ x :: q ++ x :: r.
Proof.
  induction l as [|a l IH]; intros N; [destruct N; constructor|].
  destruct (mem a l) eqn:M.
  - apply mem_In, in_split in M. destruct M as (q & r & ->). exists a, [], q, r. reflexivity.
  - apply mem_not_In in M. destruct IH as (x & p & q & r & ->). { intros D. apply N. constructor; assumption. }
    exists x, (a :: p), q, r. reflexivity.
Qed.
Lemma chain_reach (R : string -> string -> Prop) x q y r : chain R (x :: q ++ y :: r) -> reach_plus R x y.
Proof.
  revert x. induction q as [|z q IH]; intros x C; cbn in C; inversion C as [| |a b l H C']; subst.
  - exists y. split; [exact H|constructor].
  - destruct (IH z C') as (w & W1 & W2). exists z. split; [exact H|]. econstructor; eassumption.
Qed.

Lemma find_none_cycle ns sorted : NoDup ns -> ns <> [] -> (forall n x, In n ns -> cause es x n -> In x (sorted ++ ns)) ->
  find (sources_in es sorted) ns = None -> ~ acyclic (cause es).
Proof.
  intros ND NE CL F AC.
  assert (W : forall k, exists w, List.length w = S k /\ chain (cause es) w /\ forall x, In x w -> In x ns).
  { induction k as [|k (w & Lw & Cw & Iw)].
    - destruct ns as [|a ns]; [congruence|]. exists [a]. split; [reflexivity|]. split; [constructor|]. intros x [<-|[]]; left; reflexivity.
    - destruct w as [|a w]; [discriminate|]. assert (Ha : In a ns) by (apply Iw; left; reflexivity).
      assert (Fa := find_none _ _ F a Ha). cbn in Fa.
      assert (X : exists x, cause es x a /\ ~ In x sorted).
      { unfold sources_in in Fa. assert (Y : exists e, In e (edges_to es a) /\ mem (se_from e) sorted = false).
        { clear - Fa. induction (edges_to es a) as [|e l IH]; cbn in Fa; [discriminate|]. destruct (mem (se_from e) sorted) eqn:M; cbn in Fa.
          - destruct (IH Fa) as (e' & H1 & H2). exists e'. split; [right; exact H1|exact H2].
          - exists e. split; [left; reflexivity|exact M]. }
        destruct Y as (e & He & M). apply edges_to_In in He. destruct He as [He <-]. apply mem_not_In in M. exists (se_from e). split; [exists e; auto|exact M]. }
      destruct X as (x & Cx & Nx). exists (x :: a :: w). split; [cbn in *; lia|]. split; [constructor; assumption|].
      intros z [<-|Hz]; [|apply Iw; exact Hz]. specialize (CL a x Ha Cx). apply in_app_or in CL. destruct CL; [contradiction|assumption]. }
  destruct (W (List.length ns)) as (w & Lw & Cw & Iw).
  destruct (not_nodup_split w) as (x & p & q & r & ->).
  { intros D. assert (L := NoDup_incl_length D Iw). lia. }
  apply (AC x). apply chain_app_inv in Cw. exact (chain_reach _ _ _ _ _ (proj2 Cw)).
Qed.

Lemma topo_ends : acyclic (cause es) -> forall fuel ns sorted, NoDup ns -> (forall n x, In n ns -> cause es x n -> In x (sorted ++ ns)) ->
  List.length ns <= fuel -> exists l, topologic_sort fuel es ns sorted = Ok l.
Proof.
  intros AC. induction fuel as [|f IH]; intros ns sorted ND CL L.
  - destruct ns; [eexists; reflexivity|cbn in L; lia].
  - destruct ns as [|a ns]; [eexists; reflexivity|]. cbn [topologic_sort].
    destruct (find (sources_in es sorted) (a :: ns)) as [n|] eqn:F.
    2:{ exfalso. revert AC. apply (find_none_cycle (a :: ns) sorted ND); [discriminate|exact CL|exact F]. }
    apply find_some in F. destruct F as [Hn _]. assert (P := remove_first_perm n (a :: ns) Hn). apply IH.
    + apply (Permutation_NoDup P) in ND. inversion ND; assumption.
    + intros m x Hm C. assert (Hm' : In m (a :: ns)) by (apply (Permutation_in m (Permutation_sym P)); right; exact Hm).
      specialize (CL m x Hm' C). apply in_app_or in CL. rewrite <- app_assoc. apply in_or_app. destruct CL as [CL|CL]; [left; exact CL|right].
      apply (Permutation_in x P) in CL. exact CL.
    + apply Permutation_length in P. cbn in *. lia.
Qed.

Lemma placed_before suf : placed [] suf -> forall x y, In y suf -> cause es x y -> before suf x y.
Proof.
  intros PL x y Hy C. apply in_split in Hy. destruct Hy as (p & q & E). assert (H := PL p y q E x C). cbn in H.
  apply in_split in H. destruct H as (p1 & p2 & ->). exists p1, p2, q. rewrite E, <- app_assoc. reflexivity.
Qed.
Lemma index_app_notin x p q : ~ In x p -> index x (p ++ q) = List.length p + index x q.
Proof.
  induction p as [|a p IH]; intros N; cbn; [reflexivity|]. rewrite eqb_neq by (intros ->; apply N; left; reflexivity).
  rewrite IH; [reflexivity|]. intros H; apply N; right; exact H.
Qed.
Lemma index_here x q : index x (x :: q) = 0.
Proof. cbn. rewrite eqb_refl. reflexivity. Qed.
Lemma before_index l x y : NoDup l -> before l x y -> index x l < index y l.
Proof.
  intros ND (p & q & r & ->). assert (Nx : ~ In x p). { intros H. apply NoDup_remove_2 in ND. apply ND. apply in_or_app; left; exact H. }
  rewrite (index_app_notin x p _ Nx), index_here.
  assert (E : p ++ x :: q ++ y :: r = (p ++ x :: q) ++ y :: r) by (rewrite <- app_assoc; reflexivity). rewrite E in *.
  assert (Ny : ~ In y (p ++ x :: q)). { intros H. apply NoDup_remove_2 in ND. apply ND. apply in_or_app; left; exact H. }
  rewrite (index_app_notin y _ _ Ny), index_here, app_length. cbn. unfold id. lia.
Qed.
Lemma before_acyclic l : NoDup l -> (forall x y, cause es x y -> before l x y) -> acyclic (cause es).
Proof. intros ND B. apply (acyclic_rank _ (fun x => index x l)). intros a b C. apply before_index; auto. Qed.

Lemma variables_In so x : set_order so -> In x (find_variables so es) <-> mentioned es x.
Proof.
  intros SO. unfold find_variables. rewrite (proj2 (SO _)), in_flat_map. split.
  - intros (e & He & [<-|[<-|[]]]); [exists (se_to e); left|exists (se_from e); right]; exists e; auto.
  - intros (y & [(e & He & <- & _)|(e & He & _ & <-)]); exists e; cbn; auto.
Qed.
Lemma variables_length so : set_order so -> List.length (find_variables so es) <= 2 * List.length es.
Proof.
  intros SO. unfold find_variables. destruct (SO (flat_map (fun e => [se_from e; se_to e]) es)) as [ND I].
  assert (L := NoDup_incl_length ND (fun x H => proj1 (I x) H)). etransitivity; [exact L|]. clear. induction es as [|e l IH]; cbn in *; lia.
Qed.
Lemma sorted_variables_facts so : set_order so -> NoDup (sort_names (find_variables so es)) /\
  (forall x, In x (sort_names (find_variables so es)) <-> mentioned es x) /\ List.length (sort_names (find_variables so es)) <= 2 * List.length es.
Proof.
  intros SO. assert (P := sort_names_perm (find_variables so es)). split; [|split].
  - apply (Permutation_NoDup (Permutation_sym P)). apply SO.
  - intros x. rewrite <- (variables_In so x SO). split; apply Permutation_in; [exact P|symmetry; exact P].
  - rewrite (Permutation_length P). apply variables_length; exact SO.
Qed.
Definition topological (l : list string) : Prop :=
  NoDup l /\ (forall x, In x l <-> mentioned es x) /\ (forall x y, cause es x y -> before l x y).
Lemma iid_variables_ok fuel so l : set_order so -> iid_variables fuel so es = Ok l -> topological l.
Proof.
  intros SO H. destruct (sorted_variables_facts so SO) as (ND & I & _). apply topo_ok in H. destruct H as (suf & E & P & PL). cbn in E. subst l.
  assert (I' : forall x, In x suf <-> mentioned es x). { intros x. rewrite <- I. split; apply Permutation_in; [symmetry; exact P|exact P]. }
  split; [apply (Permutation_NoDup P ND)|]. split; [exact I'|]. intros x y C. apply placed_before; [exact PL| |exact C]. apply I'. exists x. right; exact C.
Qed.
Lemma iid_variables_end fuel so : set_order so -> acyclic (cause es) -> 2 * List.length es <= fuel -> exists l, iid_variables fuel so es = Ok l.
Proof.
  intros SO AC L. destruct (sorted_variables_facts so SO) as (ND & I & Le). apply topo_ends; [exact AC|exact ND| |lia].
  intros n x _ C. cbn. apply I. exists n. left; exact C.
Qed.
Lemma iid_variables_cyclic fuel so : set_order so -> ~ acyclic (cause es) -> iid_variables fuel so es = Err OutOfFuel.
Proof.
  intros SO N. unfold iid_variables. destruct (topo_res fuel (sort_names (find_variables so es)) []) as [(l & H)|H]; [|exact H].
  exfalso. apply N. destruct (iid_variables_ok fuel so l SO H) as (ND & _ & B). exact (before_acyclic l ND B).
Qed.
Lemma iid_variables_order fuel so so' : set_order so -> set_order so' -> iid_variables fuel so es = iid_variables fuel so' es.
Proof.
  intros SO SO'. unfold iid_variables. f_equal. apply sorted_unique; try apply sort_names_sorted.
  rewrite !sort_names_perm. apply NoDup_Permutation; [apply SO|apply SO'|]. intros x. rewrite !variables_In by assumption. reflexivity.
Qed.
End Topo.

(* ---- the generated columns ---- *)
Section Data.
Context {T : Type}.
Variable add mul : T -> T -> T.
Variable rnd : nat -> T.
Notation vadd := (vadd add).
Notation vscale := (vscale mul).

Lemma noise_length size j : List.length (noise rnd size j) = size.
Proof. unfold noise. rewrite map_length, seq_length. reflexivity. Qed.
Lemma noise_nth size j i : i < size -> nth_error (noise rnd size j) i = Some (rnd (j * size + i)).
Proof.
  intros L. unfold noise. rewrite nth_error_map, (nth_error_nth' _ 0) by (rewrite seq_length; exact L). cbn. rewrite seq_nth by exact L. reflexivity.
Qed.
Lemma init_repr_keys size : forall vs j d, NoDup vs -> (forall v, In v vs -> ~ In v (dkeys d)) -> dkeys (init_repr rnd size j vs d) = dkeys d ++ vs.
Proof.
  induction vs as [|v vs IH]; intros j d ND F; cbn [init_repr]; [rewrite app_nil_r; reflexivity|]. inversion ND; subst.
  rewrite IH; [rewrite dkeys_dset_notin by (apply F; left; reflexivity); rewrite <- app_assoc; reflexivity|assumption|].
  intros w Hw. rewrite In_dkeys_dset. intros [->|Hd]; [contradiction|]. apply (F w); [right; exact Hw|exact Hd].
Qed.
Lemma init_repr_other size : forall vs j d k, ~ In k vs -> dget (init_repr rnd size j vs d) k = dget d k.
Proof.
  induction vs as [|v vs IH]; intros j d k N; cbn; [reflexivity|]. rewrite IH by (intros H; apply N; right; exact H).
  apply dget_dset_other. intros ->. apply N; left; reflexivity.
Qed.
Lemma init_repr_get size : forall vs j d i k, NoDup vs -> nth_error vs i = Some k -> dget (init_repr rnd size j vs d) k = Some (noise rnd size (j + i)).
Proof.
  induction vs as [|v vs IH]; intros j d i k ND H; [destruct i; discriminate|]. inversion ND; subst. destruct i as [|i]; cbn in *.
  - injection H as ->. rewrite init_repr_other by assumption. rewrite dget_dset_same, Nat.add_0_r. reflexivity.
  - rewrite (IH (S j) _ i k) by assumption. rewrite <- Nat.add_succ_comm. reflexivity.
Qed.

Definition col (d : dict string (list T)) (k : string) : list T := match dget d k with Some c => c | None => [] end.
Definition sum_col (d : dict string (list T)) (start : list T) (l : list (sedge T)) : list T :=
  fold_left (fun a e => vadd a (vscale (se_value e) (col d (se_from e)))) l start.

Lemma sum_col_ext d d' start l : (forall e, In e l -> col d (se_from e) = col d' (se_from e)) -> sum_col d start l = sum_col d' start l.
Proof.
  revert start. unfold sum_col. induction l as [|e l IH]; intros start H; cbn; [reflexivity|]. rewrite (H e (or_introl eq_refl)). apply IH. intros e' H'; apply H; right; exact H'.
Qed.
Lemma inner_ok n : forall l d, dmem d n = true -> (forall e, In e l -> se_to e = n /\ se_from e <> n /\ dmem d (se_from e) = true) ->
  exists d', rfold (fun d e => add_edge_term add mul e d) l d = Ok d' /\ dkeys d' = dkeys d /\ (forall k, k <> n -> dget d' k = dget d k) /\ dget d' n = Some (sum_col d (col d n) l).
Proof.
  induction l as [|e l IH]; intros d Hn H.
  - exists d. cbn. split; [reflexivity|]. split; [reflexivity|]. split; [auto|]. unfold col. apply dmem_get in Hn. destruct Hn as [c ->]. reflexivity.
  - destruct (H e (or_introl eq_refl)) as (E1 & E2 & E3). apply dmem_get in Hn. destruct Hn as [c Hc]. apply dmem_get in E3. destruct E3 as [b Hb].
    cbn [rfold]. unfold add_edge_term at 1. rewrite E1, Hc, Hb. cbn [rbind].
    set (d1 := dset d n (vadd c (vscale (se_value e) b))).
    assert (O : forall k, k <> n -> dget d1 k = dget d k) by (intros k Hk; apply dget_dset_other; exact Hk).
    destruct (IH d1) as (d' & R & K & G & X).
    { apply dmem_get. eexists. apply dget_dset_same. }
    { intros e' He'. destruct (H e' (or_intror He')) as (A & B & C). split; [exact A|]. split; [exact B|]. unfold dmem in *. rewrite (O _ B). exact C. }
    exists d'. split; [exact R|]. split; [rewrite K; apply dkeys_dset_in, dmem_In, dmem_get; eauto|]. split; [intros k Hk; rewrite (G k Hk); apply O; exact Hk|].
    rewrite X. unfold sum_col at 2. cbn [fold_left]. unfold col at 3 4. rewrite Hb, Hc. fold (sum_col d (vadd c (vscale (se_value e) b)) l).
    replace (col d1 n) with (vadd c (vscale (se_value e) b)) by (unfold col, d1; rewrite dget_dset_same; reflexivity).
    f_equal. apply sum_col_ext. intros e' He'. unfold col. rewrite O; [reflexivity|]. apply (H e' (or_intror He')).
Qed.
Lemma outer_ok es : forall l d, NoDup l -> (forall k, In k l -> dmem d k = true) ->
  (forall p n q, l = p ++ n :: q -> forall x, cause es x n -> x <> n /\ ~ In x (n :: q) /\ dmem d x = true) ->
  exists d', rfold (fun d n => rfold (fun d e => add_edge_term add mul e d) (edges_to es n) d) l d = Ok d' /\ dkeys d' = dkeys d /\
    (forall k, ~ In k l -> dget d' k = dget d k) /\ (forall k, In k l -> dget d' k = Some (sum_col d' (col d k) (edges_to es k))).
Proof.
  induction l as [|n l IH]; intros d ND M B.
  - exists d. cbn. repeat split; auto. intros k [].
  - inversion ND; subst. destruct (inner_ok n (edges_to es n) d) as (d1 & R1 & K1 & G1 & X1).
    { apply M; left; reflexivity. }
    { intros e He. apply edges_to_In in He. destruct He as [He E]. split; [exact E|]. assert (C : cause es (se_from e) n) by (exists e; auto).
      destruct (B [] n l eq_refl _ C) as (A1 & _ & A3). auto. }
    assert (MM : forall k, dmem d1 k = dmem d k).
    { intros k. destruct (dmem d k) eqn:E; [apply dmem_In; rewrite K1; apply dmem_In; exact E|apply dmem_not_In; rewrite K1; apply dmem_not_In; exact E]. }
    destruct (IH d1) as (d' & R & K & G & X); [assumption| | |].
    { intros k Hk. rewrite MM. apply M; right; exact Hk. }
    { intros p m q E x C. rewrite MM. destruct (B (n :: p) m q) with (x := x) as (A1 & A2 & A3); [rewrite E; reflexivity|exact C|]. auto. }
    exists d'. cbn [rfold]. rewrite R1. cbn [rbind]. split; [exact R|]. split; [congruence|]. split.
    + intros k Hk. rewrite G by (intros H'; apply Hk; right; exact H'). apply G1. intros ->. apply Hk; left; reflexivity.
    + intros k [<-|Hk].
      * rewrite G by assumption. rewrite X1. f_equal. apply sum_col_ext. intros e He. apply edges_to_In in He. destruct He as [He E].
        assert (C : cause es (se_from e) n) by (exists e; auto). destruct (B [] n l eq_refl _ C) as (A1 & A2 & _).
        unfold col. rewrite G by (intros H'; apply A2; right; exact H'). rewrite G1 by exact A1. reflexivity.
      * rewrite (X k Hk). f_equal. unfold sum_col. f_equal. unfold col. rewrite G1; [reflexivity|]. intros ->; contradiction.
Qed.

Lemma vadd_nth a b i x y : nth_error a i = Some x -> nth_error b i = Some y -> nth_error (vadd a b) i = Some (add x y).
Proof. revert a b. induction i as [|i IH]; intros [|a0 a] [|b0 b]; cbn; try discriminate; [intros [= ->] [= ->]; reflexivity|apply IH]. Qed.
Lemma vscale_nth c a i x : nth_error a i = Some x -> nth_error (vscale c a) i = Some (mul c x).
Proof. intros H. unfold SampleGen.vscale. rewrite nth_error_map, H. reflexivity. Qed.
Lemma sum_col_nth d i : forall l start z xs, Forall2 (fun e x => cell_at d (se_from e) i = Some x) l xs -> nth_error start i = Some z ->
  nth_error (sum_col d start l) i = Some (linear add mul z (combine (map se_value l) xs)).
Proof.
  unfold sum_col, linear. induction l as [|e l IH]; intros start z xs F H; inversion F; subst; cbn; [exact H|]. apply IH; [assumption|].
  apply vadd_nth; [exact H|]. apply vscale_nth. unfold col. unfold cell_at in *. destruct (dget d (se_from e)); [assumption|discriminate].
Qed.
Lemma vadd_length a b : List.length (vadd a b) = Nat.min (List.length a) (List.length b).
Proof. revert b. induction a as [|x a IH]; intros [|y b]; cbn; auto. Qed.
Lemma sum_col_length d n : forall l start, List.length start = n -> (forall e, In e l -> List.length (col d (se_from e)) = n) -> List.length (sum_col d start l) = n.
Proof.
  unfold sum_col. induction l as [|e l IH]; intros start H F; cbn; [exact H|]. apply IH; [|intros e' He'; apply F; right; exact He'].
  rewrite vadd_length. unfold SampleGen.vscale. rewrite map_length, H, (F e (or_introl eq_refl)). lia.
Qed.
Lemma Forall2_exists {A B} (P : A -> B -> Prop) l : (forall a, In a l -> exists b, P a b) -> exists m, Forall2 P l m.
Proof.
  induction l as [|a l IH]; intros H; [exists []; constructor|]. destruct (H a (or_introl eq_refl)) as [b Hb]. destruct IH as [m Hm]; [intros x Hx; apply H; right; exact Hx|].
  exists (b :: m). constructor; assumption.
Qed.

Lemma generate_data_ok es vs size : topological es vs ->
  exists d, generate_data add mul rnd es vs size = Ok d /\ dkeys d = vs /\ (forall k c, dget d k = Some c -> List.length c = size) /\
    forall j k i, nth_error vs j = Some k -> i < size -> structural add mul es d i k (rnd (j * size + i)).
Proof.
  intros (ND & I & B). set (d0 := init_repr rnd size 0 vs []).
  assert (K0 : dkeys d0 = vs) by (unfold d0; rewrite init_repr_keys; [reflexivity|exact ND|auto]).
  assert (M0 : forall k, In k vs -> dmem d0 k = true) by (intros k Hk; apply dmem_In; rewrite K0; exact Hk).
  destruct (outer_ok es vs d0 ND M0) as (d & R & K & _ & X).
  { intros p n q E x C. destruct (B x n C) as (a & b & c & E'). assert (Hx : In x vs) by (apply I; exists n; left; exact C).
    assert (L : index x vs < index n vs) by (apply before_index; [exact ND|exact (B x n C)]).
    assert (Nn : ~ In n p). { intros H. rewrite E in ND. apply NoDup_remove_2 in ND. apply ND, in_or_app; left; exact H. }
    split; [intros ->; lia|]. split; [|apply M0; exact Hx]. intros H.
    assert (Nx : ~ In x p). { intros H'. rewrite E in ND. apply in_split in H'. destruct H' as (p1 & p2 & ->). rewrite <- app_assoc in ND. cbn in ND. apply NoDup_remove_2 in ND.
      apply ND. apply in_or_app; right. apply in_or_app; right. exact H. }
    rewrite E in L. rewrite (index_app_notin x p _ Nx), (index_app_notin n p _ Nn), index_here in L. lia. }
  exists d. split; [exact R|]. split; [congruence|].
  assert (LEN : forall k, In k vs -> List.length (col d k) = size).
  { assert (Q : forall m k, index k vs < m -> In k vs -> List.length (col d k) = size).
    { induction m as [|m IH]; intros k Hm Hk; [lia|]. unfold col at 1. rewrite (X k Hk). apply sum_col_length.
      - apply In_nth_error in Hk. destruct Hk as [j Hj]. unfold col, d0. rewrite (init_repr_get size vs 0 [] j k ND Hj). apply noise_length.
      - intros e He. apply edges_to_In in He. destruct He as [He <-]. assert (C : cause es (se_from e) (se_to e)) by (exists e; auto).
        apply IH; [|apply I; exists (se_to e); left; exact C]. assert (L := before_index vs _ _ ND (B _ _ C)). lia. }
    intros k Hk. apply (Q (S (index k vs)) k); [lia|exact Hk]. }
  split.
  { intros k c Hc. assert (Hk : In k vs) by (rewrite <- K0, <- K; apply dmem_In, dmem_get; eauto). specialize (LEN k Hk). unfold col in LEN. rewrite Hc in LEN. exact LEN. }
  intros j k i Hj Hi. assert (Hk : In k vs) by (apply nth_error_In in Hj; exact Hj).
  destruct (Forall2_exists (fun e x => cell_at d (se_from e) i = Some x) (edges_to es k)) as [xs F].
  { intros e He. apply edges_to_In in He. destruct He as [He <-]. assert (C : cause es (se_from e) (se_to e)) by (exists e; auto).
    assert (Hx : In (se_from e) vs) by (apply I; exists (se_to e); left; exact C). assert (L := LEN _ Hx). unfold col in L. unfold cell_at.
    assert (M : dmem d (se_from e) = true) by (apply dmem_In; rewrite K, K0; exact Hx). apply dmem_get in M. destruct M as [c Hc]. rewrite Hc in *.
    destruct (nth_error c i) eqn:E; [eauto|]. apply nth_error_None in E. lia. }
  exists xs. rewrite <- edges_to_incoming. split; [exact F|]. unfold cell_at at 1. rewrite (X k Hk). apply sum_col_nth; [exact F|].
  unfold col, d0. rewrite (init_repr_get size vs 0 [] j k ND Hj). apply noise_nth. exact Hi.
Qed.
End Data.

(* ---- sample graphs ---- *)
Fixpoint put_nodes (l : list (id * node)) : ST unit :=
  match l with [] => ret tt | (i, n) :: r => add_node (n_name n) (Some (n_values n)) i ;;; put_nodes r end.
Lemma put_nodes_ok : forall l g, NoDup (map fst l) -> (forall k, In k (map fst l) -> dmem (nodes g) k = false) ->
  put_nodes l g = (with_nodes g (nodes g ++ l), Ok tt).
Proof.
  induction l as [|[k n] l IH]; intros g N F; cbn.
  - unfold ret. rewrite app_nil_r. destruct g; reflexivity.
  - inversion N as [|x l' Hn N']; subst. unfold bind, add_node. rewrite (F k (or_introl eq_refl)).
    assert (D : dset (nodes g) k (mkNode (n_name n) (n_values n)) = nodes g ++ [(k, n)]).
    { specialize (F k (or_introl eq_refl)). apply dmem_not_In in F. destruct n as [a b]. cbn. revert F. generalize (nodes g). clear.
      intros d; induction d as [|[x y] d IH]; cbn; intros F; [reflexivity|]. rewrite (eqb_neq k x) by (intros ->; tauto). rewrite IH by tauto. reflexivity. }
    rewrite IH.
    + cbn. rewrite D, <- app_assoc. reflexivity.
    + exact N'.
    + intros k' Hk'. cbn. apply dmem_not_In. rewrite In_dkeys_dset. intros [->|Hin]; [contradiction|].
      specialize (F k' (or_intror Hk')). apply dmem_not_In in F. contradiction.
Qed.
Lemma put_nodes_reached : forall l g, reached g -> reached (fst (put_nodes l g)).
Proof.
  induction l as [|[k n] l IH]; intros g R; cbn; [exact R|]. unfold bind. assert (R1 : reached (fst (add_node (n_name n) (Some (n_values n)) k g))) by (apply (rd_op g (OAddNode (n_name n) (Some (n_values n)) k)); [exact R|exact I]).
  destruct (add_node (n_name n) (Some (n_values n)) k g) as [g1 [[]|e]]; cbn in *; [apply IH; exact R1|exact R1].
Qed.
Definition arrow_entry (u v : id) : edge := mkEdge u v TDirected (Some []) false.
Lemma add_arrows_ok : forall l g, WF g -> (forall u v, In (u, v) l -> dmem (nodes g) u = true /\ dmem (nodes g) v = true /\ u <> v) ->
  exists g', add_arrows l g = (g', Ok tt) /\ WF g' /\ nodes g' = nodes g /\
    (forall u v, eget g' u v = if mem (u, v) l then Some (arrow_entry u v) else eget g u v).
Proof.
  induction l as [|[u v] l IH]; intros g W F.
  - exists g. cbn. split; [reflexivity|]. split; [exact W|]. split; [reflexivity|]. reflexivity.
  - destruct (F u v (or_introl eq_refl)) as (Hu & Hv & N). destruct (add_directed_edge_ok g u v (Some []) TDirected W Hu Hv N) as (g1 & R1 & W1 & F1).
    destruct (IH g1 W1) as (g2 & R2 & W2 & N2 & G2).
    { intros a b Hab. rewrite (ef_nodes _ _ _ _ F1). apply F; right; exact Hab. }
    exists g2. cbn [add_arrows]. unfold bind at 1, gget at 1. rewrite Hu, Hv. cbn [andb]. unfold bind. rewrite R1, R2. split; [reflexivity|]. split; [exact W2|].
    split; [rewrite N2; apply (ef_nodes _ _ _ _ F1)|]. intros a b. rewrite G2, (ef_get _ _ _ _ F1). unfold at2, mem. cbn [existsb].
    change (eqb (a, b) (u, v)) with (eqb a u && eqb b v). destruct (existsb (eqb (a, b)) l); [rewrite orb_true_r; reflexivity|]. rewrite orb_false_r.
    destruct (eqb_spec a u) as [->|]; cbn [andb]; [|reflexivity]. destruct (eqb_spec b v) as [->|]; reflexivity.
Qed.
Lemma add_arrows_reached : forall l g, reached g -> reached (fst (add_arrows l g)).
Proof.
  induction l as [|[u v] l IH]; intros g R; cbn [add_arrows]; [exact R|]. unfold bind at 1, gget at 1. destruct (dmem (nodes g) u && dmem (nodes g) v); [|exact R].
  unfold bind. assert (R1 : reached (fst (add_directed_edge u v (Some []) TDirected g))) by (apply (rd_op g (OAddDirected u v (Some []) TDirected)); [exact R|exact I]).
  destruct (add_directed_edge u v (Some []) TDirected g) as [g1 [[]|e]]; cbn in *; [apply IH; exact R1|exact R1].
Qed.
Lemma bind_fst_reached (m1 m2 : ST unit) g : reached (fst (m1 g)) -> (forall g', reached g' -> reached (fst (m2 g'))) -> reached (fst ((m1 ;;; m2) g)).
Proof. intros A B. unfold bind. destruct (m1 g) as [g1 [[]|e]]; cbn in *; [apply B; exact A|exact A]. Qed.

(* nodes first, then arrows *)
Lemma sample_graph_ok ns l : NoDup (map fst ns) -> (forall u v, In (u, v) l -> In u (map fst ns) /\ In v (map fst ns) /\ u <> v) ->
  exists g, (put_nodes ns ;;; add_arrows l) empty_graph = (g, Ok tt) /\ reached g /\ nodes g = ns /\
    (forall u v, entry g u v = if mem (u, v) l then Some (arrow_entry u v) else None) /\ (forall u v, arrow g u v <-> In (u, v) l).
Proof.
  intros ND H. assert (P := put_nodes_ok ns empty_graph ND (fun _ _ => eq_refl)). cbn [nodes empty_graph app] in P.
  set (g0 := with_nodes empty_graph ns) in *.
  assert (R0 : reached g0). { replace g0 with (fst (put_nodes ns empty_graph)) by (rewrite P; reflexivity). apply put_nodes_reached. constructor. }
  destruct (add_arrows_ok l g0 (reached_WF _ R0)) as (g & R & W & N & G).
  { intros u v Huv. rewrite !dmem_In. apply H. exact Huv. }
  assert (RR : reached g). { replace g with (fst (add_arrows l g0)) by (rewrite R; reflexivity). apply add_arrows_reached; exact R0. }
  assert (GG : forall u v, eget g u v = if mem (u, v) l then Some (arrow_entry u v) else None) by (intros u v; rewrite G; reflexivity).
  exists g. split; [unfold bind; rewrite P; exact R|]. split; [exact RR|]. split; [exact N|]. split; [intros u v; rewrite entry_eget; apply GG|].
  intros u v. unfold arrow. rewrite dee_iff0, N. rewrite !dmem_In. unfold live. rewrite GG. split.
  - intros (_ & _ & e & E & _). destruct (mem (u, v) l) eqn:M; [apply mem_In; exact M|discriminate].
  - intros Huv. destruct (H u v Huv) as (Hu & Hv & _). apply mem_In in Huv. rewrite Huv. split; [exact Hu|]. split; [exact Hv|]. eexists; split; reflexivity.
Qed.

Lemma add_samples_put output : forall vs g, (forall k, In k vs -> dmem output k = true) ->
  add_samples output vs g = put_nodes (map (fun i => (i, mkNode i (col output i))) vs) g.
Proof.
  induction vs as [|k vs IH]; intros g H; cbn; [reflexivity|]. assert (M := H k (or_introl eq_refl)). apply dmem_get in M. destruct M as [c Hc].
  unfold col at 1. rewrite Hc. unfold bind. destruct (add_node k (Some c) k g) as [g1 [[]|e]]; [|reflexivity]. apply IH. intros k' Hk'; apply H; right; exact Hk'.
Qed.
Lemma map_self (f : string -> node) vs : map fst (map (fun i => (i, f i)) vs) = vs.
Proof. rewrite map_map. cbn. apply map_id. Qed.
Lemma dget_map_self (f : string -> node) vs k : In k vs -> dget (map (fun i => (i, f i)) vs) k = Some (f k).
Proof.
  induction vs as [|a vs IH]; [intros []|]. intros H. cbn. destruct (eqb_spec k a) as [->|N]; [reflexivity|]. destruct H as [->|H]; [congruence|]. apply IH; exact H.
Qed.

Lemma iid_generate_ok add mul rnd fuel so es size : set_order so -> acyclic (cause es) -> 2 * List.length es <= fuel ->
  exists vs d g, iid_variables fuel so es = Ok vs /\ generate_data add mul rnd es vs size = Ok d /\ iid_generate add mul rnd fuel so es size = Ok (d, g) /\ topological es vs /\
    reached g /\ dkeys (nodes g) = vs /\ (forall k, In k vs -> exists c, dget d k = Some c /\ dget (nodes g) k = Some (mkNode k c)) /\
    (forall u v, arrow g u v <-> cause es u v) /\ dag_graph g /\ (forall u v, cause es u v -> entry g u v = Some (arrow_entry u v)).
Proof.
  intros SO AC L. destruct (iid_variables_end es fuel so SO AC L) as [vs V]. assert (TP := iid_variables_ok es fuel so vs SO V).
  destruct (generate_data_ok add mul rnd es vs size TP) as (d & D & K & _ & _). destruct TP as (ND & I & B).
  set (ns := map (fun i => (i, mkNode i (col d i))) vs). set (l := map (fun e => (se_from e, se_to e)) es : list (id * id)).
  assert (LI : forall u v : id, In (u, v) l <-> cause es u v).
  { intros u v. unfold l. rewrite in_map_iff. split; [intros (e & E & He); injection E as <- <-; exists e; auto|intros (e & He & <- & <-); exists e; auto]. }
  assert (MD : forall k, In k vs -> dmem d k = true) by (intros k Hk; apply dmem_In; rewrite K; exact Hk).
  destruct (sample_graph_ok ns l) as (g & R & RR & N & E & A).
  { unfold ns. rewrite map_self. exact ND. }
  { intros u v Huv. apply LI in Huv. unfold ns. rewrite map_self. split; [apply I; exists v; left; exact Huv|]. split; [apply I; exists u; right; exact Huv|].
    assert (X := before_index vs u v ND (B u v Huv)). intros ->. lia. }
  assert (A' : forall u v, arrow g u v <-> cause es u v) by (intros u v; rewrite A; apply LI).
  exists vs, d, g. split; [exact V|]. split; [exact D|]. split.
  { unfold iid_generate. rewrite V. cbn [rbind]. rewrite D. cbn [rbind]. unfold iid_graph. fold l.
    replace ((add_samples d vs;;; add_arrows l) empty_graph) with ((put_nodes ns;;; add_arrows l) empty_graph); [rewrite R; reflexivity|].
    unfold bind. rewrite (add_samples_put d vs _ MD). reflexivity. }
  split; [repeat split; auto; apply I|]. split; [exact RR|]. split; [rewrite N; apply map_self|]. split.
  { intros k Hk. assert (M := MD k Hk). apply dmem_get in M. destruct M as [c Hc]. exists c. split; [exact Hc|]. rewrite N. etransitivity; [exact (dget_map_self (fun i => mkNode i (col d i)) vs k Hk)|]. unfold col. rewrite Hc. reflexivity. }
  split; [exact A'|]. split.
  - split.
    + intros u v Huv. assert (X := Huv). apply A in Huv. apply mem_In in Huv. specialize (E u v). rewrite Huv in E. unfold edge_of_type_exists. unfold arrow in X. rewrite X. cbn.
      rewrite entry_eget in E. unfold eget in E. rewrite E. reflexivity.
    + intros x (y & Hxy & Ry). apply (AC x). exists y. split; [apply A'; exact Hxy|]. clear - A' Ry. induction Ry; [constructor|]. econstructor; [apply A'; eassumption|assumption].
  - intros u v C. rewrite E. apply LI in C. apply mem_In in C. rewrite C. reflexivity.
Qed.

(* ---- rows ---- *)
Section Rows.
Context {T : Type}.
Lemma shaped_row_gen i : forall (d r : dict string (list T)) (acc : dict string T), NoDup (dkeys acc ++ dkeys d) -> (forall k c, In (k, c) d -> i < List.length c) ->
  exists r, rfold (fun r p => match nth_error (snd p) i with Some x => Ok (dset r (fst p) x) | None => Err IndexError end) d acc = Ok r /\
    dkeys r = dkeys acc ++ dkeys d /\ (forall k, In k (dkeys acc) -> dget r k = dget acc k) /\ (forall k c, In (k, c) d -> dget r k = nth_error c i).
Proof.
  induction d as [|[k c] d IH]; intros r acc ND H.
  - exists acc. cbn. rewrite app_nil_r. split; [reflexivity|]. split; [reflexivity|]. split; [reflexivity|intros k c []].
  - assert (L := H k c (or_introl eq_refl)). destruct (nth_error c i) as [x|] eqn:E; [|apply nth_error_None in E; lia].
    cbn [rfold fst snd]. rewrite E. cbn [rbind]. cbn [dkeys map fst] in ND. assert (Nk : ~ In k (dkeys acc)). { intros Hk. apply NoDup_remove_2 in ND. apply ND, in_or_app; left; exact Hk. }
    assert (KA : dkeys (dset acc k x) = dkeys acc ++ [k]) by (apply dkeys_dset_notin; exact Nk).
    destruct (IH r (dset acc k x)) as (r' & R & K & G & X).
    { rewrite KA, <- app_assoc. exact ND. }
    { intros k' c' Hc. apply (H k' c'). right; exact Hc. }
    exists r'. split; [exact R|]. split; [rewrite K, KA, <- app_assoc; reflexivity|]. split.
    + intros k' Hk'. rewrite G by (rewrite KA; apply in_or_app; left; exact Hk'). apply dget_dset_other. intros ->; contradiction.
    + intros k' c' [Ec|Hc]; [injection Ec as <- <-|apply X; exact Hc]. rewrite G by (rewrite KA; apply in_or_app; right; left; reflexivity). rewrite dget_dset_same. symmetry; exact E.
Qed.
Lemma shaped_rows_ok (d : dict string (list T)) size : NoDup (dkeys d) -> (forall k c, dget d k = Some c -> List.length c = size) ->
  forall is, (forall i, In i is -> i < size) -> exists rows, shaped_rows d is = Ok rows /\ Forall2 (fun i r => dkeys r = dkeys d /\ forall k, dget r k = cell_at d k i) is rows.
Proof.
  intros ND L. induction is as [|i is IH]; intros H.
  - exists []. split; [reflexivity|constructor].
  - destruct IH as (rows & R & F). { intros j Hj; apply H; right; exact Hj. }
    destruct (shaped_row_gen i d d []) as (r & R1 & K & _ & X).
    { exact ND. }
    { intros k c Hc. apply NoDup_dget in Hc; [|exact ND]. rewrite (L k c Hc). apply H; left; reflexivity. }
    exists (r :: rows). cbn [shaped_rows]. unfold shaped_row. rewrite R1. cbn [rbind]. rewrite R. split; [reflexivity|]. constructor; [|exact F].
    split; [exact K|]. intros k. unfold cell_at. destruct (dget d k) as [c|] eqn:E.
    + apply X. apply dget_In. exact E.
    + apply dget_None. cbn in K. rewrite K. apply dget_None. exact E.
Qed.
End Rows.
