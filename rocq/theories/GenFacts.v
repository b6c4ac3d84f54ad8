(* Proofs about the generators. *)
From Verif Require Import Base PyDict PyDictFacts Graph GraphFacts GraphSpec GraphInv GraphInv2 GraphInv3 GraphQ GraphMain GraphPaths Dag PathSpec PathFacts Actions ActionSpec ActionFacts ActionMain Generators GenSpec.

Section Combos.
Context {A : Type}.

Lemma subseq_nil_l (l : list A) : subseq [] l.
Proof. induction l; constructor; assumption. Qed.
Lemma subseq_refl (l : list A) : subseq l l.
Proof. induction l; constructor; assumption. Qed.
Lemma subseq_In (l m : list A) : subseq l m -> forall x, In x l -> In x m.
Proof. induction 1; intros y Hy; simpl in *; [auto| destruct Hy; auto | auto]. Qed.
Lemma subseq_NoDup (l m : list A) : subseq l m -> NoDup m -> NoDup l.
Proof.
  induction 1 as [|x l m S IH|x l m S IH]; intros N; [constructor| |]; inversion N; subst.
  - constructor; [|auto]. intros H; apply (subseq_In _ _ S) in H; contradiction.
  - auto.
Qed.
Lemma subseq_length (l m : list A) : subseq l m -> List.length l <= List.length m.
Proof. induction 1; simpl; lia. Qed.

Lemma combos_In k : forall l (c : list A), In c (combos k l) <-> subseq c l /\ List.length c = k.
Proof.
  intros l; revert k; induction l as [|x l IH]; intros [|k] c; simpl.
  - split; [intros [<-|[]]; split; [constructor|reflexivity]|]. intros [S L]. destruct c; [auto|discriminate].
  - split; [intros []|]. intros [S L]. inversion S; subst; discriminate.
  - split; [intros [<-|[]]; split; [apply subseq_nil_l|reflexivity]|]. intros [S L]. destruct c; [auto|discriminate].
  - rewrite in_app_iff, in_map_iff. split.
    + intros [(d & <- & H)|H]; apply IH in H; destruct H as [S L].
      * split; [constructor; exact S|simpl; congruence].
      * split; [constructor; exact S|exact L].
    + intros [S L]. inversion S; subst.
      * left; eexists; split; [reflexivity|]. apply IH; split; [assumption|simpl in L; congruence].
      * right; apply IH; split; [assumption|exact L].
Qed.

Lemma combos_NoDup k : forall l : list A, NoDup l -> NoDup (combos k l).
Proof.
  intros l; revert k; induction l as [|x l IH]; intros [|k] N; simpl.
  - constructor; [intros []|constructor].
  - constructor.
  - constructor; [intros []|constructor].
  - inversion N; subst. assert (D : forall l1 l2 : list (list A), NoDup l1 -> NoDup l2 -> (forall a, In a l1 -> In a l2 -> False) -> NoDup (l1 ++ l2)).
    { intros l1 l2 N1 N2 D; induction l1 as [|a l1 I1]; simpl; [exact N2|]. inversion N1; subst. constructor.
      - rewrite in_app_iff; intros [?|?]; [contradiction|]. apply (D a); [left; reflexivity|assumption].
      - apply I1; [assumption|]. intros b ? ?; apply (D b); [right; assumption|assumption]. }
    apply D.
    + apply FinFun.Injective_map_NoDup; [intros a b E; congruence|apply IH; assumption].
    + apply IH; assumption.
    + intros c Hc Hc'. apply in_map_iff in Hc; destruct Hc as (d & <- & _).
      apply combos_In in Hc'. destruct Hc' as [S _]. apply H1, (subseq_In _ _ S x); left; reflexivity.
Qed.

(* two subsequences of a duplicate-free list with the same elements are the same *)
Lemma subseq_unique (m : list A) : NoDup m -> forall l l', subseq l m -> subseq l' m -> (forall x, In x l <-> In x l') -> l = l'.
Proof.
  induction m as [|x m IH]; intros N l l' S S' E.
  - inversion S; inversion S'; reflexivity.
  - inversion N as [|x0 m0 Nx Nm]; subst. inversion S as [|x1 l1 m1 Sl|x1 l1 m1 Sl]; subst; inversion S' as [|x2 l2 m2 Sl'|x2 l2 m2 Sl']; subst.
    + f_equal. apply IH; [assumption..|]. intros y; specialize (E y); simpl in E. split; intros Hy.
      * destruct (proj1 E (or_intror Hy)) as [<-|?]; [|assumption]. exfalso; apply Nx. exact (subseq_In _ _ Sl _ Hy).
      * destruct (proj2 E (or_intror Hy)) as [<-|?]; [|assumption]. exfalso; apply Nx. exact (subseq_In _ _ Sl' _ Hy).
    + exfalso; apply Nx. apply (subseq_In _ _ Sl'). apply E; left; reflexivity.
    + exfalso; apply Nx. apply (subseq_In _ _ Sl). apply E; left; reflexivity.
    + apply IH; assumption.
Qed.
(* every duplicate-free selection of elements occurs as a subsequence up to order *)
Lemma subseq_of_subset (dec : forall x y : A, {x = y} + {x <> y}) (m : list A) : NoDup m -> forall s, NoDup s -> (forall x, In x s -> In x m) ->
  exists l, subseq l m /\ Permutation l s.
Proof.
  induction m as [|x m IH]; intros N s Ns H.
  - destruct s as [|y s]; [exists []; split; constructor|]. destruct (H y (or_introl eq_refl)).
  - inversion N; subst. destruct (in_dec dec x s) as [I|I].
    + apply in_split in I. destruct I as (s1 & s2 & ->).
      destruct (IH H3 (s1 ++ s2)) as (l & Sl & P).
      * apply NoDup_remove_1 in Ns; exact Ns.
      * intros y Hy. destruct (H y) as [<-|?]; [|exfalso|assumption].
        -- apply in_app_iff in Hy; apply in_app_iff; simpl; tauto.
        -- apply NoDup_remove_2 in Ns; contradiction.
      * exists (x :: l); split; [constructor; exact Sl|]. apply Permutation_cons_app; exact P.
    + destruct (IH H3 s Ns) as (l & Sl & P).
      * intros y Hy. destruct (H y Hy) as [<-|?]; [contradiction|assumption].
      * exists l; split; [constructor; exact Sl|exact P].
Qed.
End Combos.

Lemma NoDup_app_intro {A} (l1 l2 : list A) : NoDup l1 -> NoDup l2 -> (forall a, In a l1 -> In a l2 -> False) -> NoDup (l1 ++ l2).
Proof.
  intros N1 N2 D; induction l1 as [|a l1 I1]; simpl; [exact N2|]. inversion N1; subst. constructor.
  - rewrite in_app_iff; intros [?|?]; [contradiction|]. apply (D a); [left; reflexivity|assumption].
  - apply I1; [assumption|]. intros b ? ?; apply (D b); [right; assumption|assumption].
Qed.
Lemma NoDup_flat_map {A B} (f : A -> list B) (l : list A) : NoDup l -> (forall a, In a l -> NoDup (f a)) ->
  (forall a a' b, In a l -> In a' l -> In b (f a) -> In b (f a') -> a = a') -> NoDup (flat_map f l).
Proof.
  induction l as [|a l IH]; intros N F D; simpl; [constructor|]. inversion N; subst. apply NoDup_app_intro.
  - apply F; left; reflexivity.
  - apply IH; [assumption| |]; intros; [apply F; right; assumption|]. eapply D; eauto; right; assumption.
  - intros b Hb Hb'. apply in_flat_map in Hb'. destruct Hb' as (a' & Ha' & Hb').
    assert (a = a') by (eapply D; eauto; [left; reflexivity|right; assumption]). subst; contradiction.
Qed.

Lemma cs_stop_spec cs n k : (cs_min cs <= k /\ k < cs_stop cs n) <-> size_in cs n k.
Proof.
  unfold cs_stop, size_in. destruct (Nat.eqb_spec (cs_max cs) 0) as [E|E].
  - destruct (Nat.ltb_spec (n + 1) (n + 1)); lia.
  - destruct (Nat.ltb_spec (n + 1) (cs_max cs + 1)); lia.
Qed.

(* ---------- C23 ---------- *)
Lemma all_combinations_eq cs g : all_combinations cs g =
  flat_map (fun k => combos k (dkeys (nodes g))) (range (cs_min cs) (cs_stop cs (List.length (nodes g)))).
Proof.
  unfold all_combinations. set (n := List.length (nodes g)). assert (S : forall k, cs_min cs <= k -> k < cs_stop cs n -> k <= n) by (intros k ? ?; apply (proj1 (cs_stop_spec cs n k)); split; assumption).
  unfold range. destruct (Nat.ltb_spec n (cs_min cs)) as [L|L].
  - replace (cs_stop cs n - cs_min cs) with 0; [reflexivity|]. destruct (Nat.le_gt_cases (cs_stop cs n) (cs_min cs)); [lia|]. specialize (S (cs_min cs)); lia.
  - destruct (Nat.ltb_spec (cs_stop cs n) (cs_min cs)) as [L'|L']; [|reflexivity]. replace (cs_stop cs n - cs_min cs) with 0 by lia. reflexivity.
Qed.

Lemma range_In a b k : In k (range a b) <-> a <= k < b.
Proof. unfold range. rewrite in_seq. lia. Qed.

Lemma all_combinations_In cs g c : In c (all_combinations cs g) <->
  subseq c (dkeys (nodes g)) /\ size_in cs (List.length (nodes g)) (List.length c).
Proof.
  rewrite all_combinations_eq, in_flat_map. rewrite <- cs_stop_spec. split.
  - intros (k & K & C). apply combos_In in C. destruct C as [C L]. apply range_In in K. subst; auto.
  - intros [C L]. exists (List.length c); split; [apply range_In; exact L|apply combos_In; auto].
Qed.

Lemma all_combinations_NoDup cs g : NoDup (dkeys (nodes g)) -> NoDup (all_combinations cs g).
Proof.
  intros N. rewrite all_combinations_eq. apply NoDup_flat_map.
  - apply seq_NoDup.
  - intros k _; apply combos_NoDup; exact N.
  - intros a a' b _ _ H H'. apply combos_In in H; apply combos_In in H'. destruct H, H'; congruence.
Qed.

Lemma all_combinations_sorted cs g : forall l1 a b l2, all_combinations cs g = l1 ++ a :: b :: l2 -> List.length a <= List.length b.
Proof.
  rewrite all_combinations_eq. unfold range. set (m := cs_stop cs (List.length (nodes g)) - cs_min cs). set (s := cs_min cs). clearbody m s.
  revert s; induction m as [|m IH]; intros s l1 a b l2 E; simpl in E; [destruct l1; discriminate|].
  assert (G : forall x, In x (flat_map (fun k => combos k (dkeys (nodes g))) (seq (S s) m)) -> s <= List.length x).
  { intros x Hx. apply in_flat_map in Hx. destruct Hx as (k & K & C). apply in_seq in K. apply combos_In in C. destruct C; lia. }
  assert (Hs : forall x, In x (combos s (dkeys (nodes g))) -> List.length x = s) by (intros x Hx; apply combos_In in Hx; tauto).
  revert l1 E. revert Hs. generalize (combos s (dkeys (nodes g))). intros L Hs l1 E.
  revert l1 E. induction L as [|y L IL]; intros l1 E; simpl in E.
  - apply (IH _ _ _ _ _ E).
  - destruct l1 as [|y' l1]; simpl in E; injection E as E1 E.
    + subst y. rewrite (Hs a) by (left; reflexivity). destruct L as [|b' L]; simpl in E.
      * apply G. rewrite E; left; reflexivity.
      * injection E as -> _. rewrite (Hs b) by (right; left; reflexivity). lia.
    + apply (IL (fun x Hx => Hs x (or_intror Hx)) l1 E).
Qed.

Lemma contents_ones l : flat_map contents (map One l) = l.
Proof. induction l as [|a l IH]; simpl; [reflexivity|]. rewrite IH; reflexivity. Qed.
Lemma contents_chunks l : flat_map contents (map Chunk l) = List.concat l.
Proof. induction l as [|a l IH]; simpl; [reflexivity|]. rewrite IH; reflexivity. Qed.

Lemma c23_main cs g out : NoDup (dkeys (nodes g)) -> emitted (gen_all cs g) g out ->
  (forall c, In c out <-> subseq c (dkeys (nodes g)) /\ size_in cs (List.length (nodes g)) (List.length c)) /\
  NoDup out /\ (forall l1 a b l2, out = l1 ++ a :: b :: l2 -> List.length a <= List.length b).
Proof.
  intros N (es & E & ->). unfold gen_all, gen_run in E. simpl in E. injection E as <-.
  rewrite app_nil_r, contents_ones. split; [|split].
  - intros c; apply all_combinations_In.
  - apply all_combinations_NoDup; exact N.
  - apply all_combinations_sorted.
Qed.

(* ---------- C24 ---------- *)
Lemma live_pairs_In g (u v : id) : In [u; v] (live_pairs g) <-> arrow g u v.
Proof.
  unfold live_pairs. rewrite in_flat_map. split.
  - intros ((u0 & row) & _ & H). apply in_flat_map in H. destruct H as (w & _ & H). simpl in H.
    destruct (directed_edge_exists g u0 w) eqn:D; [|destruct H]. destruct H as [E|[]]. injection E as <- <-. exact D.
  - intros A. assert (B := A). apply dee_iff0 in B. destruct B as (_ & _ & e & G & _). unfold eget, dget2 in G.
    destruct (dget (edges g) u) as [row|] eqn:R; [|discriminate]. exists (u, row); split; [apply dget_In; exact R|].
    apply in_flat_map. exists v; split.
    + simpl. apply dmem_In. unfold dmem. rewrite G. reflexivity.
    + simpl. unfold arrow in A; rewrite A; left; reflexivity.
Qed.
Lemma live_pairs_two g c : In c (live_pairs g) -> exists u v, c = [u; v].
Proof.
  unfold live_pairs. rewrite in_flat_map. intros ((u0 & row) & _ & H). apply in_flat_map in H. destruct H as (w & _ & H).
  destruct (directed_edge_exists g (fst (u0, row)) w); [|destruct H]. destruct H as [<-|[]]. eauto.
Qed.

Lemma WFd_rows (d : dict id (dict id edge)) u row : WFd d -> In (u, row) d -> NoDup (dkeys row).
Proof.
  intros W H. destruct W as [N R]. 
  assert (dget d u = Some row) by (apply NoDup_dget; assumption). eapply R; eassumption.
Qed.

Lemma map_fst_NoDup_inj {K V} (d : list (K * V)) p q : NoDup (map fst d) -> In p d -> In q d -> fst p = fst q -> p = q.
Proof.
  induction d as [|a d IH]; intros N P Q E; [destruct P|]. simpl in N; inversion N; subst.
  destruct P as [->|P], Q as [->|Q]; auto.
  - exfalso; apply H1. rewrite E. apply in_map; exact Q.
  - exfalso; apply H1. rewrite <- E. apply in_map; exact P.
Qed.
Lemma NoDup_of_map {A B} (f : A -> B) l : NoDup (map f l) -> NoDup l.
Proof. apply NoDup_map_inv. Qed.

Lemma live_pairs_NoDup g : WF g -> NoDup (live_pairs g).
Proof.
  intros W. assert (WE := wf_e _ W). unfold live_pairs. apply NoDup_flat_map.
  - apply (NoDup_of_map fst). exact (proj1 WE).
  - intros (u & row) H. apply NoDup_flat_map.
    + eapply WFd_rows; eassumption.
    + intros a _. destruct (directed_edge_exists _ _ _); repeat constructor; intros [].
    + intros a a' b _ _ Hb Hb'. simpl in Hb, Hb'.
      destruct (directed_edge_exists g u a); [|destruct Hb]. destruct (directed_edge_exists g u a'); [|destruct Hb'].
      destruct Hb as [<-|[]]. destruct Hb' as [E|[]]. congruence.
  - intros p q b P Q Hb Hb'. apply (map_fst_NoDup_inj (edges g)); [exact (proj1 WE)|exact P|exact Q|].
    apply in_flat_map in Hb; apply in_flat_map in Hb'. destruct Hb as (w & _ & Hb), Hb' as (w' & _ & Hb').
    destruct (directed_edge_exists g (fst p) w); [|destruct Hb]. destruct (directed_edge_exists g (fst q) w'); [|destruct Hb'].
    destruct Hb as [<-|[]]. destruct Hb' as [E|[]]. congruence.
Qed.

Lemma slices_concat {A} size : 0 < size -> forall fuel (l : list A), List.length l <= fuel -> List.concat (slices fuel size l) = l.
Proof.
  intros P; induction fuel as [|f IH]; intros l L.
  - destruct l; [reflexivity|simpl in L; lia].
  - destruct l as [|a l]; [reflexivity|]. cbn [slices List.concat]. rewrite IH.
    + apply firstn_skipn.
    + rewrite skipn_length. cbn [List.length] in *. lia.
Qed.
Lemma slices_size {A} size : 0 < size -> forall fuel (l : list A) c, In c (slices fuel size l) -> 1 <= List.length c <= size.
Proof.
  intros P; induction fuel as [|f IH]; intros l c H; [destruct l; destruct H|]. destruct l as [|a l]; [destruct H|].
  cbn [slices] in H. destruct H as [<-|H]; [|eapply IH; exact H]. rewrite firstn_length. cbn [List.length]. lia.
Qed.

Lemma c24_main g out : reached g -> emitted (gen_edges false 0 g) g out ->
  (forall c, In c out <-> exists u v, c = [u; v] /\ arrow g u v) /\ NoDup out.
Proof.
  intros R (es & E & ->). unfold gen_edges, gen_run, pairs_with_edges in E. simpl in E. injection E as <-.
  rewrite app_nil_r, contents_ones. split; [|apply live_pairs_NoDup, reached_WF; exact R].
  intros c; split.
  - intros H. destruct (live_pairs_two _ _ H) as (u & v & ->). exists u, v; split; [reflexivity|apply live_pairs_In; exact H].
  - intros (u & v & -> & A). apply live_pairs_In; exact A.
Qed.
Lemma c24_chunked g size es : 0 < size -> gen_run (gen_edges true size g) g = Ok es ->
  exists cs, es = map Chunk cs ++ map One (live_pairs g) /\ List.concat cs = live_pairs g /\ forall c, In c cs -> 1 <= List.length c <= size.
Proof.
  intros P E. unfold gen_edges, gen_run, pairs_with_edges in E. simpl in E. destruct (Nat.eqb_spec size 0); [lia|]. simpl in E.
  injection E as <-. rewrite app_nil_r. eexists; split; [reflexivity|]. split; [apply slices_concat; [exact P|lia]|].
  intros c; apply slices_size; exact P.
Qed.

Lemma c24_chunked' g size es : reached g -> 0 < size -> gen_run (gen_edges true size g) g = Ok es ->
  exists cs ps, es = map Chunk cs ++ map One ps /\ List.concat cs = ps /\ NoDup ps /\
    (forall c, In c ps <-> exists u v, c = [u; v] /\ arrow g u v) /\
    forall c, In c cs -> 1 <= List.length c <= size.
Proof.
  intros R P E. destruct (c24_chunked g size es P E) as (cs & -> & C & S). exists cs, (live_pairs g).
  destruct (c24_main g (live_pairs g) R) as (I & N).
  - exists (map One (live_pairs g)); split; [unfold gen_edges, gen_run, pairs_with_edges; simpl; rewrite app_nil_r; reflexivity|].
    rewrite contents_ones; reflexivity.
  - split; [reflexivity|]. split; [exact C|]. split; [exact N|]. split; [exact I|exact S].
Qed.

(* ---------- C25 ---------- *)
Section PWN.
Variables (so : list id -> list id) (sh : option (nat * id * id -> list (list id) -> list (list id))).
Hypothesis SO : set_order so.
Hypothesis SH : is_shuffle sh.

Lemma pwn_slot_ok chunked k x y g : WF g -> In x (dkeys (edges g)) ->
  exists es, pwn_slot so sh chunked (k, x, y) g = Ok es.
Proof.
  intros W H. unfold pwn_slot. destruct (directed_edge_exists g x y); simpl; [|eauto].
  destruct (Nat.eqb k 2); [eauto|]. apply dmem_In in H. unfold dmem in H. destruct (dget (edges g) x); [eauto|discriminate].
Qed.

Lemma neighbour_In g x row z : WF g -> dget (edges g) x = Some row ->
  In z (filter (fun m => directed_edge_exists g m x) (dkeys row)) <-> neighbour g x z.
Proof.
  intros W R. rewrite filter_In. unfold neighbour, get_edge, dget2. rewrite R. split.
  - intros [H D]. split; [exact D|]. apply dmem_In in H. unfold dmem in H. destruct (dget row z); [eauto|discriminate].
  - intros [D (e & E)]. split; [|exact D]. apply dmem_In. unfold dmem. destruct (dget row z); [reflexivity|discriminate].
Qed.

Lemma NoDup_filter' {A} (f : A -> bool) l : NoDup l -> NoDup (filter f l).
Proof. apply NoDup_filter. Qed.

Lemma dget_row_NoDup g x row : WF g -> dget (edges g) x = Some row -> NoDup (dkeys row).
Proof. intros W R. apply (proj2 (wf_e _ W) _ _ R). Qed.

Lemma shuffle_In s cs c : In c (match sh with Some f => f s cs | None => cs end) <-> In c cs.
Proof.
  unfold is_shuffle in SH. destruct sh as [f|]; [|reflexivity]. split; apply Permutation_in; [apply SH|apply Permutation_sym, SH].
Qed.
Lemma shuffle_NoDup s cs : NoDup cs -> NoDup (match sh with Some f => f s cs | None => cs end).
Proof.
  unfold is_shuffle in SH. destruct sh as [f|]; [|auto]. intros N. eapply Permutation_NoDup; [apply Permutation_sym, SH|exact N].
Qed.

Definition slot_out (chunked : bool) s g : list (list id) :=
  match pwn_slot so sh chunked s g with Ok es => flat_map contents es | Err _ => [] end.

(* what one slot yields on g *)
Lemma slot_out_spec chunked k x y g : WF g -> 2 <= k -> In x (dkeys (edges g)) ->
  let out := slot_out chunked (k, x, y) g in
  (forall c, In c out -> exists S, c = x :: y :: S /\ arrow g x y /\ List.length c = k /\ NoDup S /\ forall z, In z S -> neighbour g x z /\ z <> y) /\
  (forall S, arrow g x y -> List.length S = k - 2 -> NoDup S -> (forall z, In z S -> neighbour g x z /\ z <> y) ->
     exists S', Permutation S' S /\ In (x :: y :: S') out) /\
  NoDup out /\ (forall S S', In (x :: y :: S) out -> In (x :: y :: S') out -> (forall z, In z S <-> In z S') -> S = S').
Proof.
  intros W K HX out. unfold out, slot_out, pwn_slot. clear out.
  destruct (directed_edge_exists g x y) eqn:D; simpl negb; cbv iota.
  2:{ simpl. split; [|split; [|split]]; [intros c []| |constructor|intros S S' []].
      intros S A; unfold arrow in A; congruence. }
  destruct (Nat.eqb_spec k 2) as [->|K2].
  - simpl. split; [|split; [|split]].
    + intros c [<-|[]]. exists []; split; [reflexivity|]. split; [exact D|]. split; [reflexivity|]. split; [constructor|]. intros z [].
    + intros S _ L _ _. exists []. destruct S; [|simpl in L; discriminate]. split; [constructor|left; reflexivity].
    + repeat constructor; intros [].
    + intros S S' [E|[]] [E'|[]] _. congruence.
  - assert (HX' := HX). apply dmem_In in HX'. unfold dmem in HX'. destruct (dget (edges g) x) as [row|] eqn:R; [|discriminate].
    set (others := filter (fun m => negb (eqb m y)) (filter (fun m => directed_edge_exists g m x) (dkeys row))).
    assert (OI : forall z, In z (so others) <-> neighbour g x z /\ z <> y).
    { intros z. rewrite (proj2 (SO others) z). unfold others. rewrite filter_In, (neighbour_In g x row z W R).
      rewrite negb_true_iff, eqb_false. reflexivity. }
    assert (ON : NoDup (so others)) by (apply SO).
    match goal with |- context [map ?f (match sh with Some _ => _ | None => _ end)] => set (L := map f (match sh with Some h => h (k, x, y) (combos (k - 2) (so others)) | None => combos (k - 2) (so others) end)) end.
    assert (LE : forall ch : bool, flat_map contents (if ch then [Chunk L] else map One L) = L).
    { intros [|]; [simpl; apply app_nil_r|apply contents_ones]. }
    rewrite LE. clear LE.
    assert (LI : forall c, In c L <-> exists S, c = x :: y :: S /\ subseq S (so others) /\ List.length S = k - 2).
    { intros c. unfold L. rewrite in_map_iff. split.
      - intros (S & <- & H). apply (proj1 (shuffle_In (k, x, y) _ _)) in H. apply combos_In in H. exists S; split; [reflexivity|exact H].
      - intros (S & -> & H). exists S; split; [reflexivity|]. apply (proj2 (shuffle_In (k, x, y) _ _)). apply combos_In; exact H. }
    split; [|split; [|split]].
    + intros c Hc. apply LI in Hc. destruct Hc as (S & -> & HS & HL). exists S. split; [reflexivity|]. split; [exact D|].
      split; [simpl; lia|]. split; [eapply subseq_NoDup; eassumption|]. intros z Hz. apply OI. eapply subseq_In; eassumption.
    + intros S _ HL NS HS. destruct (subseq_of_subset string_dec (so others) ON S NS) as (S' & SS & P).
      { intros z Hz; apply OI, HS; exact Hz. }
      exists S'; split; [exact P|]. apply LI. exists S'; split; [reflexivity|]. split; [exact SS|]. exact (eq_trans (Permutation_length P) HL).
    + unfold L. apply FinFun.Injective_map_NoDup; [intros a b E; congruence|]. apply (shuffle_NoDup (k, x, y)). apply combos_NoDup; exact ON.
    + intros S S' H H' E. apply LI in H; apply LI in H'. destruct H as (T & ET & HT & _), H' as (T' & ET' & HT' & _).
      injection ET as <-. injection ET' as <-. eapply subseq_unique; eassumption.
Qed.

Lemma rflat_ok {A B} (f : A -> res (list B)) (l : list A) : (forall a, In a l -> exists b, f a = Ok b) ->
  rflat f l = Ok (flat_map (fun a => match f a with Ok b => b | Err _ => [] end) l).
Proof.
  induction l as [|a l IH]; intros H; simpl; [reflexivity|]. destruct (H a (or_introl eq_refl)) as (b & E). rewrite E. simpl.
  rewrite IH by (intros; apply H; right; assumption). reflexivity.
Qed.
Lemma rflat_map {A B C} (h : C -> A) (f : A -> res (list B)) l : rflat f (map h l) = rflat (fun c => f (h c)) l.
Proof. induction l as [|a l IH]; simpl; [reflexivity|]. rewrite IH; reflexivity. Qed.
Lemma flat_map_flat_map {A B C} (f : A -> list B) (h : B -> list C) l : flat_map h (flat_map f l) = flat_map (fun a => flat_map h (f a)) l.
Proof. induction l as [|a l IH]; simpl; [reflexivity|]. rewrite flat_map_app, IH; reflexivity. Qed.

Lemma slots_In g ks k x y : WF g -> In (k, x, y) (pwn_slots g ks) <-> In k ks /\ exists e, get_edge g x y = Ok e.
Proof.
  intros W. unfold pwn_slots. rewrite in_flat_map. split.
  - intros (k' & K & H). apply in_flat_map in H. destruct H as ((u & row) & HR & H). apply in_map_iff in H.
    destruct H as (w & E & HW). simpl in *. injection E as -> -> ->. split; [exact K|].
    unfold get_edge, dget2. rewrite (NoDup_dget (edges g) x row (proj1 (wf_e _ W)) HR).
    apply dmem_In in HW. unfold dmem in HW. destruct (dget row y); [eauto|discriminate].
  - intros (K & e & G). exists k; split; [exact K|]. unfold get_edge, dget2 in G.
    destruct (dget (edges g) x) as [row|] eqn:R; [|discriminate]. apply in_flat_map. exists (x, row); split; [apply dget_In; exact R|].
    apply in_map_iff. exists y; split; [reflexivity|]. simpl. apply dmem_In. unfold dmem. destruct (dget row y); [reflexivity|discriminate].
Qed.
Lemma slots_NoDup g ks : WF g -> NoDup ks -> NoDup (pwn_slots g ks).
Proof.
  intros W N. unfold pwn_slots. assert (WE := wf_e _ W). apply NoDup_flat_map; [exact N| |].
  - intros k _. apply NoDup_flat_map.
    + apply (NoDup_of_map fst). exact (proj1 WE).
    + intros (u & row) H. apply FinFun.Injective_map_NoDup; [intros a b E; congruence|]. eapply WFd_rows; eassumption.
    + intros p q b P Q Hb Hb'. apply (map_fst_NoDup_inj (edges g)); [exact (proj1 WE)|exact P|exact Q|].
      apply in_map_iff in Hb; apply in_map_iff in Hb'. destruct Hb as (w & <- & _), Hb' as (w' & E & _). congruence.
  - intros k k' b _ _ H H'. apply in_flat_map in H; apply in_flat_map in H'. destruct H as (p & _ & H), H' as (p' & _ & H').
    apply in_map_iff in H; apply in_map_iff in H'. destruct H as (w & <- & _), H' as (w' & E & _). congruence.
Qed.
Lemma slot_row g ks k x y : WF g -> In (k, x, y) (pwn_slots g ks) -> In x (dkeys (edges g)).
Proof.
  intros W H. apply slots_In in H; [|exact W]. destruct H as (_ & e & G). unfold get_edge, dget2 in G.
  apply dmem_In. unfold dmem. destruct (dget (edges g) x); [reflexivity|discriminate].
Qed.

Lemma pwn_emitted chunked cs g : WF g -> 2 <= cs_min cs ->
  exists es, gen_run (gen_neighbours so sh chunked cs g) g = Ok es /\
    flat_map contents es = flat_map (fun s => slot_out chunked s g) (pwn_slots g (range (cs_min cs) (cs_stop cs (List.length (nodes g))))).
Proof.
  intros W M. unfold gen_neighbours. set (n := List.length (nodes g)).
  assert (S : forall k, cs_min cs <= k -> k < cs_stop cs n -> k <= n) by (intros k ? ?; apply (proj1 (cs_stop_spec cs n k)); split; assumption).
  assert (Z : cs_stop cs n <= cs_min cs -> range (cs_min cs) (cs_stop cs n) = []).
  { intros H. unfold range. replace (cs_stop cs n - cs_min cs) with 0 by lia. reflexivity. }
  destruct (Nat.ltb_spec n (cs_min cs)) as [L|L].
  { exists []; split; [reflexivity|]. rewrite Z; [reflexivity|]. destruct (Nat.le_gt_cases (cs_stop cs n) (cs_min cs)); [lia|]. specialize (S (cs_min cs)); lia. }
  destruct (Nat.ltb_spec (cs_stop cs n) (cs_min cs)) as [L'|L'].
  { exists []; split; [reflexivity|]. rewrite Z; [reflexivity|lia]. }
  destruct (Nat.ltb_spec (cs_min cs) 2); [lia|].
  unfold gen_run. rewrite rflat_map. rewrite rflat_ok.
  - eexists; split; [reflexivity|]. rewrite flat_map_flat_map. apply flat_map_ext. intros s. unfold slot_out.
    destruct (pwn_slot so sh chunked s g); reflexivity.
  - intros ((k & x) & y) H1. apply (pwn_slot_ok chunked k x y g W). eapply slot_row; eassumption.
Qed.

Lemma c25_main chunked cs g out : WF g -> emitted (gen_neighbours so sh chunked cs g) g out -> 2 <= cs_min cs ->
  (forall c, In c out -> exists x y S, c = x :: y :: S /\ arrow g x y /\ size_in cs (List.length (nodes g)) (List.length c) /\
      NoDup S /\ forall z, In z S -> neighbour g x z /\ z <> y) /\
  (forall x y S, arrow g x y -> size_in cs (List.length (nodes g)) (List.length (x :: y :: S)) -> NoDup S ->
      (forall z, In z S -> neighbour g x z /\ z <> y) -> exists S', Permutation S' S /\ In (x :: y :: S') out) /\
  NoDup out /\
  (forall x y S S', In (x :: y :: S) out -> In (x :: y :: S') out -> (forall z, In z S <-> In z S') -> S = S').
Proof.
  intros W (es & E & ->) M. destruct (pwn_emitted chunked cs g W M) as (es' & E' & F). rewrite E in E'. injection E' as <-.
  rewrite F. set (n := List.length (nodes g)) in *. clear E F es.
  set (R := range (cs_min cs) (cs_stop cs n)).
  assert (RI : forall k, In k R <-> size_in cs n k) by (intros k; unfold R; rewrite range_In; apply cs_stop_spec).
  assert (R2 : forall k, In k R -> 2 <= k) by (intros k; rewrite RI; unfold size_in; lia).
  assert (SP : forall k x y, In (k, x, y) (pwn_slots g R) -> In k R /\ 2 <= k /\ In x (dkeys (edges g))).
  { intros k x y H. assert (H' := H). apply slots_In in H; [|exact W]. destruct H as (K & _). split; [exact K|]. split; [apply R2; exact K|]. eapply slot_row; eassumption. }
  assert (EX : forall x y S, In (x :: y :: S) (flat_map (fun s => slot_out chunked s g) (pwn_slots g R)) ->
     In (x :: y :: S) (slot_out chunked (List.length (x :: y :: S), x, y) g) /\ In (List.length (x :: y :: S), x, y) (pwn_slots g R)).
  { intros x y S H. apply in_flat_map in H. destruct H as (((k & x') & y') & HS & H). assert (T := SP _ _ _ HS). destruct T as (K & K2 & X).
    assert (Q := proj1 (slot_out_spec chunked k x' y' g W K2 X) _ H). destruct Q as (S' & EQ & _ & LL & _). injection EQ as -> -> ->.
    subst k. split; assumption. }
  split; [|split; [|split]].
  - intros c H. apply in_flat_map in H. destruct H as (((k & x) & y) & HS & H). destruct (SP _ _ _ HS) as (K & K2 & X).
    destruct (proj1 (slot_out_spec chunked k x y g W K2 X) _ H) as (S & -> & A & LL & NS & HZ).
    exists x, y, S; split; [reflexivity|]. split; [exact A|]. split; [apply RI; congruence|]. split; assumption.
  - intros x y S A Z NS HZ. set (k := List.length (x :: y :: S)) in *.
    assert (HS : In (k, x, y) (pwn_slots g R)).
    { apply slots_In; [exact W|]. split; [apply RI; exact Z|]. assert (B := A). apply dee_iff0 in B. destruct B as (_ & _ & e & G & _).
      unfold get_edge. unfold eget in G. rewrite G. eauto. }
    destruct (SP _ _ _ HS) as (K & K2 & X).
    destruct (proj1 (proj2 (slot_out_spec chunked k x y g W K2 X)) S A) as (S' & P & H); [simpl in k; unfold k; simpl; lia|exact NS|exact HZ|].
    exists S'; split; [exact P|]. apply in_flat_map. exists (k, x, y); split; assumption.
  - apply NoDup_flat_map.
    + apply slots_NoDup; [exact W|]. apply seq_NoDup.
    + intros ((k & x) & y) HS. destruct (SP _ _ _ HS) as (K & K2 & X). apply (slot_out_spec chunked k x y g W K2 X).
    + intros ((k & x) & y) ((k' & x') & y') b HS HS' H H'. destruct (SP _ _ _ HS) as (K & K2 & X). destruct (SP _ _ _ HS') as (K' & K2' & X').
      destruct (proj1 (slot_out_spec chunked k x y g W K2 X) _ H) as (S & EQ & _ & LL & _).
      destruct (proj1 (slot_out_spec chunked k' x' y' g W K2' X') _ H') as (S' & EQ' & _ & LL' & _).
      subst b. injection EQ' as -> -> ->. subst; reflexivity.
  - intros x y S S' H H' Q. apply EX in H; apply EX in H'. destruct H as (H & HS), H' as (H' & HS').
    assert (LE : List.length S = List.length S').
    { destruct (SP _ _ _ HS) as (K & K2 & X). destruct (SP _ _ _ HS') as (K' & K2' & X').
      destruct (proj1 (slot_out_spec chunked _ x y g W K2 X) _ H) as (T & EQ & _ & _ & NT & _).
      destruct (proj1 (slot_out_spec chunked _ x y g W K2' X') _ H') as (T' & EQ' & _ & _ & NT' & _).
      injection EQ as <-; injection EQ' as <-. apply Permutation_length, NoDup_Permutation; assumption. }
    assert (LE' : List.length (x :: y :: S) = List.length (x :: y :: S')) by (simpl; congruence).
    rewrite <- LE' in H'. destruct (SP _ _ _ HS) as (K & K2 & X).
    apply (proj2 (proj2 (proj2 (slot_out_spec chunked _ x y g W K2 X))) S S' H H' Q).
Qed.

Lemma c25_reject chunked cs g : cs_min cs < 2 -> cs_min cs <= List.length (nodes g) -> cs_min cs <= cs_stop cs (List.length (nodes g)) ->
  gen_run (gen_neighbours so sh chunked cs g) g = Err ValueError.
Proof.
  intros M L L'. unfold gen_neighbours. destruct (Nat.ltb_spec (List.length (nodes g)) (cs_min cs)); [lia|].
  destruct (Nat.ltb_spec (cs_stop cs (List.length (nodes g))) (cs_min cs)); [lia|]. destruct (Nat.ltb_spec (cs_min cs) 2); [|lia]. reflexivity.
Qed.
End PWN.
