(* Proofs of C95. *)
From Verif Require Import Base Mixins MixinSpec.
Open Scope string_scope.
Open Scope list_scope.

Lemma heads_In x ls : In x (heads ls) <-> exists t, In (x :: t) ls.
Proof.
  unfold heads. rewrite in_flat_map. split.
  - intros (l & Hl & Hx). destruct l as [|y t]; [destruct Hx|]. destruct Hx as [->|[]]. exists t; exact Hl.
  - intros [t H]. exists (x :: t). split; [exact H|left; reflexivity].
Qed.
Lemma heads_nil ls : heads ls = [] -> forall l, In l ls -> l = [].
Proof.
  intros H l Hl. destruct l as [|x t]; [reflexivity|]. assert (X : In x (heads ls)) by (apply heads_In; exists t; exact Hl). rewrite H in X. destruct X.
Qed.
Lemma next_head ls x : next_class ls = Some x -> exists t, In (x :: t) ls.
Proof. intros H. apply find_some in H. apply heads_In. apply H. Qed.

Lemma drop_le x l : List.length (drop_head x l) <= List.length l.
Proof. destruct l as [|y t]; cbn; [lia|]. destruct (eqb x y); cbn; lia. Qed.
Lemma size_cons l ls : size (l :: ls) = List.length l + size ls.
Proof. unfold size; cbn. apply app_length. Qed.
Lemma size_drop x ls : size (map (drop_head x) ls) <= size ls.
Proof.
  induction ls as [|l ls IH]; [apply le_n|]. cbn [map]. rewrite !size_cons. assert (H := drop_le x l). lia.
Qed.
Lemma size_drop_head x t ls : In (x :: t) ls -> size (map (drop_head x) ls) < size ls.
Proof.
  induction ls as [|l ls IH]; intros H; [destruct H|]. destruct H as [H|H]; cbn [map]; rewrite !size_cons.
  - subst l. cbn [drop_head]. rewrite eqb_refl. assert (K := size_drop x ls). cbn [List.length]. lia.
  - specialize (IH H). assert (K := drop_le x l). lia.
Qed.
Lemma merge_fuel f : forall ls, size ls <= f -> merge f ls <> Err OutOfFuel.
Proof.
  induction f as [|f IH]; intros ls Hs.
  - cbn [merge]. destruct (heads ls) as [|x h] eqn:E; [discriminate|]. exfalso.
    assert (X : In x (heads ls)) by (rewrite E; left; reflexivity). apply heads_In in X. destruct X as [t Ht].
    assert (K := size_drop_head x t ls Ht). lia.
  - cbn [merge]. destruct (heads ls) as [|x h]; [discriminate|]. destruct (next_class ls) as [y|] eqn:N; [|discriminate].
    destruct (next_head ls y N) as [t Ht]. assert (K := size_drop_head y t ls Ht). specialize (IH (map (drop_head y) ls) ltac:(lia)).
    destruct (merge f (map (drop_head y) ls)) as [r|e]; cbn; [discriminate|]. intros X; injection X as ->. apply IH; reflexivity.
Qed.

Lemma merge_In f : forall ls r, merge f ls = Ok r -> forall x, In x r <-> exists l, In l ls /\ In x l.
Proof.
  induction f as [|f IH]; intros ls r M x; cbn [merge] in M; destruct (heads ls) as [|h hs] eqn:E.
  1,3: injection M as <-; split; [intros []|]; intros (l & Hl & Hx); rewrite (heads_nil ls E l Hl) in Hx; exact Hx.
  - discriminate.
  - destruct (next_class ls) as [y|] eqn:N; [|discriminate]. destruct (merge f (map (drop_head y) ls)) as [r1|e] eqn:M1; cbn in M; [|discriminate].
    injection M as <-. specialize (IH _ _ M1). split.
    + intros [<-|Hx].
      * destruct (next_head ls y N) as [t Ht]. exists (y :: t); split; [exact Ht|left; reflexivity].
      * apply IH in Hx. destruct Hx as (l & Hl & Hx). apply in_map_iff in Hl. destruct Hl as (l0 & <- & Hl0). exists l0. split; [exact Hl0|].
        destruct l0 as [|z t]; [exact Hx|]. cbn [drop_head] in Hx. destruct (eqb y z); [right; exact Hx|exact Hx].
    + intros (l & Hl & Hx). destruct (eqb_spec y x) as [->|Ne]; [left; reflexivity|right]. apply IH. exists (drop_head y l).
      split; [apply in_map; exact Hl|]. destruct l as [|z t]; [exact Hx|]. cbn [drop_head]. destruct (eqb_spec y z) as [->|Nz]; [|exact Hx].
      destruct Hx as [<-|Hx]; [congruence|exact Hx].
Qed.

Definition above (C : classes) (bases : list string) (a : string) : Prop := In a bases \/ exists x, In x bases /\ In a (c_mro (C x)).
Lemma linearize_In C n bases o : linearize C n bases = Ok o -> forall a, In a o <-> a = n \/ above C bases a.
Proof.
  unfold linearize. intros H a. destruct (merge _ _) as [r|e] eqn:M; cbn [rbind] in H; [|discriminate]. injection H as <-.
  assert (K := merge_In _ _ _ M a). split.
  - intros [->|Ha]; [left; reflexivity|right]. apply K in Ha. destruct Ha as (l & Hl & Ha). apply in_app_iff in Hl.
    destruct Hl as [Hl|[<-|[]]]; [|left; exact Ha]. apply in_map_iff in Hl. destruct Hl as (x & <- & Hx). right; exists x; auto.
  - intros [->|Ha]; [left; reflexivity|right]. apply K. destruct Ha as [Ha|(x & Hx & Ha)].
    + exists bases; split; [apply in_app_iff; right; left; reflexivity|exact Ha].
    + exists (c_mro (C x)); split; [apply in_app_iff; left; apply in_map_iff; exists x; auto|exact Ha].
Qed.

Lemma lookup_found C o m a : (forall b, In b o -> In m (c_defs (C b)) -> b = a) -> In a o -> In m (c_defs (C a)) -> lookup C o m = Ok a.
Proof.
  intros U Ha Hm. unfold lookup. destruct (find _ o) as [c|] eqn:F.
  - apply find_some in F. destruct F as [Hc F]. apply mem_In in F. rewrite (U c Hc F); reflexivity.
  - exfalso. apply (find_none _ _ F) in Ha. apply mem_In in Hm. congruence.
Qed.
Lemma lookup_missing C o m : (forall b, In b o -> ~ In m (c_defs (C b))) -> lookup C o m = Err AttributeError.
Proof.
  intros U. unfold lookup. destruct (find _ o) as [c|] eqn:F; [|reflexivity]. apply find_some in F. destruct F as [Hc F]. apply mem_In in F. destruct (U c Hc F).
Qed.
Lemma lookup_is C o m a : lookup C o m = Ok a -> In a o /\ In m (c_defs (C a)).
Proof.
  unfold lookup. destruct (find _ o) as [c|] eqn:F; [|discriminate]. intros X; injection X as <-. apply find_some in F. destruct F as [Hc F].
  apply mem_In in F. auto.
Qed.
Lemma lookup_err C o m e : lookup C o m = Err e -> forall b, In b o -> ~ In m (c_defs (C b)).
Proof.
  unfold lookup. destruct (find _ o) as [c|] eqn:F; [discriminate|]. intros _ b Hb Hm. apply (find_none _ _ F) in Hb. apply mem_In in Hm. congruence.
Qed.

Lemma distinct_In x l : In x (distinct l) <-> In x l.
Proof.
  induction l as [|y l IH]; [reflexivity|]. cbn [distinct]. destruct (mem y l) eqn:M.
  - rewrite IH. split; [right; assumption|]. intros [<-|H]; [apply mem_In; exact M|exact H].
  - cbn; rewrite IH; reflexivity.
Qed.
Lemma distinct_NoDup l : NoDup (distinct l).
Proof.
  induction l as [|y l IH]; [constructor|]. cbn [distinct]. destruct (mem y l) eqn:M; [exact IH|]. constructor; [|exact IH].
  rewrite distinct_In. apply mem_not_In; exact M.
Qed.

(* the bases only grow *)
Lemma extend_incl C so ms bases : lists_set so -> incl bases (fst (extend_graph_class C so ms bases)).
Proof.
  intros S x Hx. unfold extend_graph_class. destruct (linearize _ _ _); [|exact Hx]. cbn [fst].
  apply (Permutation_in x (Permutation_sym (S _))). apply distinct_In. apply in_app_iff; left; exact Hx.
Qed.
Lemma calls_incl C l : Forall (fun c => lists_set (fst c)) l -> forall bases, incl bases (factory_calls C l bases).
Proof.
  induction 1 as [|[so ms] l S F IH]; intros bases; [apply incl_refl|]. cbn [factory_calls]. eapply incl_tran; [apply (extend_incl C so ms bases S)|apply IH].
Qed.
Definition linear (C : classes) (bases : list string) : Prop := is_ok (linearize C "Graph" bases) = true.
Lemma extend_linear C so ms bases : linear C bases -> linear C (fst (extend_graph_class C so ms bases)).
Proof. intros L. unfold extend_graph_class. destruct (linearize C "Graph" (so _)) eqn:E; [|exact L]. unfold linear; cbn [fst]. rewrite E; reflexivity. Qed.
Lemma calls_linear C l : forall bases, linear C bases -> linear C (factory_calls C l bases).
Proof. induction l as [|[so ms] l IH]; intros bases L; [exact L|]. cbn [factory_calls]. apply IH, extend_linear, L. Qed.
Lemma query_cases C bases m : linear C bases -> exists o, linearize C "Graph" bases = Ok o /\ graph_query C bases m = lookup C o m.
Proof. unfold linear, graph_query. destruct (linearize C "Graph" bases) as [o|e]; [|discriminate]. intros _. exists o; auto. Qed.

Lemma kept_main C l bases m a : Forall (fun c => lists_set (fst c)) l -> linear C bases ->
  graph_query C bases m = Ok a -> exists b, graph_query C (factory_calls C l bases) m = Ok b.
Proof.
  intros S L Q. destruct (query_cases C bases m L) as (o & E & Q1). rewrite Q1 in Q. apply lookup_is in Q. destruct Q as [Ha Hm].
  destruct (query_cases C _ m (calls_linear C l bases L)) as (o2 & E2 & Q2). rewrite Q2. destruct (lookup C o2 m) as [b|e] eqn:Lk; [exists b; reflexivity|].
  exfalso. refine (lookup_err C o2 m e Lk a _ Hm). apply (linearize_In _ _ _ _ E2). apply (linearize_In _ _ _ _ E) in Ha.
  assert (I := calls_incl C l S bases). destruct Ha as [->|[Ha|(x & Hx & Ha)]]; [left; reflexivity|right; left; apply I; exact Ha|].
  right; right. exists x; split; [apply I; exact Hx|exact Ha].
Qed.

(* the order of the bases is irrelevant for a function with one owner *)
Lemma order_main C bases bases' m : Permutation bases bases' -> (forall x, In x bases -> In x (c_mro (C x))) -> ~ In m (c_defs (C "Graph")) ->
  one_owner C bases m -> linear C bases -> linear C bases' -> graph_query C bases m = graph_query C bases' m.
Proof.
  intros P Hr Hg U L L'. destruct (query_cases C bases m L) as (o & E & Q). destruct (query_cases C bases' m L') as (o' & E' & Q').
  rewrite Q, Q'. assert (Ho := linearize_In _ _ _ _ E). assert (Ho' := linearize_In _ _ _ _ E').
  assert (HA : forall a, above C bases a -> exists x, In x bases /\ In a (c_mro (C x))).
  { intros a [Ha|Ha]; [exists a; split; [exact Ha|apply Hr; exact Ha]|exact Ha]. }
  assert (HB : forall a, above C bases' a -> above C bases a).
  { intros a [Ha|(x & Hx & Ha)]; [left; apply (Permutation_in a (Permutation_sym P)); exact Ha|right; exists x; split; [apply (Permutation_in x (Permutation_sym P)); exact Hx|exact Ha]]. }
  assert (HC : forall a, above C bases a -> above C bases' a).
  { intros a [Ha|(x & Hx & Ha)]; [left; apply (Permutation_in a P); exact Ha|right; exists x; split; [apply (Permutation_in x P); exact Hx|exact Ha]]. }
  destruct (lookup C o m) as [a|e] eqn:Lk.
  - apply lookup_is in Lk. destruct Lk as [Ha Hm]. symmetry. apply Ho in Ha. destruct Ha as [->|Ha]; [contradiction|]. apply lookup_found.
    + intros b Hb Hmb. apply Ho' in Hb. destruct Hb as [->|Hb]; [contradiction|]. apply (U b a); [apply HA, HB; exact Hb|apply HA; exact Ha|exact Hmb|exact Hm].
    + apply Ho'. right; apply HC; exact Ha.
    + exact Hm.
  - assert (X := lookup_err C o m e Lk). assert (e = AttributeError) as -> by (unfold lookup in Lk; destruct (find _ o); [discriminate|congruence]).
    symmetry. apply lookup_missing. intros b Hb. apply Ho' in Hb. apply X. apply Ho. destruct Hb as [->|Hb]; [left; reflexivity|right; apply HB; exact Hb].
Qed.

(* ---- the classes of causy ---- *)
Definition universe : list string := graph_bases ++ shipped_mixins.
Fixpoint arrangements (k : nat) (U : list string) : list (list string) :=
  [] :: match k with 0 => [] | S k => flat_map (fun x => map (cons x) (arrangements k (filter (fun y => negb (eqb x y)) U))) U end.
Lemma arrangements_In l : forall k U, NoDup l -> incl l U -> List.length l <= k -> In l (arrangements k U).
Proof.
  induction l as [|x l IH]; intros k U N I Hk; [destruct k; left; reflexivity|]. destruct k as [|k]; [cbn in Hk; lia|].
  inversion N as [|? ? Hx N']; subst. cbn [arrangements]. right. apply in_flat_map. exists x. split; [apply I; left; reflexivity|].
  apply in_map. apply IH; [exact N'| |cbn in Hk; lia]. intros y Hy. apply filter_In. split; [apply I; right; exact Hy|].
  apply negb_true_iff. apply eqb_neq. intros ->. contradiction.
Qed.
Lemma shipped_linear l : NoDup l -> incl l universe -> linear causy_classes l.
Proof.
  intros N I. assert (H : forallb (fun l => is_ok (linearize causy_classes "Graph" l)) (arrangements 6 universe) = true) by (vm_compute; reflexivity).
  rewrite forallb_forall in H. apply H. apply arrangements_In; [exact N|exact I|]. apply (NoDup_incl_length N I).
Qed.
Lemma universe_reflects x : In x universe -> In x (c_mro (causy_classes x)).
Proof.
  intros H. assert (K : forallb (fun x => mem x (c_mro (causy_classes x))) universe = true) by (vm_compute; reflexivity).
  rewrite forallb_forall in K. apply mem_In, K, H.
Qed.
Lemma above_universe l a : incl l universe -> above causy_classes l a -> In a ("ABC" :: "object" :: universe).
Proof.
  intros I H. assert (K : forallb (fun x => forallb (fun a => mem a ("ABC" :: "object" :: universe)) (c_mro (causy_classes x))) universe = true) by (vm_compute; reflexivity).
  destruct H as [H|(x & Hx & H)]; [right; right; apply I; exact H|]. rewrite forallb_forall in K. specialize (K x (I x Hx)). rewrite forallb_forall in K.
  apply mem_In, K, H.
Qed.
(* the own mixins of the shipped classes are only reached through themselves *)
Lemma above_own l a : incl l universe -> In a universe -> above causy_classes l a -> In a l.
Proof.
  intros I Ha [H|(x & Hx & H)]; [exact H|].
  assert (K : forallb (fun x => forallb (fun a => negb (mem a universe) || eqb a x) (c_mro (causy_classes x))) universe = true) by (vm_compute; reflexivity).
  rewrite forallb_forall in K. specialize (K x (I x Hx)). rewrite forallb_forall in K. specialize (K a H). apply mem_In in Ha. rewrite Ha in K. cbn in K.
  apply eqb_true in K. subst a. exact Hx.
Qed.
Lemma owners a b m : In a ("Graph" :: "ABC" :: "object" :: universe) -> In b ("Graph" :: "ABC" :: "object" :: universe) ->
  In m (c_defs (causy_classes a)) -> In m (c_defs (causy_classes b)) -> a = b.
Proof.
  intros Ha Hb Hm Hm'. set (V := "Graph" :: "ABC" :: "object" :: universe) in *.
  assert (K : forallb (fun a => forallb (fun b => eqb a b || forallb (fun m => negb (mem m (c_defs (causy_classes b)))) (c_defs (causy_classes a))) V) V = true) by (vm_compute; reflexivity).
  rewrite forallb_forall in K. specialize (K a Ha). rewrite forallb_forall in K. specialize (K b Hb). apply orb_true_iff in K.
  destruct K as [K|K]; [apply eqb_true; exact K|]. rewrite forallb_forall in K. specialize (K m Hm). apply mem_In in Hm'. rewrite Hm' in K. discriminate.
Qed.

Definition state_ok (l : list ((list string -> list string) * list string)) (bases : list string) : Prop :=
  NoDup bases /\ incl bases universe /\ incl graph_bases bases /\
  forall d, In d shipped_mixins -> (In d bases <-> exists c, In c l /\ In d (snd c)).

Lemma shipped_not_abstract d : In d shipped_mixins -> c_abstract (causy_classes d) = false.
Proof.
  intros H. assert (K : forallb (fun d => negb (c_abstract (causy_classes d))) shipped_mixins = true) by (vm_compute; reflexivity).
  rewrite forallb_forall in K. apply negb_true_iff, K, H.
Qed.
Lemma shipped_not_base d : In d shipped_mixins -> ~ In d graph_bases.
Proof.
  intros H H'. assert (K : forallb (fun d => negb (mem d graph_bases)) shipped_mixins = true) by (vm_compute; reflexivity).
  rewrite forallb_forall in K. specialize (K d H). apply mem_In in H'. rewrite H' in K. discriminate.
Qed.

Lemma state_step done bases so ms : state_ok done bases -> lists_set so -> incl ms shipped_mixins ->
  snd (extend_graph_class causy_classes so ms bases) = Ok tt /\ state_ok (done ++ [(so, ms)]) (fst (extend_graph_class causy_classes so ms bases)).
Proof.
  intros (N & I & G & D) S M. unfold extend_graph_class. set (new := so _).
  assert (Hin : forall x, In x new <-> In x bases \/ In x ms).
  { intros x. unfold new. split.
    - intros H. apply (Permutation_in x (S _)) in H. apply (proj1 (distinct_In _ _)) in H. apply in_app_iff in H. destruct H as [H|H]; [left; exact H|right].
      apply filter_In in H. apply H.
    - intros H. apply (Permutation_in x (Permutation_sym (S _))). apply distinct_In. apply in_app_iff. destruct H as [H|H]; [left; exact H|right].
      apply filter_In. split; [exact H|]. rewrite shipped_not_abstract; [reflexivity|apply M; exact H]. }
  assert (N' : NoDup new) by (unfold new; apply (Permutation_NoDup (Permutation_sym (S _))), distinct_NoDup).
  assert (I' : incl new universe).
  { intros x Hx. apply Hin in Hx. destruct Hx as [Hx|Hx]; [apply I; exact Hx|]. apply in_app_iff; right; apply M; exact Hx. }
  assert (L := shipped_linear new N' I'). unfold linear in L. destruct (linearize causy_classes "Graph" new) as [o|e]; [|discriminate].
  cbn [fst snd]. split; [reflexivity|]. split; [exact N'|]. split; [exact I'|]. split; [intros x Hx; apply Hin; left; apply G; exact Hx|].
  intros d Hd. rewrite Hin, (D d Hd). split.
  - intros [(c & Hc & Hdc)|H]; [exists c; split; [apply in_app_iff; left; exact Hc|exact Hdc]|exists (so, ms); split; [apply in_app_iff; right; left; reflexivity|exact H]].
  - intros (c & Hc & Hdc). apply in_app_iff in Hc. destruct Hc as [Hc|[<-|[]]]; [left; exists c; auto|right; exact Hdc].
Qed.
Lemma state_start : state_ok [] graph_bases.
Proof.
  split; [|split; [|split]].
  - unfold graph_bases. repeat constructor; cbn; intuition discriminate.
  - intros x Hx. apply in_app_iff; left; exact Hx.
  - apply incl_refl.
  - intros d Hd. split; [intros H; destruct (shipped_not_base d Hd H)|intros (c & [] & _)].
Qed.
Lemma state_calls l : Forall (fun c => lists_set (fst c) /\ incl (snd c) shipped_mixins) l -> forall done bases, state_ok done bases ->
  state_ok (done ++ l) (factory_calls causy_classes l bases).
Proof.
  induction 1 as [|[so ms] l [S M] F IH]; intros done bases K; [rewrite app_nil_r; exact K|]. cbn [factory_calls].
  destruct (state_step done bases so ms K S M) as [_ K1]. specialize (IH (done ++ [(so, ms)])%list _ K1). rewrite <- app_assoc in IH. exact IH.
Qed.

Lemma query_owner l bases d m : state_ok l bases -> In d universe -> In m (c_defs (causy_classes d)) ->
  graph_query causy_classes bases m = if mem d bases then Ok d else Err AttributeError.
Proof.
  intros (N & I & G & D) Hd Hm. destruct (query_cases causy_classes bases m (shipped_linear bases N I)) as (o & E & Q). rewrite Q.
  assert (Ho := linearize_In _ _ _ _ E).
  assert (HV : forall b, In b o -> In b ("Graph" :: "ABC" :: "object" :: universe)).
  { intros b Hb. apply Ho in Hb. destruct Hb as [->|Hb]; [left; reflexivity|right]. apply (above_universe bases b I Hb). }
  assert (Hd' : In d ("Graph" :: "ABC" :: "object" :: universe)) by (right; right; right; exact Hd).
  destruct (mem d bases) eqn:Mb.
  - apply lookup_found; [|apply Ho; right; left; apply mem_In; exact Mb|exact Hm].
    intros b Hb Hmb. apply (owners b d m (HV b Hb) Hd' Hmb Hm).
  - apply lookup_missing. intros b Hb Hmb. assert (b = d) as -> by (apply (owners b d m (HV b Hb) Hd' Hmb Hm)).
    apply mem_not_In in Mb. apply Mb. apply Ho in Hb. destruct Hb as [X|Hb]; [|apply (above_own bases d I Hd Hb)].
    exfalso. subst d. assert (K : mem "Graph" universe = false) by (vm_compute; reflexivity). apply mem_not_In in K. contradiction.
Qed.
