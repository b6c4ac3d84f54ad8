(* Proofs about the time series generator. *)
From Verif Require Import Base PyDict PyDictFacts Graph GraphFacts GraphInv GraphQ GraphSpec ActionSpec ActionFacts ActionMain Dag DagFacts PathSpec Construct ConstructSpec ConstructFacts SampleGen SampleSpec RuleFacts GraphCheck SampleFacts.
From Coq Require Ascii FinFun DecimalString DecimalNat DecimalFacts.
Open Scope list_scope.

Section Series.
Context {T : Type}.
Variable add mul : T -> T -> T.
Variable rnd : nat -> T.
Variable zero : T.
Variable init : string -> T.
Variable es : list (sedge T).
Variable vs : list string.
Hypothesis ND : NoDup vs.
Hypothesis MEN : forall x, mentioned es x -> In x vs.
Hypothesis PAST : forall e, In e es -> (se_time e < 0)%Z.

Definition keeps_cells (d d' : dict string (list T)) : Prop := forall k i x, cell_at d k i = Some x -> cell_at d' k i = Some x.
Lemma lagged_mono d d' t e x : keeps_cells d d' -> lagged init d t e x -> lagged init d' t e x.
Proof. unfold lagged. intros K. destruct (Nat.ltb _ _); [auto|apply K]. Qed.
Lemma lagged_all d d' t l xs : keeps_cells d d' -> Forall2 (lagged init d t) l xs -> Forall2 (lagged init d' t) l xs.
Proof. intros K F. induction F; constructor; [eapply lagged_mono; eassumption|assumption]. Qed.
Lemma autoregressive_mono d d' t k z : keeps_cells d d' -> autoregressive add mul zero init es d t k z -> autoregressive add mul zero init es d' t k z.
Proof.
  intros K (xs & F & C). exists xs. split; [|apply K; exact C]. clear C. induction F; constructor; [eapply lagged_mono; eassumption|assumption].
Qed.

(* state in the middle of time step t, when the variables in [p] have their new value *)
Record at_time (t : nat) (p : list string) (s : dict string (list T) * nat) : Prop := {
  ti_keys : dkeys (fst s) = vs;
  ti_len : forall k, In k vs -> List.length (col (fst s) k) = if mem k p then S t else t;
  ti_init : forall k, In k vs -> cell_at (fst s) k 0 = Some (init k);
  ti_cnt : snd s = (t - 1) * List.length vs + List.length p;
  ti_eq : forall u j k, 1 <= u -> u < t \/ (u = t /\ In k p) -> nth_error vs j = Some k ->
     autoregressive add mul zero init es (fst s) u k (rnd ((u - 1) * List.length vs + j)) }.

Lemma term_ok t p s e : 1 <= t -> at_time t p s -> In e es -> exists x, lagged init (fst s) t e x /\ lag_term mul init (fst s) t e = Ok (mul (se_value e) x).
Proof.
  intros Ht A He. assert (Pe := PAST e He). unfold lagged, lag_term. destruct (Nat.ltb_spec t (Z.abs_nat (se_time e))) as [L|L].
  - exists (init (se_from e)). split; [reflexivity|]. replace (Z.ltb (Z.of_nat t) (Z.abs (se_time e))) with true by (symmetry; apply Z.ltb_lt; lia). reflexivity.
  - replace (Z.ltb (Z.of_nat t) (Z.abs (se_time e))) with false by (symmetry; apply Z.ltb_ge; lia).
    assert (Hf : In (se_from e) vs) by (apply MEN; exists (se_to e); left; exists e; auto).
    assert (M : dmem (fst s) (se_from e) = true) by (apply dmem_In; rewrite (ti_keys _ _ _ A); exact Hf). apply dmem_get in M. destruct M as [c Hc].
    assert (Lc := ti_len _ _ _ A _ Hf). unfold col in Lc. rewrite Hc in Lc. assert (Lt : t <= List.length c) by (destruct (mem (se_from e) p); lia).
    destruct (nth_error c (t - Z.abs_nat (se_time e))) as [x|] eqn:E; [|apply nth_error_None in E; lia].
    exists x. split; [unfold cell_at; rewrite Hc; exact E|]. rewrite Hc. unfold py_index.
    replace (Z.ltb (Z.of_nat t + se_time e) 0) with false by (symmetry; apply Z.ltb_ge; lia).
    replace (Z.ltb (Z.of_nat t + se_time e) 0) with false by (symmetry; apply Z.ltb_ge; lia).
    replace (Z.to_nat (Z.of_nat t + se_time e)) with (t - Z.abs_nat (se_time e)) by lia. rewrite E. reflexivity.
Qed.
Lemma terms_ok t p s : 1 <= t -> at_time t p s -> forall l acc, (forall e, In e l -> In e es) ->
  exists xs, Forall2 (lagged init (fst s) t) l xs /\
    rfold (fun acc e => rbind (lag_term mul init (fst s) t e) (fun x => Ok (add acc x))) l acc = Ok (linear add mul acc (combine (map se_value l) xs)).
Proof.
  intros Ht A. induction l as [|e l IH]; intros acc H.
  - exists []. split; [constructor|reflexivity].
  - destruct (term_ok t p s e Ht A (H e (or_introl eq_refl))) as (x & F & R). destruct (IH (add acc (mul (se_value e) x))) as (xs & Fs & Rs).
    { intros e' He'; apply H; right; exact He'. }
    exists (x :: xs). split; [constructor; assumption|]. cbn [rfold]. rewrite R. cbn [rbind]. rewrite Rs. reflexivity.
Qed.
Lemma cell_append (d : dict string (list T)) n c x k i : dget d n = Some c -> cell_at (dset d n (c ++ [x])) k i = if eqb k n && Nat.eqb i (List.length c) then Some x else cell_at d k i.
Proof.
  intros H. unfold cell_at. rewrite dget_dset. destruct (eqb_spec k n) as [->|N]; cbn [andb]; [|reflexivity]. rewrite H.
  destruct (Nat.eqb_spec i (List.length c)) as [->|Ni]; [rewrite nth_error_app2, Nat.sub_diag by lia; reflexivity|].
  destruct (Nat.lt_ge_cases i (List.length c)) as [L|L]; [apply nth_error_app1; exact L|].
  transitivity (@None T); [apply nth_error_None; rewrite app_length; cbn; lia|symmetry; apply nth_error_None; exact L].
Qed.

Lemma step_ok t p s n : 1 <= t -> at_time t p s -> nth_error vs (List.length p) = Some n -> ~ In n p ->
  exists s', series_step add mul rnd zero init es t s n = Ok s' /\ at_time t (p ++ [n]) s'.
Proof.
  intros Ht A Hn Np. assert (Hin : In n vs) by (eapply nth_error_In; exact Hn).
  destruct (terms_ok t p s Ht A (edges_to es n) zero) as (xs & F & R). { intros e He. apply edges_to_In in He. apply He. }
  assert (M : dmem (fst s) n = true) by (apply dmem_In; rewrite (ti_keys _ _ _ A); exact Hin). apply dmem_get in M. destruct M as [c Hc].
  unfold series_step. rewrite R. cbn [rbind]. rewrite Hc. eexists. split; [reflexivity|].
  set (v := add (linear add mul zero (combine (map se_value (edges_to es n)) xs)) (rnd (snd s))).
  assert (Lc : List.length c = t). { assert (L := ti_len _ _ _ A n Hin). unfold col in L. rewrite Hc in L. destruct (mem n p) eqn:M; [apply mem_In in M; contradiction|exact L]. }
  assert (KC : keeps_cells (fst s) (dset (fst s) n (c ++ [v]))).
  { intros k i x E. rewrite (cell_append _ _ _ _ _ _ Hc). destruct (eqb_spec k n) as [->|]; cbn [andb]; [|exact E].
    destruct (Nat.eqb_spec i (List.length c)) as [->|]; [|exact E]. exfalso. unfold cell_at in E. rewrite Hc in E. assert (nth_error c (List.length c) = None) by (apply nth_error_None; lia). congruence. }
  split; cbn [fst snd].
  - rewrite dkeys_dset_in; [apply (ti_keys _ _ _ A)|rewrite (ti_keys _ _ _ A); exact Hin].
  - intros k Hk. unfold col. rewrite dget_dset. assert (L := ti_len _ _ _ A k Hk). unfold col in L. unfold mem. rewrite existsb_app. fold (mem k p). cbn [existsb].
    destruct (eqb_spec k n) as [->|N]; [rewrite app_length, Lc, orb_true_r; cbn; lia|]. rewrite !orb_false_r. exact L.
  - intros k Hk. apply KC. apply (ti_init _ _ _ A). exact Hk.
  - rewrite (ti_cnt _ _ _ A), app_length. cbn. lia.
  - intros u j k Hu Hor Hj. destruct (string_dec k n) as [->|N].
    + assert (Ej : j = List.length p). { eapply (proj1 (NoDup_nth_error vs) ND); [apply nth_error_Some; congruence|congruence]. } subst j.
      destruct (Nat.eq_dec u t) as [->|Nu].
      * exists xs. split; [rewrite <- edges_to_incoming; exact (lagged_all _ _ _ _ _ KC F)|].
        rewrite (cell_append _ _ _ _ _ _ Hc), eqb_refl, Lc, Nat.eqb_refl. cbn [andb]. unfold v. rewrite edges_to_incoming, (ti_cnt _ _ _ A). reflexivity.
      * apply (autoregressive_mono _ _ _ _ _ KC). apply (ti_eq _ _ _ A u _ n Hu); [left; destruct Hor as [|[? _]]; [assumption|contradiction]|exact Hj].
    + apply (autoregressive_mono _ _ _ _ _ KC). apply (ti_eq _ _ _ A u j k Hu); [|exact Hj]. destruct Hor as [H|[-> H]]; [left; exact H|right].
      split; [reflexivity|]. apply in_app_or in H. destruct H as [H|[H|[]]]; [exact H|congruence].
Qed.
Lemma time_ok t : 1 <= t -> forall q p s, vs = p ++ q -> at_time t p s -> exists s', rfold (series_step add mul rnd zero init es t) q s = Ok s' /\ at_time t vs s'.
Proof.
  intros Ht. induction q as [|n q IH]; intros p s E A.
  - rewrite app_nil_r in E. subst p. exists s. split; [reflexivity|exact A].
  - destruct (step_ok t p s n Ht A) as (s1 & R1 & A1).
    { rewrite E, nth_error_app2, Nat.sub_diag by lia. reflexivity. }
    { intros H. rewrite E in ND. apply NoDup_remove_2 in ND. apply ND, in_or_app; left; exact H. }
    destruct (IH (p ++ [n]) s1) as (s' & R & A'); [rewrite E, <- app_assoc; reflexivity|exact A1|].
    exists s'. cbn [rfold]. rewrite R1. cbn [rbind]. auto.
Qed.
Lemma next_time t s : 1 <= t -> at_time t vs s -> at_time (S t) [] s.
Proof.
  intros Ht A. split; [apply (ti_keys _ _ _ A)| |apply (ti_init _ _ _ A)| |].
  - intros k Hk. rewrite (ti_len _ _ _ A k Hk). assert (M : mem k vs = true) by (apply mem_In; exact Hk). rewrite M. reflexivity.
  - rewrite (ti_cnt _ _ _ A). cbn. nia.
  - intros u j k Hu [H|[_ []]] Hj. apply (ti_eq _ _ _ A u j k Hu); [|exact Hj]. destruct (Nat.eq_dec u t); [right; split; [assumption|eapply nth_error_In; exact Hj]|left; lia].
Qed.
Lemma times_ok : forall n t s, 1 <= t -> at_time t [] s -> exists s', rfold (fun s t => rfold (series_step add mul rnd zero init es t) vs s) (seq t n) s = Ok s' /\ at_time (t + n) [] s'.
Proof.
  induction n as [|n IH]; intros t s Ht A.
  - exists s. rewrite Nat.add_0_r. split; [reflexivity|exact A].
  - destruct (time_ok t Ht vs [] s eq_refl A) as (s1 & R1 & A1). destruct (IH (S t) s1) as (s' & R & A'); [lia|apply next_time; assumption|].
    exists s'. cbn [seq rfold]. rewrite R1. cbn [rbind]. rewrite R. split; [reflexivity|]. replace (t + S n) with (S t + n) by lia. exact A'.
Qed.
Lemma init_series_get : forall l d k, dget (fold_left (fun d k => dset d k [init k]) l d) k = if mem k l then Some [init k] else dget d k.
Proof.
  induction l as [|a l IH]; intros d k; cbn [fold_left]; [reflexivity|]. rewrite IH, dget_dset. unfold mem. cbn [existsb]. destruct (existsb (eqb k) l) eqn:M; [rewrite orb_true_r; reflexivity|].
  rewrite orb_false_r. destruct (eqb_spec k a) as [->|]; reflexivity.
Qed.
Lemma init_series_keys : forall l d, NoDup (dkeys d ++ l) -> dkeys (fold_left (fun d k => dset d k [init k]) l d) = dkeys d ++ l.
Proof.
  induction l as [|a l IH]; intros d N; cbn [fold_left]; [rewrite app_nil_r; reflexivity|].
  assert (Na : ~ In a (dkeys d)). { intros H. apply NoDup_remove_2 in N. apply N, in_or_app; left; exact H. }
  rewrite IH; rewrite dkeys_dset_notin by exact Na; rewrite <- app_assoc; [reflexivity|exact N].
Qed.
Lemma series_ok size : 1 <= size -> exists d, generate_series add mul rnd zero init es vs size = Ok d /\ dkeys d = vs /\
  (forall k, In k vs -> exists c, dget d k = Some c /\ List.length c = size) /\ (forall k, In k vs -> cell_at d k 0 = Some (init k)) /\
  (forall t j k, 1 <= t < size -> nth_error vs j = Some k -> autoregressive add mul zero init es d t k (rnd ((t - 1) * List.length vs + j))).
Proof.
  intros Hs. set (d0 := fold_left (fun d k => dset d k [init k]) vs []).
  assert (A0 : at_time 1 [] (d0, 0)).
  { assert (G : forall k, In k vs -> dget d0 k = Some [init k]). { intros k Hk. unfold d0. rewrite init_series_get. apply mem_In in Hk. rewrite Hk. reflexivity. }
    split; cbn [fst snd].
    - unfold d0. rewrite init_series_keys; [reflexivity|exact ND].
    - intros k Hk. unfold col. rewrite (G k Hk). reflexivity.
    - intros k Hk. unfold cell_at. rewrite (G k Hk). reflexivity.
    - reflexivity.
    - intros u j k Hu [H|[_ []]]. lia. }
  destruct (times_ok (size - 1) 1 (d0, 0) (le_n 1) A0) as ([d c] & R & A). replace (1 + (size - 1)) with size in A by lia.
  exists d. unfold generate_series. fold d0. rewrite R. cbn [rbind fst]. split; [reflexivity|]. split; [apply (ti_keys _ _ _ A)|]. split; [|split].
  - intros k Hk. assert (M : dmem d k = true) by (apply dmem_In; rewrite (ti_keys _ _ _ A : dkeys d = vs); exact Hk). apply dmem_get in M. destruct M as [x Hx].
    exists x. split; [exact Hx|]. assert (L := ti_len _ _ _ A k Hk). cbn [fst mem existsb] in L. unfold col in L. rewrite Hx in L. exact L.
  - apply (ti_init _ _ _ A).
  - intros t j k [H1 H2] Hj. apply (ti_eq _ _ _ A t j k H1); [left; exact H2|exact Hj].
Qed.
End Series.

(* the ids of the time nodes are distinct *)
Fixpoint has (c : Ascii.ascii) (s : string) : bool := match s with EmptyString => false | String a r => Ascii.eqb a c || has c r end.
Lemma last_sep c : forall a b p q, (a ++ String c p)%string = (b ++ String c q)%string -> has c p = false -> has c q = false -> a = b /\ p = q.
Proof.
  assert (HA : forall x y, has c (x ++ String c y)%string = true).
  { induction x as [|z x IH]; intros y; cbn; [rewrite Ascii.eqb_refl; reflexivity|]. rewrite IH. apply orb_true_r. }
  induction a as [|x a IH]; intros [|y b] p q E Hp Hq; cbn in E; injection E; [auto|..].
  - intros E2 _. rewrite E2 in Hp. rewrite HA in Hp. discriminate.
  - intros E2 _. rewrite <- E2 in Hq. rewrite HA in Hq. discriminate.
  - intros E2 ->. destruct (IH b p q E2 Hp Hq) as [-> ->]. auto.
Qed.
Lemma uint_no_dash u : has (Ascii.ascii_of_nat 45) (DecimalString.NilEmpty.string_of_uint u) = false.
Proof. induction u; cbn; auto. Qed.
Lemma dec_inj t u : dec t = dec u -> t = u.
Proof.
  unfold dec. intros E. assert (E2 := f_equal DecimalString.NilEmpty.uint_of_string E). rewrite !DecimalString.NilEmpty.usu in E2. injection E2. apply DecimalNat.Unsigned.to_uint_inj.
Qed.
Lemma time_id_inj i t j u : time_id i t = time_id j u -> i = j /\ t = u.
Proof.
  unfold time_id. cbn [append]. intros E. apply last_sep in E; [|cbn; apply uint_no_dash..]. destruct E as [-> E]. split; [reflexivity|]. injection E. apply dec_inj.
Qed.

Definition tnode (d : dict string (list Z)) (p : string * nat) : id * node :=
  (time_id (fst p) (snd p), mkNode (time_name (fst p) (snd p)) (match cell_at d (fst p) (snd p) with Some x => [x] | None => [] end)).
Lemma add_time_nodes_put d : forall l g, (forall i t, In (i, t) l -> exists x, cell_at d i t = Some x) -> add_time_nodes d l g = put_nodes (map (tnode d) l) g.
Proof.
  induction l as [|[i t] l IH]; intros g H; cbn [add_time_nodes map put_nodes tnode]; [reflexivity|]. destruct (H i t (or_introl eq_refl)) as [x Hx]. cbn [fst snd n_name n_values]. rewrite Hx.
  unfold cell_at in Hx. destruct (dget d i) as [c|] eqn:E; [|discriminate]. rewrite Hx. unfold bind.
  destruct (add_node _ _ _ g) as [g1 [[]|e]]; [|reflexivity]. apply IH. intros i' t' H'. apply H. right; exact H'.
Qed.
Lemma time_nodes_In vs size i t : In (i, t) (time_nodes vs size) <-> In i vs /\ t < size.
Proof.
  unfold time_nodes. rewrite in_flat_map. split.
  - intros (j & Hj & H). apply in_map_iff in H. destruct H as (u & E & Hu). injection E as -> ->. apply in_seq in Hu. split; [exact Hj|lia].
  - intros [Hi Ht]. exists i. split; [exact Hi|]. apply in_map_iff. exists t. split; [reflexivity|apply in_seq; lia].
Qed.
Lemma time_nodes_NoDup vs size : NoDup vs -> NoDup (time_nodes vs size).
Proof.
  induction 1 as [|i vs Ni ND IH]; [constructor|]. cbn [time_nodes flat_map]. apply NoDup_app_intro; [apply FinFun.Injective_map_NoDup; [intros a b E; injection E; auto|apply seq_NoDup]|exact IH|].
  intros [j t] H1 H2. apply in_map_iff in H1. destruct H1 as (u & E & _). injection E as <- <-. apply Ni. apply (proj1 (time_nodes_In vs size i u)) in H2. apply H2.
Qed.
Lemma time_arrows_In es size (a b : id) : (forall e, In e es -> (se_time e < 0)%Z) ->
  (In (a, b) (time_arrows es size) <-> exists e t, In e es /\ t < size /\ Z.abs_nat (se_time e) <= t /\
      a = time_id (se_from e) (t - Z.abs_nat (se_time e)) /\ b = time_id (se_to e) t).
Proof.
  intros P. unfold time_arrows. rewrite in_flat_map. split.
  - intros (t & Ht & H). apply in_flat_map in H. destruct H as (e & He & H). apply in_seq in Ht. destruct (Z.ltb_spec (Z.of_nat t - Z.abs (se_time e)) 0) as [L|L]; [destruct H|].
    destruct H as [H|[]]. injection H as <- <-. exists e, t. repeat split; auto; lia.
  - intros (e & t & He & Ht & Hl & -> & ->). specialize (P e He). exists t. split; [apply in_seq; lia|]. apply in_flat_map. exists e. split; [exact He|].
    destruct (Z.ltb_spec (Z.of_nat t - Z.abs (se_time e)) 0) as [L|L]; [lia|]. left; reflexivity.
Qed.
Lemma map_fst_tnode d l : map fst (map (tnode d) l) = map (fun p => time_id (fst p) (snd p)) l.
Proof. rewrite map_map. reflexivity. Qed.

Lemma series_generate_ok add mul rnd zero init es vs size : NoDup vs -> (forall x, mentioned es x -> In x vs) -> (forall e, In e es -> (se_time e < 0)%Z) -> 1 <= size ->
  exists d g, generate_series add mul rnd zero init es vs size = Ok d /\ series_generate add mul rnd zero init es vs size = Ok (d, g) /\ reached g /\
    (forall k, dmem (nodes g) k = true <-> exists i t, In i vs /\ t < size /\ k = time_id i t) /\
    (forall i t, In i vs -> t < size -> exists x, cell_at d i t = Some x /\ dget (nodes g) (time_id i t) = Some (mkNode (time_name i t) [x])) /\
    (forall a b, arrow g a b <-> exists e t, In e es /\ t < size /\ Z.abs_nat (se_time e) <= t /\ a = time_id (se_from e) (t - Z.abs_nat (se_time e)) /\ b = time_id (se_to e) t) /\
    acyclic (arrow g).
Proof.
  intros ND M P Hs. destruct (series_ok add mul rnd zero init es vs ND M P size Hs) as (d & R & K & L & _ & _).
  assert (C : forall i t, In (i, t) (time_nodes vs size) -> exists x, cell_at d i t = Some x).
  { intros i t H. apply time_nodes_In in H. destruct H as [Hi Ht]. destruct (L i Hi) as (c & Hc & Lc). unfold cell_at. rewrite Hc. destruct (nth_error c t) as [x|] eqn:E; [eauto|apply nth_error_None in E; lia]. }
  set (ns := map (tnode d) (time_nodes vs size)).
  assert (IDI : forall p q : string * nat, time_id (fst p) (snd p) = time_id (fst q) (snd q) -> p = q).
  { intros [i t] [j u] E. apply time_id_inj in E. destruct E; cbn [fst snd] in *; congruence. }
  assert (NDs : NoDup (map fst ns)). { unfold ns. rewrite map_fst_tnode. apply FinFun.Injective_map_NoDup; [exact IDI|apply time_nodes_NoDup; exact ND]. }
  assert (INn : forall k, In k (map fst ns) <-> exists i t, In i vs /\ t < size /\ k = time_id i t).
  { intros k. unfold ns. rewrite map_fst_tnode, in_map_iff. split.
    - intros ([i t] & E & H). apply time_nodes_In in H. exists i, t. cbn [fst snd] in E. destruct H. repeat split; auto.
    - intros (i & t & Hi & Ht & ->). exists (i, t). split; [reflexivity|apply time_nodes_In; auto]. }
  destruct (sample_graph_ok ns (time_arrows es size) NDs) as (g & RG & Rg & Ng & Eg & Ag).
  { intros u v H. apply (time_arrows_In es size u v P) in H. destruct H as (e & t & He & Ht & Hl & -> & ->). assert (Pe := P e He).
    split; [apply INn; exists (se_from e), (t - Z.abs_nat (se_time e)); repeat split; [apply M; exists (se_to e); left; exists e; auto|lia]|].
    split; [apply INn; exists (se_to e), t; repeat split; [apply M; exists (se_from e); right; exists e; auto|lia]|].
    intros E. apply time_id_inj in E. destruct E. lia. }
  exists d, g. split; [exact R|]. split.
  { unfold series_generate. rewrite R. cbn [rbind]. unfold bind in *. rewrite (add_time_nodes_put d _ _ C). fold ns. rewrite RG. reflexivity. }
  split; [exact Rg|]. split; [intros k; rewrite dmem_In, Ng; unfold dkeys; apply INn|]. split.
  { intros i t Hi Ht. destruct (C i t) as [x Hx]; [apply time_nodes_In; auto|]. exists x. split; [exact Hx|]. rewrite Ng. apply NoDup_dget; [exact NDs|]. unfold ns. apply in_map_iff. exists (i, t).
    split; [unfold tnode; cbn [fst snd]; rewrite Hx; reflexivity|apply time_nodes_In; auto]. }
  assert (AG : forall a b, arrow g a b <-> exists e t, In e es /\ t < size /\ Z.abs_nat (se_time e) <= t /\ a = time_id (se_from e) (t - Z.abs_nat (se_time e)) /\ b = time_id (se_to e) t).
  { intros a b. rewrite Ag. apply time_arrows_In. exact P. }
  split; [exact AG|].
  (* time strictly increases along arrows *)
  assert (INC : forall b c, reach (arrow g) b c -> forall j u, b = time_id j u -> exists k w, c = time_id k w /\ u <= w).
  { intros b c H. induction H as [b|b x c H H2 IH]; intros j u E.
    - exists j, u. split; [exact E|lia].
    - apply AG in H. destruct H as (e & t & He & Ht & Hl & E1 & E2). assert (Pe := P e He). rewrite E in E1. apply time_id_inj in E1. destruct E1 as [_ E1].
      destruct (IH _ _ E2) as (k & w & E3 & Lw). exists k, w. split; [exact E3|lia]. }
  intros a (b & H & Hr). apply AG in H. destruct H as (e & t & He & Ht & Hl & E1 & E2). assert (Pe := P e He). destruct (INC _ _ Hr _ _ E2) as (k & w & E3 & Lw).
  rewrite E1 in E3. apply time_id_inj in E3. lia.
Qed.
