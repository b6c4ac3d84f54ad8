(* Least squares on the causes of a variable finds the weights of the structural equation. *)
From Coq Require Import Reals List Lia Lra.
From Verif Require Import Base PyDict Graph SampleGen SampleSpec Dag DagFacts IndepTests SkelSpec Numeric NumericSpec NumericFacts NumericFacts2 LinearSpec UnitsFacts LinearFacts LinearFacts2 LinearEffectSpec.
Import ListNotations.
Open Scope R_scope.

Lemma orthogonal_least n v cols ds (e : nat -> R) : List.length ds = List.length cols -> (forall t, (t < n)%nat -> at_ v t = lin ds cols t + e t) ->
  (forall j, (j < List.length cols)%nat -> sumn n (fun t => e t * at_ (nth j cols []) t) = 0) -> least_squares n v cols ds.
Proof.
  intros L Eq Orth. split; [exact L|]. intros cs Lc. set (d := vec (List.length cols) (fun i => nth i ds 0 - nth i cs 0)).
  assert (Dl : forall t, lin d cols t = lin ds cols t - lin cs cols t).
  { intros t. unfold lin. rewrite <- sumn_minus. apply sumn_ext. intros j Hj. fold (at_ d j). unfold d. rewrite vec_at by exact Hj. ring. }
  assert (O : ip n (lin d cols) e = 0).
  { unfold lin. rewrite (ip_comb n (List.length cols) (fun j => nth j d 0) (fun j => at_ (nth j cols []))). rewrite (sumn_ext _ _ (fun _ => 0)); [apply sumn_zero|]. intros j Hj. rewrite ip_sym. unfold ip. rewrite Orth by exact Hj. ring. }
  assert (A : misfit n v cols ds = ip n e e) by (unfold misfit, ip; apply sumn_ext; intros t Ht; rewrite Eq by exact Ht; ring).
  assert (B : misfit n v cols cs = ip n e e + 2 * ip n (lin d cols) e + ip n (lin d cols) (lin d cols)).
  { unfold misfit, ip. rewrite <- sumn_scale, <- !sumn_plus. apply sumn_ext. intros t Ht. rewrite Dl, Eq by exact Ht. ring. }
  rewrite A, B, O. assert (P := ip_nonneg n (lin d cols)). lra.
Qed.

Lemma weight_cons e es p v : weight (e :: es) p v = (if string_dec (se_from e) p then if string_dec (se_to e) v then se_value e else 0 else 0) + weight es p v.
Proof. unfold weight. cbn [filter]. destruct (string_dec (se_from e) p); [destruct (string_dec (se_to e) v)|]; cbn [map vsum]; ring. Qed.
Lemma incoming_sum (g : id -> R) v ps es : NoDup ps -> (forall e, In e es -> se_to e = v -> In (se_from e) ps) ->
  lsum (fun e => se_value e * g (se_from e)) (incoming es v) = lsum (fun p : id => weight es p v * g p) ps.
Proof.
  intros ND. induction es as [|e es IH]; intros H.
  - rewrite (lsum_ext (fun p : id => weight [] p v * g p) (fun _ => 0)) by (intros; unfold weight; cbn; ring). rewrite lsum_zero. reflexivity.
  - rewrite (lsum_ext (fun p : id => weight (e :: es) p v * g p) (fun p : id => (if string_dec (se_from e) p then if string_dec (se_to e) v then se_value e else 0 else 0) * g p + weight es p v * g p)) by (intros; rewrite weight_cons; ring).
    rewrite (vsum_map_plus (fun p : id => (if string_dec (se_from e) p then if string_dec (se_to e) v then se_value e else 0 else 0) * g p) (fun p : id => weight es p v * g p)). rewrite <- IH by (intros e' I; apply H; right; exact I).
    unfold incoming. cbn [filter]. destruct (string_dec (se_to e) v) as [Ev|Nv].
    + cbn [map vsum]. f_equal. rewrite (lsum_single (fun p : id => (if string_dec (se_from e) p then se_value e else 0) * g p) ps (se_from e) ND (H e (or_introl eq_refl) Ev)).
      * destruct (string_dec (se_from e) (se_from e)); [reflexivity|contradiction].
      * intros w _ Nw. destruct (string_dec (se_from e) w); [congruence|ring].
    + rewrite (lsum_ext (fun p : id => (if string_dec (se_from e) p then 0 else 0) * g p) (fun _ => 0)) by (intros w _; destruct (string_dec (se_from e) w); ring). rewrite lsum_zero. ring.
Qed.

Section Effects.
Variables (n : nat) (ns : list id) (es : list (sedge R)) (col : id -> list R).
Hypothesis Hn : (0 < n)%nat.
Hypothesis ND : NoDup ns.
Hypothesis LD : linear_data n ns es col.
Hypothesis Va : forall v, In v ns -> varies n (noise es col v).
Notation D := (arrows es).
Let DO := ld_dag _ _ _ _ LD.
Let Len := ld_length _ _ _ _ LD.
Lemma plain v t : In v ns -> centered (col v) -> (t < n)%nat -> at_ (center (col v)) t = at_ (col v) t.
Proof. intros I Ce Ht. rewrite center_at by (rewrite Len by exact I; exact Ht). unfold mean. rewrite Ce. unfold Rdiv. ring. Qed.
Lemma nth_cols (l : list id) j : (j < List.length l)%nat -> nth j (map col l) [] = col (nth j l ""%string).
Proof. intros H. rewrite (nth_indep _ [] (col ""%string)) by (rewrite map_length; exact H). apply map_nth. Qed.
Lemma columns_ok l : NoDup l -> (forall v, In v l -> In v ns) -> (forall v, In v l -> centered (col v)) -> observations n (map col l) /\ independent_columns n (map col l).
Proof.
  intros NDl Il Ce. split; [intros v I; apply in_map_iff in I; destruct I as (s & <- & I); apply Len, Il, I|].
  intros cs _ H j Hj. rewrite map_length in Hj. apply (columns_independent n ns es col Hn ND LD Va l NDl Il (fun k => nth k cs 0)); [|exact Hj].
  intros t Ht. refine (eq_trans _ (H t Ht)). unfold lin. rewrite map_length. apply sumn_ext. intros k Hk. rewrite nth_cols by exact Hk. rewrite plain; [reflexivity|apply Il, nth_In, Hk|apply Ce, nth_In, Hk|exact Ht].
Qed.
Section Node.
Variable v : id.
Variable ps : list id.
Hypothesis Iv : In v ns.
Hypothesis NDp : NoDup ps.
Hypothesis Hps : forall p, In p ps <-> edge_in D p v.
Hypothesis Ce : forall p, In p ps -> centered (col p).
Lemma ps_in p : In p ps -> In p ns.
Proof. intros I. apply Hps in I. apply (do_nodes _ _ DO _ _ I). Qed.
Lemma noise_parent p : In p ps -> ip n (fun t => left_over es (fun w => at_ (center (col w)) t) v) (at_ (center (col p))) = 0.
Proof.
  intros Ip. set (X := fun w t => at_ (center (col w)) t). set (N := fun w t => left_over es (fun u => X u t) w).
  destruct (expand_one ns es ND DO p (ps_in p Ip)) as (m & A & B).
  rewrite (ip_ext n _ (N v) _ (fun t => lsum (fun w => m w * N w t) ns)); [|reflexivity|].
  - rewrite ip_sym, (ip_lsum n m (fun w => N w)). rewrite (lsum_single (fun w => m w * ip n (N w) (N v)) ns v ND Iv).
    + destruct (Req_EM_T (m v) 0) as [Z|Z]; [rewrite Z; ring|]. exfalso. destruct (A v Z) as (q & [<-|[]] & Rq). cbn [snd] in Rq.
      apply (do_acyclic _ _ DO p). exists v. split; [apply Hps; exact Ip|exact Rq].
    + intros w Iw Nw. unfold N, X. rewrite (noise_orthogonal n ns es col Hn LD w v Iw Iv Nw). ring.
  - intros t Ht. specialize (B (fun w => X w t)). cbn in B. unfold N. rewrite <- B. unfold X. ring.
Qed.
Lemma weights_fit : least_squares n (col v) (map col ps) (map (fun p => weight es p v) ps).
Proof.
  assert (Ls : forall e, In e es -> se_to e = v -> In (se_from e) ps). { intros e He Et. apply Hps. unfold edge_in, arrows. apply in_map_iff. exists e. rewrite Et. split; [reflexivity|exact He]. }
  apply (orthogonal_least n _ _ _ (noise es col v)); [rewrite !map_length; reflexivity| |].
  - intros t Ht. unfold noise. rewrite (incoming_sum (fun w => at_ (col w) t) v ps es NDp Ls). unfold lin. rewrite map_length, sumn_lseq.
    assert (Q : lsum (fun p => weight es p v * at_ (col p) t) ps = lsum (fun k => nth k (map (fun p => weight es p v) ps) 0 * at_ (nth k (map col ps) []) t) (seq 0 (List.length ps))); [|rewrite Q; ring].
    rewrite <- sumn_lseq. assert (P : map (fun p => weight es p v * at_ (col p) t) ps = map (fun k => weight es (nth k ps ""%string) v * at_ (col (nth k ps ""%string)) t) (seq 0 (List.length ps))).
    { clear. induction ps as [|p l IH]; [reflexivity|]. cbn [map List.length seq nth]. rewrite <- seq_shift, map_map. f_equal. exact IH. }
    rewrite P. rewrite <- (sumn_lseq (List.length ps) (fun k => weight es (nth k ps ""%string) v * at_ (col (nth k ps ""%string)) t)). apply sumn_ext. intros k Hk. rewrite nth_cols by exact Hk.
    f_equal. rewrite (nth_indep _ 0 ((fun p => weight es p v) ""%string)) by (rewrite map_length; exact Hk). symmetry. apply (map_nth (fun p => weight es p v)).
  - intros j Hj. rewrite map_length in Hj. rewrite nth_cols by exact Hj. assert (I := nth_In ps ""%string Hj). set (p := nth j ps ""%string) in *. assert (Q := noise_parent p I). unfold ip in Q.
    rewrite (sumn_ext n _ (fun t => noise es col v t * at_ (col p) t - level es col v * at_ (col p) t)) in Q.
    + rewrite sumn_minus, sumn_scale in Q. change (fun k => at_ (col p) k) with (at_ (col p)) in Q. rewrite (mean_eq (col p) n (Len p (ps_in p I)) Hn) in Q. unfold mean in Q. rewrite (Ce p I) in Q. unfold Rdiv in Q. lra.
    + intros t Ht. rewrite (centered_noise n ns es col LD v t Iv Ht), (plain p t (ps_in p I) (Ce p I) Ht). ring.
Qed.
Lemma weights_only cs : least_squares n (col v) (map col ps) cs -> cs = map (fun p => weight es p v) ps.
Proof.
  intros LS. destruct (columns_ok ps NDp ps_in Ce) as [Ob Ind]. assert (W := weights_fit). set (ds := map (fun p => weight es p v) ps) in *.
  assert (NE := normal_equations n (col v) (map col ps) ds Ob W).
  assert (L : List.length cs = List.length ds) by (rewrite (proj1 LS), (proj1 W); reflexivity).
  apply (nth_ext _ _ 0 0 L). intros j Hj. rewrite (proj1 LS) in Hj.
  apply (recovery n (col v) (map col ps) cs ds (fun t => at_ (col v) t - lin ds (map col ps) t) Ob Ind (proj1 W) ltac:(intros; lra) NE LS j Hj).
Qed.
End Node.
End Effects.
