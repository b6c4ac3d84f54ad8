(* Least squares when columns are recorded in other units and observations are moved or repeated. *)
From Coq Require Import Reals List Lia Lra Permutation.
From Verif Require Import Base PyDict PyDictFacts Graph GraphSpec GraphFacts GraphInv GraphQ GraphCheck Actions IndepTests Pipeline Parallel PipeSpec PipeFacts PipeMain PipeMain2 PathSpec ActionMain ActionFacts OrientSpec OrientTop Construct ConstructFacts EffectSpec EffectFacts
  Numeric NumericSpec NumericFacts NumericFacts2 UnitsFacts LinearSpec LinearFacts LinearEffectSpec LinearEffectFacts PropsAgain EffectUnitsSpec.
Import ListNotations.
Open Scope R_scope.

(* ---- combinations of the columns of ws, the coefficient of w being c w ---- *)
Definition fit (col : id -> list R) (c : id -> R) (ws : list id) (t : nat) : R := vsum (map (fun w : id => c w * at_ (col w) t) ws).
Lemma lin_map (col : id -> list R) (c : id -> R) ws t : lin (map c ws) (map col ws) t = fit col c ws t.
Proof.
  unfold lin, fit. rewrite vsum_sumn, !map_length. apply sumn_ext. intros j Hj. unfold at_ at 2.
  rewrite (nth_indep (map (fun w : id => c w * at_ (col w) t) ws) 0 ((fun w : id => c w * at_ (col w) t) ""%string)) by (rewrite map_length; exact Hj). rewrite (map_nth (fun w : id => c w * at_ (col w) t) ws ""%string j).
  rewrite (nth_indep (map c ws) 0 (c ""%string)) by (rewrite map_length; exact Hj). rewrite (nth_indep (map col ws) [] (col ""%string)) by (rewrite map_length; exact Hj). rewrite !map_nth. reflexivity.
Qed.
Lemma fit_perm col c ws ws' t : Permutation ws ws' -> fit col c ws t = fit col c ws' t.
Proof. intros P. apply vsum_perm. apply Permutation_map. exact P. Qed.
Lemma fit_ext col c d ws t : (forall w, In w ws -> c w = d w) -> fit col c ws t = fit col d ws t.
Proof. intros H. unfold fit. f_equal. apply map_ext_in. intros w I. rewrite H by exact I. reflexivity. Qed.
Lemma fit_minus col c d ws t : fit col (fun w => c w - d w) ws t = fit col c ws t - fit col d ws t.
Proof. unfold fit. induction ws as [|w ws IH]; cbn [map vsum]; [ring|]. rewrite IH. ring. Qed.
Lemma fit_scale col c k ws t : fit col (fun w => k * c w) ws t = k * fit col c ws t.
Proof. unfold fit. induction ws as [|w ws IH]; cbn [map vsum]; [ring|]. rewrite IH. ring. Qed.
Lemma fit_ip n col c ws f : (forall w, In w ws -> ip n f (at_ (col w)) = 0) -> ip n f (fit col c ws) = 0.
Proof.
  intros H. induction ws as [|w ws IH].
  - unfold ip, fit. cbn [map vsum]. rewrite (sumn_ext n _ (fun _ => 0)); [apply sumn_zero|intros; ring].
  - rewrite ip_sym. rewrite (ip_ext n _ (fun t => c w * at_ (col w) t + fit col c ws t) f f) by (reflexivity || (intros; reflexivity)).
    rewrite ip_plus, ip_scale, (ip_sym n (at_ (col w))), (ip_sym n (fit col c ws)), H, IH; [ring|intros x I; apply H; right; exact I|left; reflexivity].
Qed.
(* coefficients of columns with different names are a function of the names *)
Lemma by_name ws : NoDup ws -> forall cs, List.length cs = List.length ws -> exists c : id -> R, cs = map c ws.
Proof.
  induction ws as [|w ws IH]; intros ND [|x cs] L; try discriminate L; [exists (fun _ => 0); reflexivity|]. inversion ND as [|? ? A B]; subst. destruct (IH B cs ltac:(cbn in L; lia)) as [c ->].
  exists (fun y => if string_dec y w then x else c y). cbn [map]. destruct (string_dec w w); [|contradiction]. f_equal. apply map_ext_in. intros y I. destruct (string_dec y w); [subst; contradiction|reflexivity].
Qed.

(* ---- there always are best coefficients ---- *)
Lemma project n (col : id -> list R) ws : NoDup ws -> forall v : nat -> R, exists c, forall w, In w ws -> ip n (fun t => v t - fit col c ws t) (at_ (col w)) = 0.
Proof.
  induction ws as [|w ws IH]; intros ND v; [exists (fun _ => 0); intros w []|]. inversion ND as [|? ? A B]; subst. destruct (IH B v) as [c1 H1]. destruct (IH B (at_ (col w))) as [c2 H2].
  set (rv := fun t => v t - fit col c1 ws t) in *. set (rw := fun t => at_ (col w) t - fit col c2 ws t) in *.
  set (l := if Req_EM_T (ip n rw rw) 0 then 0 else ip n rv rw / ip n rw rw).
  exists (fun x => if string_dec x w then l else c1 x - l * c2 x).
  assert (E : forall t, v t - fit col (fun x => if string_dec x w then l else c1 x - l * c2 x) (w :: ws) t = rv t - l * rw t).
  { intros t. unfold fit at 1. cbn [map vsum]. destruct (string_dec w w); [|contradiction].
    fold (fit col (fun x => if string_dec x w then l else c1 x - l * c2 x) ws t). rewrite (fit_ext col (fun x => if string_dec x w then l else c1 x - l * c2 x) (fun x => c1 x - l * c2 x)) by (intros x I; destruct (string_dec x w); [subst; contradiction|reflexivity]).
    rewrite (fit_minus col c1 (fun x => l * c2 x)), fit_scale. unfold rv, rw. ring. }
  assert (O : forall x, In x ws -> ip n (fun t => rv t - l * rw t) (at_ (col x)) = 0) by (intros x I; rewrite (ip_minus n rv (fun t => l * rw t)), ip_scale, H1, H2 by exact I; ring).
  assert (Ow : ip n (fun t => rv t - l * rw t) rw = 0).
  { rewrite (ip_minus n rv (fun t => l * rw t)), ip_scale. unfold l. destruct (Req_EM_T (ip n rw rw) 0) as [Z|Z]; [|field; exact Z]. rewrite (ip_sym n rv), (ip_zero_l n rw rv Z). ring. }
  intros x [<-|I]; rewrite (ip_ext n _ (fun t => rv t - l * rw t) _ (at_ (col _))) by (first [intros t _; apply E | intros; reflexivity]); [|apply O; exact I].
  rewrite (ip_ext n _ (fun t => rv t - l * rw t) (at_ (col w)) (fun t => rw t + fit col c2 ws t)) by (first [intros; reflexivity | intros t _; unfold rw; ring]).
  rewrite ip_sym, ip_plus, (ip_sym n rw), Ow, (ip_sym n (fit col c2 ws)), (fit_ip n col c2 ws) by exact O. ring.
Qed.
Lemma best n (col : id -> list R) ws v : NoDup ws -> exists c, least_squares n v (map col ws) (map c ws).
Proof.
  intros ND. destruct (project n col ws ND (at_ v)) as [c H]. exists c. apply (orthogonal_least n v (map col ws) (map c ws) (fun t => at_ v t - fit col c ws t)); [rewrite !map_length; reflexivity|intros t _; rewrite lin_map; ring|].
  intros j Hj. rewrite map_length in Hj. rewrite (nth_indep (map col ws) [] (col ""%string)) by (rewrite map_length; exact Hj). rewrite map_nth. apply (H (nth j ws ""%string)). apply nth_In. exact Hj.
Qed.
Definition gap (n : nat) (v : list R) (col : id -> list R) (c : id -> R) (ws : list id) : R := sumn n (fun t => (at_ v t - fit col c ws t) * (at_ v t - fit col c ws t)).
Lemma least_named n v (col : id -> list R) ws (c : id -> R) : NoDup ws -> (least_squares n v (map col ws) (map c ws) <-> forall d, gap n v col c ws <= gap n v col d ws).
Proof.
  intros ND. assert (M : forall d, misfit n v (map col ws) (map d ws) = gap n v col d ws) by (intros d; unfold misfit, gap; apply sumn_ext; intros t _; rewrite lin_map; reflexivity). split.
  - intros [_ H] d. rewrite <- !M. apply H. rewrite !map_length. reflexivity.
  - intros H. split; [rewrite !map_length; reflexivity|]. intros ds L. rewrite map_length in L. destruct (by_name ws ND ds L) as [d ->]. rewrite !M. apply H.
Qed.
Lemma independent_named n (col : id -> list R) ws : NoDup ws -> (independent_columns n (map col ws) <-> forall d, (forall t, (t < n)%nat -> fit col d ws t = 0) -> forall w, In w ws -> d w = 0).
Proof.
  intros ND. split.
  - intros H d Z w I. assert (X : forall j, (j < List.length (map col ws))%nat -> nth j (map d ws) 0 = 0) by (apply H; [rewrite !map_length; reflexivity|intros t Ht; rewrite lin_map; apply Z; exact Ht]).
    destruct (In_nth ws w ""%string I) as (j & Hj & <-). rewrite map_length in X. specialize (X j Hj). rewrite (nth_indep (map d ws) 0 (d ""%string)) in X by (rewrite map_length; exact Hj). rewrite map_nth in X. exact X.
  - intros H cs L Z j Hj. rewrite map_length in L, Hj. destruct (by_name ws ND cs L) as [d ->]. rewrite (nth_indep (map d ws) 0 (d ""%string)) by (rewrite map_length; exact Hj). rewrite map_nth. apply H; [|apply nth_In; exact Hj]. intros t Ht. rewrite <- lin_map. apply Z. exact Ht.
Qed.
Lemma least_perm n v (col : id -> list R) ws ws' (c : id -> R) : NoDup ws -> Permutation ws ws' -> least_squares n v (map col ws) (map c ws) -> least_squares n v (map col ws') (map c ws').
Proof.
  intros ND P H. rewrite (least_named n v col ws' c) by (apply (Permutation_NoDup P); exact ND). rewrite (least_named n v col ws c ND) in H.
  assert (G : forall d, gap n v col d ws' = gap n v col d ws) by (intros d; apply sumn_ext; intros t _; rewrite (fit_perm col d ws ws' t P); reflexivity). intros d. rewrite !G. apply H.
Qed.
Lemma independent_perm n (col : id -> list R) ws ws' : NoDup ws -> Permutation ws ws' -> independent_columns n (map col ws) -> independent_columns n (map col ws').
Proof.
  intros ND P H. rewrite (independent_named n col ws') by (apply (Permutation_NoDup P); exact ND). rewrite (independent_named n col ws ND) in H. intros d Z w I. apply (H d); [intros t Ht; rewrite (fit_perm col d ws ws' t P); apply Z; exact Ht|].
  apply (Permutation_in _ (Permutation_sym P)). exact I.
Qed.

(* ---- other units, every observation k times ---- *)
Section Rescale.
Variables (n k : nat) (p : list nat) (col col' : id -> list R) (a : id -> R).
Hypothesis Hk : (1 <= k)%nat.
Hypothesis HP : Permutation p (List.concat (repeat (seq 0 n) k)).
Variable ns : list id.
Hypothesis Pos : forall w, In w ns -> 0 < a w.
Hypothesis Col : forall w, In w ns -> col' w = map (fun i => a w * at_ (col w) i) p.
Lemma vsum_app x y : vsum (x ++ y) = vsum x + vsum y.
Proof. induction x as [|r x IH]; cbn [app vsum]; [ring|rewrite IH; ring]. Qed.
Lemma times_sum (f : nat -> R) : vsum (map f p) = INR k * sumn n f.
Proof.
  rewrite (vsum_perm _ _ (Permutation_map f HP)). clear. induction k as [|j IH]; [cbn; ring|]. cbn [repeat List.concat]. rewrite map_app, vsum_app, IH, S_INR.
  assert (E : vsum (map f (seq 0 n)) = sumn n f) by (rewrite vsum_sumn, map_length, seq_length; apply sumn_ext; intros t Ht; exact (vec_at n f t Ht)). rewrite E. ring.
Qed.
Lemma times_len : List.length p = (k * n)%nat.
Proof. rewrite (Permutation_length HP). clear. induction k as [|j IH]; [reflexivity|]. cbn [repeat List.concat]. rewrite app_length, IH, seq_length. reflexivity. Qed.
Lemma moved_sum (f : nat -> R) : sumn (k * n) (fun t => f (nth t p 0%nat)) = INR k * sumn n f.
Proof.
  rewrite <- times_sum, vsum_sumn, map_length, times_len. apply sumn_ext. intros t Ht. unfold at_. rewrite (nth_indep (map f p) 0 (f 0%nat)) by (rewrite map_length, times_len; exact Ht). rewrite map_nth. reflexivity.
Qed.
Lemma moved_at w t : In w ns -> (t < k * n)%nat -> at_ (col' w) t = a w * at_ (col w) (nth t p 0%nat).
Proof.
  intros I Ht. rewrite (Col w I). unfold at_ at 1. rewrite (nth_indep (map (fun i => a w * at_ (col w) i) p) 0 ((fun i => a w * at_ (col w) i) 0%nat)) by (rewrite map_length, times_len; exact Ht). rewrite (map_nth (fun i => a w * at_ (col w) i)). reflexivity.
Qed.
Lemma moved_fit d ws t : (forall w, In w ws -> In w ns) -> (t < k * n)%nat -> fit col' d ws t = fit col (fun w => a w * d w) ws (nth t p 0%nat).
Proof. intros Iw Ht. unfold fit. f_equal. apply map_ext_in. intros w I. rewrite moved_at by (try apply Iw; assumption). ring. Qed.
Lemma moved_gap v d ws : In v ns -> (forall w, In w ws -> In w ns) -> gap (k * n) (col' v) col' d ws = INR k * (a v * a v) * gap n (col v) col (fun w => a w * d w / a v) ws.
Proof.
  intros Iv Iw. unfold gap. rewrite Rmult_assoc, <- sumn_scale, <- (moved_sum (fun t => a v * a v * _)). apply sumn_ext. intros t Ht. rewrite moved_fit, (moved_at v t) by assumption.
  assert (V := Pos v Iv). assert (E : fit col (fun w => a w * d w / a v) ws (nth t p 0%nat) = fit col (fun w => a w * d w) ws (nth t p 0%nat) / a v).
  { unfold Rdiv. rewrite Rmult_comm, <- fit_scale. apply fit_ext. intros w _. ring. }
  rewrite E. field. lra.
Qed.
Lemma moved_least v c ws : NoDup ws -> In v ns -> (forall w, In w ws -> In w ns) -> least_squares n (col v) (map col ws) (map c ws) ->
  least_squares (k * n) (col' v) (map col' ws) (map (fun w => c w * a v / a w) ws).
Proof.
  intros ND Iv Iw H. rewrite least_named in H |- * by exact ND. intros d. rewrite !moved_gap by assumption. assert (V := Pos v Iv).
  assert (E : gap n (col v) col (fun w => a w * (c w * a v / a w) / a v) ws = gap n (col v) col c ws).
  { unfold gap. apply sumn_ext. intros t _. rewrite (fit_ext col _ c ws t); [reflexivity|]. intros w I. assert (W := Pos w (Iw w I)). field. lra. }
  rewrite E. apply Rmult_le_compat_l; [|apply H]. apply Rmult_le_pos; [apply pos_INR|]. apply Rlt_le, Rmult_lt_0_compat; exact V.
Qed.
Lemma moved_independent ws : NoDup ws -> (forall w, In w ws -> In w ns) -> independent_columns n (map col ws) -> independent_columns (k * n) (map col' ws).
Proof.
  intros ND Iw H. rewrite independent_named in H |- * by exact ND. intros d Z w I. assert (W := Pos w (Iw w I)).
  assert (X : a w * d w = 0); [|apply Rmult_integral in X; destruct X as [X|X]; [lra|exact X]]. apply (H (fun w => a w * d w)); [|exact I]. intros i Hi.
  assert (Ip : In i p). { apply (Permutation_in _ (Permutation_sym HP)). destruct k as [|j]; [lia|]. cbn [repeat List.concat]. apply in_or_app. left. apply in_seq. lia. }
  destruct (In_nth p i 0%nat Ip) as (t & Ht & <-). rewrite times_len in Ht. rewrite <- (moved_fit d ws t Iw Ht). apply Z. exact Ht.
Qed.
End Rescale.

(* ---- what the last step of a run stores ---- *)
Lemma effect_stored fuel P l N d g0 g : start_graph d = Ok g0 -> pool_runner no_hooks P ->
  execute_pipeline fuel P no_hooks (l ++ [PStep (effect_step N)]) g0 = (g, Ok tt) -> nodes g = nodes g0 /\ forall u v, one_way g u v ->
  exists ps c, NoDup ps /\ (forall p, In p ps <-> p <> u /\ directed_edge_exists g p v = true) /\ In v (dkeys (nodes g0)) /\ (forall p, In p (u :: ps) -> In p (dkeys (nodes g0))) /\
    n_effect N (values_of g0 u) (map (values_of g0) ps) (values_of g0 v) = Ok c /\ stored_effect g u v c.
Proof.
  intros S0 HP E. assert (W := reached_WF _ (start_reached _ _ S0)).
  assert (F : Forall (fun p => Forall (par_ok P) (steps_of p)) l) by (apply Forall_forall; intros x _; apply Forall_forall; intros s _ _; exact HP).
  assert (X := pipeline_n fuel P no_hooks (l ++ [PStep (effect_step N)]) g0 HP W). rewrite E in X. destruct X as [Wg Nn]. cbn [fst] in Wg, Nn.
  destruct (effect_last fuel P l N g0 g W F E) as (g1 & g2 & E1 & W1 & W2 & N1 & L & Ef & Ev). split; [exact Nn|]. intros u v O.
  assert (O1 : one_way g1 u v) by (unfold one_way, only_directed_edge_exists in *; rewrite <- !L; exact O).
  assert (Lv : directed_edge_exists g u v = true) by (unfold one_way, only_directed_edge_exists in O; apply andb_true_iff in O; tauto).
  destruct (Ef u v O1) as (ps & m & c & ND & In_ & A1 & A2 & A3). exists ps, c. split; [exact ND|]. assert (Hp : forall p, In p ps <-> p <> u /\ directed_edge_exists g p v = true) by (intros p; rewrite In_, <- L; reflexivity). split; [exact Hp|].
  assert (Ends : forall x y, directed_edge_exists g x y = true -> In x (dkeys (nodes g0)) /\ In y (dkeys (nodes g0))).
  { intros x y Q. rewrite <- Nn. destruct (live_entry g x y Wg Q) as (e & _ & _ & A & B & _). rewrite <- !dmem_In. split; assumption. }
  split; [apply (Ends u v Lv)|]. split; [intros p [<-|I]; [apply (Ends u v Lv)|apply Hp in I; apply (Ends p v); apply I]|].
  assert (V : forall x, values_of g1 x = values_of g0 x) by (intros x; unfold values_of; rewrite <- N1, Nn; reflexivity).
  assert (EQ : map (values_of g0) ps = map (values_of g1) ps) by (apply map_ext; intros x; rewrite V; reflexivity).
  rewrite EQ, <- !V. split; [exact A2|]. exists (dset m "direct_effect"%string (MNum c)). split; [|apply dget_dset_same].
  rewrite Ev; [exact A3|exact Lv].
Qed.
