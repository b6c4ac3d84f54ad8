(* Facts about data files. *)
From Coq Require Import Ascii.
From Verif Require Import Base PyDict PyDictFacts Graph Construct ConstructSpec ConstructFacts JsonText JsonTextSpec JsonTextMain JsonGrammarSpec JsonGrammarFacts DataFile DataFileSpec.
Open Scope string_scope.
Open Scope list_scope.
Open Scope Z_scope.

Ltac Zify.zify_post_hook ::= Z.to_euclidean_division_equations.

(* ---- names ---- *)
Definition byte (b : Z) : Prop := 0 <= b < 256.
Lemma unlit_inj a b : Forall byte a -> Forall byte b -> unlit a = unlit b -> a = b.
Proof.
  intros A. revert b. induction A as [|x a Hx A IH]; intros [|y b] B E; try discriminate; [reflexivity|]. inversion B as [|? ? Hy B']; subst. rewrite !unlit_cons in E. injection E as E1 E2.
  f_equal; [|exact (IH b B' E2)]. assert (K := f_equal nat_of_ascii E1). unfold byte in *. rewrite !nat_ascii_embedding in K by lia. lia.
Qed.
Lemma point_bytes c : code_point c -> Forall byte (utf8_point c).
Proof.
  intros H. unfold code_point, utf8_point, byte in *. destruct (Z.ltb_spec c 128); [repeat constructor; lia|]. destruct (Z.ltb_spec c 2048); [repeat constructor; lia|]. destruct (Z.ltb_spec c 65536); repeat constructor; lia.
Qed.
Lemma text_bytes s : Forall code_point s -> Forall byte (flat_map utf8_point s).
Proof. induction 1 as [|c s H _ IH]; [constructor|]. cbn [flat_map]. apply Forall_app. split; [apply point_bytes; exact H|exact IH]. Qed.
Lemma quotients c : 0 <= c -> c / 4096 = c / 64 / 64 /\ c / 262144 = c / 64 / 64 / 64.
Proof. intros H. rewrite !Z.div_div by lia. split; reflexivity. Qed.
Lemma digits3 a b : a / 64 = b / 64 -> a mod 64 = b mod 64 -> a = b.
Proof. intros. lia. Qed.
Lemma cons_eq (x y : Z) l m : x :: l = y :: m -> x = y /\ l = m.
Proof. intros E. split; [exact (f_equal (hd 0) E)|exact (f_equal (@tl Z) E)]. Qed.
Lemma point_prefix c d s t : code_point c -> code_point d -> utf8_point c ++ s = utf8_point d ++ t -> c = d /\ s = t.
Proof.
  intros H K. unfold code_point, utf8_point in *.
  destruct (quotients c ltac:(lia)) as (Qc & Qc'). destruct (quotients d ltac:(lia)) as (Qd & Qd').
  destruct (Z.ltb_spec c 128); [|destruct (Z.ltb_spec c 2048); [|destruct (Z.ltb_spec c 65536)]];
  (destruct (Z.ltb_spec d 128); [|destruct (Z.ltb_spec d 2048); [|destruct (Z.ltb_spec d 65536)]]); cbn [app]; intros E; repeat match goal with X : _ :: _ = _ :: _ |- _ => apply cons_eq in X; destruct X end;
  try (exfalso; clear Qc Qc' Qd Qd'; lia); (split; [|assumption]).
  - assumption.
  - apply digits3; lia.
  - rewrite Qc, Qd in *. clear Qc Qd Qc' Qd'. apply digits3; [|lia]. apply digits3; lia.
  - rewrite Qc, Qd, Qc', Qd' in *. clear Qc Qd Qc' Qd'. apply digits3; [|lia]. apply digits3; [|lia]. apply digits3; lia.
Qed.
Lemma points_inj s t : Forall code_point s -> Forall code_point t -> flat_map utf8_point s = flat_map utf8_point t -> s = t.
Proof.
  assert (N : forall c r, utf8_point c ++ r <> []) by (intros c r; unfold utf8_point; destruct (c <? 128), (c <? 2048), (c <? 65536); discriminate).
  intros H. revert t. induction H as [|c s Hc _ IH]; intros [|d t] K E; cbn [flat_map] in E; [reflexivity|destruct (N _ _ (eq_sym E))|destruct (N _ _ E)|].
  inversion K as [|? ? Kd K']; subst. apply point_prefix in E; [|assumption..]. destruct E as (-> & E). f_equal. exact (IH t K' E).
Qed.
Lemma utf8_inj s t : Forall code_point s -> Forall code_point t -> utf8 s = utf8 t -> s = t.
Proof. intros H K E. apply points_inj; [exact H|exact K|]. apply unlit_inj; [apply text_bytes; exact H|apply text_bytes; exact K|exact E]. Qed.
Lemma utf8_NoDup l : NoDup l -> (forall k, In k l -> Forall code_point k) -> NoDup (map utf8 l).
Proof.
  induction 1 as [|k l N _ IH]; intros C; cbn; constructor; [|apply IH; intros x Hx; apply C; right; exact Hx]. intros I. apply in_map_iff in I. destruct I as (x & E & I).
  apply utf8_inj in E; [subst; exact (N I)|apply C; right; exact I|apply C; left; reflexivity].
Qed.

(* ---- lines ---- *)
Lemma lines_one u r : ~ In 10 u -> lines (u ++ 10 :: r) = (u ++ [10]) :: lines r.
Proof.
  induction u as [|c u IH]; intros N; [reflexivity|]. cbn [app lines]. destruct (Z.eqb_spec c 10) as [->|_]; [destruct N; left; reflexivity|]. rewrite IH by (intros I; apply N; right; exact I). reflexivity.
Qed.
Lemma lines_end u : ~ In 10 u -> u <> [] -> lines u = [u].
Proof.
  induction u as [|c u IH]; intros N E; [congruence|]. cbn [lines]. destruct (Z.eqb_spec c 10) as [->|_]; [destruct N; left; reflexivity|]. destruct u as [|d u]; [reflexivity|]. rewrite IH; [reflexivity|intros I; apply N; right; exact I|discriminate].
Qed.
Lemma lines_concat us : Forall (fun u => ~ In 10 u) us -> lines (List.concat (map (fun u => u ++ [10]) us)) = map (fun u => u ++ [10]) us.
Proof. induction 1 as [|u us N _ IH]; [reflexivity|]. cbn [map List.concat]. rewrite <- app_assoc. cbn [app]. rewrite (lines_one u _ N), IH. reflexivity. Qed.

Section Files.
Variable read_float : ustr -> Z.
Variable of_int : Z -> option Z.
Notation json_stream := (json_stream read_float).
Notation jsonl_stream := (jsonl_stream read_float).
Notation graph_from_stream := (graph_from_stream of_int).
Notation read_stream := (read_stream of_int).
Notation row_of := (row_of of_int).
Notation columns_of := (columns_of of_int).

Lemma text_newline u (j : jval Z) : json_text read_float u j -> json_text read_float (u ++ [10]) j.
Proof.
  intros (w & t & w' & -> & W & V & W'). exists w, t, (w' ++ [10]). split; [rewrite <- !app_assoc; reflexivity|]. split; [exact W|]. split; [exact V|]. apply Forall_app. split; [exact W'|constructor; [cbn; auto|constructor]].
Qed.
Lemma jsonl_rows t rows : jsonl_text read_float t rows -> jsonl_stream t = map (fun r => Ok (JDict r)) rows.
Proof.
  intros (us & H & E). unfold DataFile.jsonl_stream.
  assert (N : Forall (fun u => ~ In 10 u) us) by (clear E; induction H as [|u r us rows (A & _) _ IH]; constructor; assumption).
  assert (L : map (loads read_float) (map (fun u => u ++ [10]) us) = map (fun r => Ok (JDict r)) rows).
  { clear E N. induction H as [|u r us rows (_ & A) _ IH]; [reflexivity|]. cbn [map]. rewrite (text_reads read_float _ _ (text_newline _ _ A)), IH. reflexivity. }
  destruct E as [->|E]; [rewrite (lines_concat us N); exact L|].
  destruct (exists_last (l := us)) as (vs & v & ->); [intros ->; destruct t; discriminate|]. rewrite map_app, concat_app in E. cbn [map List.concat] in E. rewrite app_nil_r, app_assoc in E. apply app_inj_tail in E. destruct E as (-> & _).
  apply Forall_app in N. destruct N as (N & Nv). inversion Nv as [|? ? Nv' _]; subst. rewrite map_app, map_app in L. cbn [map] in L.
  apply Forall2_app_inv_l in H. destruct H as (rows1 & rows2 & _ & H2 & ->). inversion H2 as [|? r ? ? (_ & A) H3]; subst. inversion H3; subst. rewrite map_app in L |- *. cbn [map] in L |- *. apply app_inj_tail in L. destruct L as (L & _).
  assert (Q : lines (List.concat (map (fun u => u ++ [10]) vs) ++ v) = map (fun u => u ++ [10]) vs ++ lines v).
  { clear L. induction N as [|u vs Nu _ IH]; [reflexivity|]. cbn [map List.concat]. rewrite <- !app_assoc. cbn [app]. rewrite (lines_one u _ Nu), IH. reflexivity. }
  rewrite Q. assert (Vn : v <> []) by (intros ->; apply (text_reads read_float) in A; discriminate). rewrite (lines_end v Nv' Vn), map_app. cbn [map]. rewrite L, (text_reads read_float _ _ A). reflexivity.
Qed.
Lemma stream_rows keys rows : (forall r k, In r rows -> In k (match keys with Some ks => ks | None => match rows with [] => [] | r0 :: _ => map fst r0 end end) -> dmem r k = true) ->
  (forall r, In r rows -> dget r (lit "_dict") = None) -> read_stream keys (map (fun r => Ok (JDict r)) rows) = inl (Ok (map row_of rows)).
Proof.
  revert keys. induction rows as [|r rows IH]; intros keys K D; [reflexivity|]. cbn [map DataFile.read_stream]. rewrite (D r (or_introl eq_refl)). cbn zeta.
  set (ks := match keys with Some ks => ks | None => map fst r end) in *.
  assert (B : forallb (dmem r) ks = true) by (apply forallb_forall; intros k Hk; exact (K r k (or_introl eq_refl) Hk)). rewrite B.
  rewrite IH; [reflexivity|intros x k Hx Hk; exact (K x k (or_intror Hx) Hk)|intros x Hx; exact (D x (or_intror Hx))].
Qed.
Lemma encoded_table T n : is_named_table T n -> is_table (encoded T) n.
Proof.
  intros (N & L & C & _). split.
  - unfold encoded. rewrite map_map. cbn [fst]. rewrite <- (map_map fst utf8). apply utf8_NoDup; assumption.
  - intros k vs I. apply in_map_iff in I. destruct I as ((k' & vs') & E & I). injection E as _ <-. exact (L k' vs' I).
Qed.
Lemma number_cell v x : number of_int v x -> cell_of of_int v = Some x.
Proof. intros [y|z y E|b y E]; [reflexivity|exact E|exact E]. Qed.
Lemma cell_number v x : cell_of of_int v = Some x -> number of_int v x.
Proof. destruct v as [|b|z|y|s|l|d]; cbn [cell_of]; intros H; try discriminate; [apply nu_bool; exact H|apply nu_int; exact H|injection H as ->; apply nu_float]. Qed.
Lemma dict_get {A} (d : list (ustr * A)) k v : NoDup (map fst d) -> In (k, v) d -> dget d k = Some v.
Proof. intros N I. apply NoDup_dget; assumption. Qed.
Lemma row_encoded T r k v : (forall k, In k (map fst T) -> Forall code_point k) -> NoDup (map fst (T : named_table)) -> Permutation (map fst r) (map fst T) -> In (k, v) r -> dget (row_of r) (utf8 k) = Some (cell_of of_int v).
Proof.
  intros C N P I. apply NoDup_dget.
  - unfold dkeys, DataFile.row_of. rewrite map_map. cbn [fst]. rewrite <- (map_map fst utf8). apply utf8_NoDup; [exact (Permutation_NoDup (Permutation_sym P) N)|]. intros x Hx. apply C. exact (Permutation_in _ P Hx).
  - apply in_map_iff. exists (k, v). split; [reflexivity|exact I].
Qed.
Lemma rows_data T n rows : is_named_table T n -> (0 < n)%nat -> rows_spell of_int T n rows -> data_holds (encoded T) n (DList (map row_of rows)) /\
  (forall r, In r rows -> dget r (lit "_dict") = None) /\ (forall r k, In r rows -> In k (map fst T) -> dmem r k = true).
Proof.
  intros (N & L & C & D) Hn (Ln & R).
  assert (R' : forall r, In r rows -> Permutation (map fst r) (map fst T)) by (intros r Hr; apply In_nth_error in Hr; destruct Hr as (i & Hi); exact (proj1 (R i r Hi))).
  split; [|split].
  - split; [exact Hn|]. split; [rewrite map_length; exact Ln|]. split.
    + intros i r E k vs I. rewrite nth_error_map in E. destruct (nth_error rows i) as [r0|] eqn:Q; [|discriminate]. cbn in E. injection E as <-. apply in_map_iff in I. destruct I as ((k' & vs') & E & I). cbn [fst snd] in E. injection E as <- <-.
      destruct (R i r0 Q) as (P & G). destruct (G k' vs' I) as (v & x & Hv & Hx & Nx). exists x. split; [exact Hx|]. rewrite (row_encoded T r0 k' v C N P Hv), (number_cell v x Nx). reflexivity.
    + destruct rows as [|r0 rest]; [cbn in Ln; lia|]. exists (row_of r0), (map row_of rest). split; [reflexivity|]. unfold dkeys, DataFile.row_of, encoded. rewrite !map_map. cbn [fst]. rewrite <- !(map_map fst utf8). apply Permutation_map. exact (R' r0 (or_introl eq_refl)).
  - intros r Hr. destruct (dget r (lit "_dict")) as [x|] eqn:I; [|reflexivity]. exfalso. apply dget_In in I. apply (in_map fst) in I. cbn [fst] in I. apply D. exact (Permutation_in _ (R' r Hr) I).
  - intros r k Hr Hk. apply dmem_In. exact (Permutation_in _ (Permutation_sym (R' r Hr)) Hk).
Qed.
Lemma rows_graph T n rows : is_named_table T n -> (0 < n)%nat -> rows_spell of_int T n rows ->
  exists g, graph_from_stream (map (fun r => Ok (JDict r)) rows) = Ok g /\ holds_only (encoded T) g /\ dkeys (nodes g) = map utf8 (map fst (hd [] rows)).
Proof.
  intros HT Hn HR. destruct (rows_data T n rows HT Hn HR) as (D & D1 & D2). destruct (c41_main _ _ _ (encoded_table T n HT) D) as (g & E & H & O). exists g. split; [|split; [exact H|]].
  - unfold DataFile.graph_from_stream. rewrite stream_rows; [|intros r k Hr Hk|exact D1].
    + destruct rows as [|r0 rest]; [destruct HR as (X & _); cbn in X; lia|]. exact E.
    + destruct rows as [|r0 rest]; [destruct Hr|]. apply D2; [exact Hr|]. destruct HR as (_ & R). exact (Permutation_in _ (proj1 (R 0%nat r0 eq_refl)) Hk).
  - destruct rows as [|r0 rest]; [destruct HR as (X & _); cbn in X; lia|]. cbn in O. rewrite O. unfold dkeys, DataFile.row_of. cbn [hd]. rewrite !map_map. reflexivity.
Qed.
Lemma columns_graph T n d : is_named_table T n -> columns_spell of_int T d ->
  exists g, graph_from_stream [Ok (JDict [(lit "_dict", JDict d)])] = Ok g /\ holds_only (encoded T) g /\ sorted_names (dkeys (nodes g)).
Proof.
  intros HT (P & V). assert (HT' := HT). destruct HT' as (N & L & C & _).
  assert (D : data_holds (encoded T) n (DDict (columns_of d))).
  { cbn. unfold encoded, DataFile.columns_of. rewrite map_map. cbn [fst snd].
    apply NoDup_Permutation.
    - apply (NoDup_map_inv fst). rewrite map_map. cbn [fst]. rewrite <- (map_map fst utf8). apply utf8_NoDup; [exact (Permutation_NoDup (Permutation_sym P) N)|]. intros x Hx. apply C. exact (Permutation_in _ P Hx).
    - apply (NoDup_map_inv fst). rewrite map_map. cbn [fst]. rewrite <- (map_map fst utf8). apply utf8_NoDup; assumption.
    - assert (F : forall k vs j, In (k, vs) T -> In (k, j) d -> column_of of_int j = map Some vs).
      { intros k vs j I J. destruct (V k vs I) as (l & I' & H). assert (Nd : NoDup (map fst d)) by exact (Permutation_NoDup (Permutation_sym P) N).
        assert (E := dict_get d k j Nd J). rewrite (dict_get d k (JList l) Nd I') in E. injection E as <-. cbn [column_of]. clear - H. induction H as [|a x l vs Hx _ IH]; [reflexivity|]. cbn [map]. rewrite (number_cell a x Hx), IH. reflexivity. }
      intros (k & c). split; intros I; apply in_map_iff in I; destruct I as ((k' & x) & E & I); cbn [fst snd] in E; injection E as <- <-.
      + assert (K : In k' (map fst T)) by exact (Permutation_in _ P (in_map fst _ _ I)). apply in_map_iff in K. destruct K as ((k2 & vs) & E & K). cbn [fst] in E. subst k2. apply in_map_iff. exists (k', vs). split; [|exact K]. cbn [fst snd]. rewrite (F k' vs x K I). reflexivity.
      + destruct (V k' x I) as (l & I' & _). apply in_map_iff. exists (k', JList l). split; [|exact I']. cbn [fst snd]. rewrite (F k' x (JList l) I I'). reflexivity. }
  destruct (c41_main _ _ _ (encoded_table T n HT) D) as (g & E & H & O). exists g. split; [exact E|]. split; [exact H|exact O].
Qed.
End Files.
