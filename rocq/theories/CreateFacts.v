(* Facts about slugify and the commands that add to a workspace. *)
From Coq Require Import Ascii.
From Verif Require Import Base PyDict PyDictFacts Variables Workspace Create CreateSpec.
Open Scope string_scope.
Open Scope list_scope.

(* statements about one character are checked for all 256 of them *)
Lemma ascii_all (P : ascii -> bool) : forallb P (map ascii_of_nat (seq 0 256)) = true -> forall c, P c = true.
Proof.
  intros H c. rewrite forallb_forall in H. apply H. apply in_map_iff. exists (nat_of_ascii c). split; [apply ascii_nat_embedding|].
  apply in_seq. assert (X := nat_ascii_bounded c). lia.
Qed.
Definition kept (c : ascii) : bool := is_word c || is_white c || is_hyphen c.
Definition plainb (c : ascii) : bool := between 97 122 c || between 48 57 c || Nat.eqb (code c) 95 || Nat.eqb (code c) 45.
Lemma plainb_spec c : plainb c = true -> plain_char c.
Proof.
  unfold plainb, between, plain_char, code. rewrite !Bool.orb_true_iff, !Bool.andb_true_iff, !Nat.leb_le, !Nat.eqb_eq. lia.
Qed.
Lemma lower_kept c : kept c = true -> is_separator (to_lower c) = false -> plainb (to_lower c) = true.
Proof.
  assert (H := ascii_all (fun c => implb (kept c) (implb (negb (is_separator (to_lower c))) (plainb (to_lower c)))) ltac:(vm_compute; reflexivity) c).
  cbn beta in H. intros K S. rewrite K, S in H. exact H.
Qed.
Lemma drop_incl l : incl (drop_white l) l.
Proof. induction l as [|c l IH]; [apply incl_refl|]. cbn. destruct (is_white c); [apply incl_tl; exact IH|apply incl_refl]. Qed.
Lemma strip_incl l : incl (strip l) l.
Proof. intros c H. unfold strip in H. apply in_rev in H. apply drop_incl in H. apply in_rev in H. apply drop_incl in H. exact H. Qed.
Lemma collapse_plain b l : (forall c, In c l -> is_separator c = false -> plainb c = true) -> forall c, In c (collapse b l) -> plainb c = true.
Proof.
  revert b. induction l as [|x l IH]; intros b H c Hc; [destruct Hc|]. cbn in Hc. assert (H' := fun c Hc => H c (or_intror Hc)).
  destruct (is_separator x) eqn:Sx.
  - destruct b; [exact (IH _ H' c Hc)|]. destruct Hc as [<-|Hc]; [reflexivity|exact (IH _ H' c Hc)].
  - destruct Hc as [<-|Hc]; [exact (H x (or_introl eq_refl) Sx)|exact (IH _ H' c Hc)].
Qed.
Lemma slug_plain l c : In c (slug_chars l) -> plainb c = true.
Proof.
  apply collapse_plain. intros x Hx Sx. apply in_map_iff in Hx. destruct Hx as (y & <- & Hy). apply strip_incl in Hy. apply filter_In in Hy. apply lower_kept; [exact (proj2 Hy)|exact Sx].
Qed.
Lemma slugify_plain n : plain_text (slugify n).
Proof. unfold plain_text, slugify. rewrite list_ascii_of_string_of_list_ascii. apply Forall_forall. intros c H. apply plainb_spec. exact (slug_plain _ c H). Qed.

(* a slug is its own slug *)
Lemma plain_facts c : plainb c = true -> kept c = true /\ is_white c = false /\ to_lower c = c /\ (is_separator c = true -> c = underscore).
Proof.
  intros H. assert (Q := ascii_all (fun c => implb (plainb c) (kept c && negb (is_white c) && Ascii.eqb (to_lower c) c && implb (is_separator c) (Ascii.eqb c underscore))) ltac:(vm_compute; reflexivity) c).
  cbn beta in Q. rewrite H in Q. cbn [implb] in Q. rewrite !Bool.andb_true_iff in Q. destruct Q as [[[A B] C] D]. split; [exact A|].
  split; [destruct (is_white c); [discriminate|reflexivity]|]. split; [apply Ascii.eqb_eq; exact C|]. intros S. rewrite S in D. apply Ascii.eqb_eq. exact D.
Qed.
Lemma drop_plain l : (forall c, In c l -> plainb c = true) -> drop_white l = l.
Proof. destruct l as [|c l]; [reflexivity|]. intros H. cbn. rewrite (proj1 (proj2 (plain_facts c (H c (or_introl eq_refl))))). reflexivity. Qed.
Lemma strip_plain l : (forall c, In c l -> plainb c = true) -> strip l = l.
Proof.
  intros H. unfold strip. rewrite (drop_plain l H), drop_plain; [apply rev_involutive|]. intros c Hc. apply H, in_rev, Hc.
Qed.
Lemma lower_plain l : (forall c, In c l -> plainb c = true) -> map to_lower l = l.
Proof. intros H. rewrite <- (map_id l) at 2. apply map_ext_in. intros c Hc. apply (plain_facts c (H c Hc)). Qed.
Lemma filter_plain l : (forall c, In c l -> plainb c = true) -> filter kept l = l.
Proof.
  induction l as [|c l IH]; intros H; [reflexivity|]. cbn. rewrite (proj1 (plain_facts c (H c (or_introl eq_refl)))). f_equal. apply IH. intros x Hx. apply H. right. exact Hx.
Qed.
Lemma collapse_again b l : (b = true -> collapse true (collapse true l) = collapse true l) /\ (b = false -> collapse false (collapse false l) = collapse false l).
Proof.
  revert b. assert (T : collapse true (collapse true l) = collapse true l /\ collapse false (collapse false l) = collapse false l).
  { induction l as [|c l [IT IF]]; [split; reflexivity|]. cbn [collapse]. destruct (is_separator c) eqn:S; cbn [collapse]; rewrite ?S.
    - split; [exact IT|]. change (is_separator underscore) with true. cbn [negb]. rewrite IT. reflexivity.
    - split; rewrite IF; reflexivity. }
  intros b. tauto.
Qed.
Lemma slugify_again n : slugify (slugify n) = slugify n.
Proof.
  unfold slugify. rewrite list_ascii_of_string_of_list_ascii. f_equal. set (l := slug_chars (list_ascii_of_string n)).
  assert (P : forall c, In c l -> plainb c = true) by (intros c Hc; exact (slug_plain _ c Hc)).
  unfold slug_chars at 1. fold kept. rewrite (filter_plain l P), (strip_plain l P), (lower_plain l P). apply (collapse_again false). reflexivity.
Qed.
(* text without ASCII characters *)
Lemma slugify_foreign n : Forall (fun c => 128 <= nat_of_ascii c)%nat (list_ascii_of_string n) -> slugify n = "".
Proof.
  intros H. unfold slugify, slug_chars. replace (filter (fun c => is_word c || is_white c || is_hyphen c) (list_ascii_of_string n)) with (@nil ascii); [reflexivity|].
  induction H as [|c l Hc _ IH]; [reflexivity|]. cbn [filter]. destruct (is_word c || is_white c || is_hyphen c) eqn:K; [|exact IH]. exfalso.
  unfold is_word, is_upper, is_white, is_hyphen, between, code in K. rewrite !Bool.orb_true_iff, !Bool.andb_true_iff, !Nat.leb_le, !Nat.eqb_eq in K. lia.
Qed.

Definition low (c : ascii) : list ascii := match find (fun p => Ascii.eqb (fst p) c) lower_case with Some p => [snd p] | None => [] end.
Definition same_low (a b : list ascii) : bool := if list_eq_dec ascii_dec a b then true else false.
Lemma low_facts c : (kept c = false -> low c = []) /\ (is_white c = true -> low c = []) /\ low (to_lower c) = low c /\ (is_separator c = true -> low c = []) /\ low underscore = [].
Proof.
  assert (H := ascii_all (fun c => (kept c || same_low (low c) []) && (negb (is_white c) || same_low (low c) []) && same_low (low (to_lower c)) (low c) && (negb (is_separator c) || same_low (low c) [])) ltac:(vm_compute; reflexivity) c).
  cbv beta in H. rewrite !andb_true_iff in H. destruct H as (((H1 & H2) & H3) & H4). unfold same_low in *.
  split; [intros K; rewrite K in H1; destruct (list_eq_dec ascii_dec (low c) []); [assumption|discriminate]|]. split; [intros K; rewrite K in H2; destruct (list_eq_dec ascii_dec (low c) []); [assumption|discriminate]|].
  split; [destruct (list_eq_dec ascii_dec (low (to_lower c)) (low c)); [assumption|discriminate]|]. split; [intros K; rewrite K in H4; destruct (list_eq_dec ascii_dec (low c) []); [assumption|discriminate]|reflexivity].
Qed.
Lemma low_filter l : flat_map low (filter kept l) = flat_map low l.
Proof. induction l as [|c l IH]; [reflexivity|]. cbn [filter flat_map]. destruct (kept c) eqn:K; cbn [flat_map]; rewrite IH; [reflexivity|]. rewrite (proj1 (low_facts c) K). reflexivity. Qed.
Lemma low_drop l : flat_map low (drop_white l) = flat_map low l.
Proof. induction l as [|c l IH]; [reflexivity|]. cbn [drop_white]. destruct (is_white c) eqn:K; [|reflexivity]. cbn [flat_map]. rewrite IH, (proj1 (proj2 (low_facts c)) K). reflexivity. Qed.
Lemma low_rev l : (forall c, exists b, low c = b /\ (List.length b <= 1)%nat) -> flat_map low (rev l) = rev (flat_map low l).
Proof.
  intros H. induction l as [|c l IH]; [reflexivity|]. cbn [rev flat_map]. rewrite flat_map_app, IH, rev_app_distr. cbn [flat_map]. rewrite app_nil_r. destruct (H c) as (b & E & L). rewrite E. destruct b as [|x [|y b]]; [reflexivity|reflexivity|cbn in L; lia].
Qed.
Lemma low_one c : exists b, low c = b /\ (List.length b <= 1)%nat.
Proof. exists (low c). split; [reflexivity|]. unfold low. destruct (find _ _); cbn; lia. Qed.
Lemma low_strip l : flat_map low (strip l) = flat_map low l.
Proof. unfold strip. rewrite (low_rev _ low_one), low_drop, (low_rev _ low_one), rev_involutive, low_drop. reflexivity. Qed.
Lemma low_lower l : flat_map low (map to_lower l) = flat_map low l.
Proof. induction l as [|c l IH]; [reflexivity|]. cbn [map flat_map]. rewrite IH, (proj1 (proj2 (proj2 (low_facts c)))). reflexivity. Qed.
Lemma low_collapse l : forall b, flat_map low (collapse b l) = flat_map low l.
Proof.
  induction l as [|c l IH]; intros b; [reflexivity|]. cbn [collapse flat_map]. destruct (is_separator c) eqn:K; [|cbn [flat_map]; rewrite IH; reflexivity].
  rewrite (proj1 (proj2 (proj2 (proj2 (low_facts c)))) K). destruct b; cbn [flat_map]; rewrite IH; reflexivity.
Qed.
Lemma slugify_letters n : lettered (slugify n) = lettered n.
Proof.
  unfold lettered. change (flat_map low (list_ascii_of_string (slugify n)) = flat_map low (list_ascii_of_string n)). unfold slugify. rewrite list_ascii_of_string_of_list_ascii. unfold slug_chars.
  rewrite low_collapse, low_lower, low_strip. apply low_filter.
Qed.
Lemma asks_writes e file c : asks_for e file c <-> writes e = Some (file, c).
Proof.
  split; [intros [a n|n|n]; reflexivity|]. destruct e as [c0|n]; [destruct c0|]; cbn [writes]; intros H; try discriminate; injection H as <- <-; constructor.
Qed.
Lemma perform_inv w f e f' : perform w f e = Ok f' -> exists ws ws', current_workspace f = Ok ws /\ run_command slugify w ws (as_command e) = Ok ws' /\
  current_workspace f' = Ok ws' /\ forall file, file <> WORKSPACE_FILE -> dget f' file = match writes e with Some (n, c) => if eqb file n then Some c else dget f file | None => dget f file end.
Proof.
  unfold perform. destruct (current_workspace f) as [ws|] eqn:C; [|discriminate]. cbn [rbind]. destruct (run_command slugify w ws (as_command e)) as [ws'|] eqn:R; [|discriminate]. cbn [rbind].
  intros H. injection H as <-. exists ws, ws'. split; [reflexivity|]. split; [exact R|]. split; [unfold current_workspace; rewrite dget_dset_same; reflexivity|].
  intros file Ne. rewrite dget_dset_other by exact Ne. destruct (writes e) as [[n c]|]; [apply dget_dset|reflexivity].
Qed.
Ltac split_command R :=
  repeat match type of R with
  | (if ?b then _ else _) = _ => destruct b
  | match ?x with _ => _ end = _ => destruct x; try discriminate
  | rbind ?x _ = _ => destruct x; cbn [rbind] in R; try discriminate
  end; try discriminate; injection R as <-.
Lemma command_frame w ws e ws' : run_command slugify w ws (as_command e) = Ok ws' -> forall k n, about e <> Some (k, n) -> same_entry ws ws' k n.
Proof.
  intros R k n A. destruct e as [c|m]; [destruct c|]; cbn [as_command run_command about] in R, A; split_command R;
    destruct k; cbn [same_entry set_pipelines set_dataloaders set_experiments pipelines dataloaders experiments]; try reflexivity;
    first [apply dget_dset_other|apply dget_ddel_other]; intros ->; apply A; reflexivity.
Qed.
Lemma command_refers w ws e ws' file c : run_command slugify w ws (as_command e) = Ok ws' -> asks_for e file c -> refers e ws' file.
Proof.
  intros R H. destruct H as [a n|n|n]; cbn [as_command run_command refers] in *; split_command R; cbn [set_pipelines set_dataloaders pipelines dataloaders].
  - apply dget_dset_same.
  - exists (slugify n). split; [reflexivity|apply dget_dset_same].
  - exists (slugify n). split; [reflexivity|apply dget_dset_same].
Qed.
Lemma refers_frame e ws ws' file c k n : asks_for e file c -> about e = Some (k, n) -> same_entry ws ws' k n -> refers e ws file -> refers e ws' file.
Proof.
  intros H A S R. destruct H as [a m|m|m]; cbn [about refers] in *; injection A as <- <-; cbn [same_entry] in S; rewrite S; exact R.
Qed.
