(* Data of the sample generator follow the structural equations given by the user. *)
From Coq Require Import Reals List Lia Lra.
From Verif Require Import Base PyDict PyDictFacts Graph SampleGen SampleSpec SampleFacts Dag PathSpec SkelSpec Numeric NumericSpec NumericFacts LinearSpec UnitsFacts LinearFacts.
Import ListNotations.
Open Scope R_scope.

Definition column (d : dict string (list R)) (k : id) : list R := match dget d k with Some c => c | None => [] end.
Lemma cell_column d k i x : cell_at d k i = Some x -> at_ (column d k) i = x.
Proof. unfold cell_at, column, at_. destruct (dget d k) as [c|]; [|discriminate]. apply nth_error_nth. Qed.
Lemma linear_sum start l : linear Rplus Rmult start l = start + vsum (map (fun p => fst p * snd p) l).
Proof. unfold linear. revert start. induction l as [|p l IH]; intros start; cbn; [ring|]. rewrite IH. ring. Qed.
Lemma structural_noise es d i k z : structural Rplus Rmult es d i k z -> noise es (column d) k i = z.
Proof.
  intros (xs & F & C). unfold noise. rewrite (cell_column d k i _ C), linear_sum.
  assert (E : lsum (fun p => fst p * snd p) (combine (map se_value (incoming es k)) xs) = lsum (fun e => se_value e * at_ (column d (se_from e)) i) (incoming es k)).
  { clear C. induction F as [|e x l xs H F IH]; [reflexivity|]. cbn. rewrite IH, (cell_column _ _ _ _ H). reflexivity. }
  rewrite E. ring.
Qed.
Lemma cause_acyclic es : acyclic (cause es) -> acyclic (edge_in (arrows es)).
Proof.
  intros AC v (u & A & B). apply (AC v). exists u. split; [apply arrow_cause; exact A|]. clear A. induction B as [|a b c E R IH]; [apply reach_refl|]. eapply reach_step; [apply arrow_cause; exact E|exact IH].
Qed.
Lemma generated_linear es fuel so rnd size : set_order so -> acyclic (cause es) -> (2 * List.length es <= fuel)%nat ->
  exists vs d, iid_variables fuel so es = Ok vs /\ generate_data Rplus Rmult rnd es vs size = Ok d /\ dkeys d = vs /\ NoDup vs /\
    (forall j k t, nth_error vs j = Some k -> (t < size)%nat -> noise es (column d) k t = rnd (j * size + t)%nat) /\
    ((forall i j, (i < List.length vs)%nat -> (j < List.length vs)%nat -> i <> j -> uncorrelated size (fun t => rnd (i * size + t)%nat) (fun t => rnd (j * size + t)%nat)) -> linear_data size vs es (column d)).
Proof.
  intros SO AC F. destruct (iid_variables_end es fuel so SO AC F) as [vs V]. assert (TP := iid_variables_ok es fuel so vs SO V).
  destruct (generate_data_ok Rplus Rmult rnd es vs size TP) as (d & G & K & L & S). destruct TP as (ND & I & _). exists vs, d.
  assert (NZ : forall j k t, nth_error vs j = Some k -> (t < size)%nat -> noise es (column d) k t = rnd (j * size + t)%nat) by (intros j k t Hj Ht; apply structural_noise, S; assumption).
  repeat (split; [assumption|]). intros U. split.
  - split; [|apply cause_acyclic; exact AC]. intros x y H. apply arrow_cause in H. split; apply I; [exists y; left|exists x; right]; exact H.
  - intros v Iv. unfold column. destruct (dget d v) as [c|] eqn:E; [apply (L v c E)|]. exfalso. rewrite <- K in Iv. apply dmem_In in Iv. unfold dmem in Iv. unfold id in *. rewrite E in Iv. discriminate.
  - intros u v Iu Iv Ne. unfold id in *. apply In_nth_error in Iu, Iv. destruct Iu as [i Hi], Iv as [j Hj]. assert (Li : (i < List.length vs)%nat) by (apply nth_error_Some; congruence). assert (Lj : (j < List.length vs)%nat) by (apply nth_error_Some; congruence).
    assert (Ni : i <> j) by congruence. specialize (U i j Li Lj Ni). unfold uncorrelated in *.
    rewrite (sumn_ext size _ (fun t => rnd (i * size + t)%nat * rnd (j * size + t)%nat)) by (intros t Ht; rewrite (NZ i u t Hi Ht), (NZ j v t Hj Ht); reflexivity).
    rewrite (sumn_ext size (noise es (column d) u) (fun t => rnd (i * size + t)%nat)) by (intros t Ht; apply (NZ i u t Hi Ht)). rewrite (sumn_ext size (noise es (column d) v) (fun t => rnd (j * size + t)%nat)) by (intros t Ht; apply (NZ j v t Hj Ht)). exact U.
Qed.
