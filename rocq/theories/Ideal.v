(* Numerics that answer by d-separation in a given DAG: for every DAG there is data and a set of numeric
   answers meeting the hypotheses of the PC theorems. *)
From Verif Require Import Base PyDict PyDictFacts Graph Dag DagFacts DagSep SkelSpec IndepTests Construct ConstructSpec ConstructFacts DsepDec.
Open Scope list_scope.
Open Scope Z_scope.

(* variables are numbered from 1 *)
Fixpoint number (ns : list id) (x : id) : Z :=
  match ns with [] => 0 | y :: r => if eqb y x then 1 else 1 + number r x end.
Definition named (ns : list id) (k : Z) : id := nth (Z.to_nat (k - 1)) ns EmptyString.
Lemma number_range ns x : In x ns -> 1 <= number ns x <= Z.of_nat (List.length ns).
Proof.
  induction ns as [|y ns IH]; intros H; [destruct H|]. cbn [number List.length]. rewrite Nat2Z.inj_succ. destruct (eqb_spec y x) as [->|N]; [lia|].
  destruct H as [->|H]; [congruence|]. specialize (IH H). lia.
Qed.
Lemma named_number ns x : In x ns -> named ns (number ns x) = x.
Proof.
  unfold named. induction ns as [|y ns IH]; intros H; [destruct H|]. cbn [number]. destruct (eqb_spec y x) as [->|N]; [reflexivity|].
  destruct H as [->|H]; [congruence|]. assert (R := number_range ns x H).
  replace (Z.to_nat (1 + number ns x - 1)) with (S (Z.to_nat (number ns x - 1))) by lia. cbn [nth]. apply IH; exact H.
Qed.
Lemma number_inj ns x y : In x ns -> In y ns -> number ns x = number ns y -> x = y.
Proof. intros Hx Hy E. rewrite <- (named_number ns x Hx), <- (named_number ns y Hy), E. reflexivity. Qed.

Definition pair_code (B x y : Z) : Z := Z.min x y * B + Z.max x y.
Definition third (B a b : Z) : Z := if orb (Z.eqb (b / B) (a / B)) (Z.eqb (b / B) (a mod B)) then b mod B else b / B.
Definition ideal (ns : list id) (D : list (id * id)) : numerics :=
  let B := Z.of_nat (List.length ns) + 1 in
  mkNum
    (fun a b => match a, b with [x], [y] => Ok (pair_code B x y) | _, _ => Err ValueError end)
    (fun _ c => Ok (dsepb D (named ns (c / B)) (named ns (c mod B)) []))
    (fun _ _ a b _ => Ok (Some (dsepb D (named ns (a / B)) (named ns (a mod B)) [named ns (third B a b)])))
    (fun l => match List.concat l with x :: y :: zs => Ok (Some (dsepb D (named ns x) (named ns y) (map (named ns) zs))) | _ => Ok None end)
    (fun _ _ _ => Ok false)
    (fun _ _ _ => Ok 0).
Definition ideal_corr (ns : list id) (x y : id) : Z := pair_code (Z.of_nat (List.length ns) + 1) (number ns x) (number ns y).

Lemma code_div B x y : 1 <= x < B -> 1 <= y < B -> pair_code B x y / B = Z.min x y.
Proof. intros Hx Hy. unfold pair_code. rewrite Z.div_add_l by lia. rewrite (Z.div_small (Z.max x y)) by lia. lia. Qed.
Lemma code_mod B x y : 1 <= x < B -> 1 <= y < B -> pair_code B x y mod B = Z.max x y.
Proof. intros Hx Hy. unfold pair_code. rewrite Z.add_comm, Z.mod_add by lia. apply Z.mod_small. lia. Qed.
Lemma third_code B x y z : 1 <= x < B -> 1 <= y < B -> 1 <= z < B -> x <> z -> y <> z -> x <> y -> third B (pair_code B x y) (pair_code B x z) = z.
Proof.
  intros Hx Hy Hz N1 N2 N3. unfold third. rewrite !code_div, !code_mod by assumption.
  destruct (Z.eqb_spec (Z.min x z) (Z.min x y)), (Z.eqb_spec (Z.min x z) (Z.max x y)); cbn [orb]; lia.
Qed.

Lemma says_sym D (b : bool) x y S : says b (dsep D x y S) -> says b (dsep D y x S).
Proof. unfold says, dsep. intros [H1 H2]. split; intros H; [apply d_separated_sym; auto|apply H2; apply d_separated_sym; exact H]. Qed.

Theorem ideal_perfect ns D vals : dag_over ns D -> (forall x, In x ns -> vals x = [number ns x]) -> perfect_tests (ideal ns D) vals ns D (ideal_corr ns).
Proof.
  intros [DN Ac] HV. set (B := Z.of_nat (List.length ns) + 1).
  assert (R : forall x, In x ns -> 1 <= number ns x < B) by (intros x Hx; assert (T := number_range ns x Hx); lia).
  assert (MM : forall x y S, In x ns -> In y ns -> says (dsepb D (named ns (Z.min (number ns x) (number ns y))) (named ns (Z.max (number ns x) (number ns y))) S) (dsep D x y S)).
  { intros x y S Hx Hy. destruct (Z.le_ge_cases (number ns x) (number ns y)) as [L|L].
    - rewrite Z.min_l, Z.max_r, !named_number by assumption. apply dsepb_iff; exact Ac.
    - rewrite Z.min_r, Z.max_l, !named_number by assumption. apply says_sym, dsepb_iff; exact Ac. }
  constructor.
  - intros x y. unfold ideal_corr, pair_code. rewrite Z.min_comm, Z.max_comm. reflexivity.
  - intros x y Hx Hy _. rewrite !HV by assumption. reflexivity.
  - intros x y Hx Hy N. eexists. split; [reflexivity|]. cbn. fold B. unfold ideal_corr. fold B. rewrite code_div, code_mod by auto. apply MM; assumption.
  - intros x y z Hx Hy Hz ND. eexists. split; [reflexivity|]. cbn. fold B. unfold ideal_corr. fold B.
    assert (Nxy : x <> y /\ x <> z /\ y <> z) by (inversion ND as [|? ? N1 N2]; inversion N2 as [|? ? N3 ?]; subst; cbn in *; intuition congruence). destruct Nxy as (N1 & N2 & N3).
    assert (I1 := number_inj ns x y Hx Hy). assert (I2 := number_inj ns x z Hx Hz). assert (I3 := number_inj ns y z Hy Hz).
    rewrite third_code by (auto; intros E; auto). rewrite code_div, code_mod, (named_number ns z) by auto. apply MM; assumption.
  - intros x y S ND Hin NE. assert (EC : List.concat (map vals (x :: y :: S)) = map (number ns) (x :: y :: S)).
    { revert Hin. generalize (x :: y :: S) as l. induction l as [|a l IH]; intros Hl; [reflexivity|]. cbn [map List.concat]. rewrite HV by (apply Hl; left; reflexivity).
      rewrite IH by (intros z Hz; apply Hl; right; exact Hz). reflexivity. }
    exists (dsepb D (named ns (number ns x)) (named ns (number ns y)) (map (named ns) (map (number ns) S))). split.
    + cbn [n_matrix ideal]. rewrite EC. reflexivity.
    + rewrite !named_number by (apply Hin; cbn; auto). assert (EM : map (named ns) (map (number ns) S) = S).
      { rewrite map_map. assert (HS : forall z, In z S -> In z ns) by (intros z Hz; apply Hin; right; right; exact Hz).
        clear -HS. induction S as [|a S IH]; [reflexivity|]. cbn [map]. rewrite named_number by (apply HS; left; reflexivity). rewrite IH; [reflexivity|]. intros z Hz; apply HS; right; exact Hz. }
      rewrite EM. apply dsepb_iff; exact Ac.
Qed.

(* the data: one observation per variable, its number *)
Definition ideal_table (ns : list id) : table := map (fun x => (x, [number ns x])) ns.
Definition ideal_data (ns : list id) : rawdata := DDict (map (fun x => (x, [Some (number ns x)])) ns).
Theorem ideal_start ns : NoDup ns -> exists g0, start_graph (ideal_data ns) = Ok g0 /\ Permutation (dkeys (nodes g0)) ns /\
  (forall x, In x ns -> values_of g0 x = [number ns x]).
Proof.
  intros ND. destruct (start_ok (ideal_table ns) 1 (ideal_data ns)) as (g0 & S0 & Hn & NO & Hd & _).
  - split; [unfold ideal_table; rewrite map_map; cbn; rewrite map_id; exact ND|]. intros k vs H. apply in_map_iff in H. destruct H as (x & E & _). injection E as _ <-. reflexivity.
  - unfold ideal_data, ideal_table, data_holds. rewrite map_map. cbn. apply Permutation_refl.
  - exists g0. split; [exact S0|]. assert (GV : forall x, In x ns -> dget (nodes g0) x = Some (mkNode x [number ns x])).
    { intros x Hx. apply Hn. exists [number ns x]. split; [|reflexivity]. apply in_map_iff. exists x; auto. }
    split.
    + apply NoDup_Permutation; [|exact ND|].
      * apply start_reached in S0. apply ActionMain.reached_WF in S0. apply S0.
      * intros x. split.
        { intros H. apply dmem_In in H. unfold dmem in H. destruct (dget (nodes g0) x) as [nd|] eqn:G; [|discriminate]. apply Hn in G. destruct G as (vs & Hin & _).
          apply in_map_iff in Hin. destruct Hin as (y & E & Hy). injection E as <- _. exact Hy. }
        { intros H. apply dmem_In. unfold dmem. rewrite (GV x H). reflexivity. }
    + intros x Hx. unfold values_of. rewrite (GV x Hx). reflexivity.
Qed.
Lemma perfect_perm N vals ns ns' D c : (forall x, In x ns' -> In x ns) -> perfect_tests N vals ns D c -> perfect_tests N vals ns' D c.
Proof.
  intros P [A1 A2 A3 A4 A5]. constructor; auto.
Qed.
Theorem ideal_exists ns D : NoDup ns -> dag_over ns D -> exists g0, start_graph (ideal_data ns) = Ok g0 /\ Permutation (dkeys (nodes g0)) ns /\
  dag_over (dkeys (nodes g0)) D /\ perfect_tests (ideal ns D) (values_of g0) (dkeys (nodes g0)) D (ideal_corr ns).
Proof.
  intros ND DG. destruct (ideal_start ns ND) as (g0 & S0 & P & HV). exists g0. split; [exact S0|]. split; [exact P|]. split.
  - split; [|apply DG]. intros x y H. destruct (do_nodes _ _ DG x y H). split; eapply Permutation_in; [apply Permutation_sym; exact P|assumption|apply Permutation_sym; exact P|assumption].
  - apply (perfect_perm _ _ ns); [intros x; apply Permutation_in; exact P|]. apply ideal_perfect; [exact DG|exact HV].
Qed.
