(* Pure graph facts about Meek's rules with known directions. *)
From Verif Require Import Base PyDict Graph Dag DagFacts DagSep SkelSpec OrientSpec OrientGraph KnowSpec.

Section O.
Variable D : list (id * id).
Variable K : id -> id -> Prop.
Notation E := (edge_in D).
Hypothesis Ac : acyclic E.
Hypothesis Ks : forall x y, K x y -> E x y.
Notation no_three := (no_three D Ac).
Notation no_four := (no_four D Ac).
Notation vstruct_sym := (vstruct_sym D).
Lemma oriented_is_known x y : oriented D x y -> known D K x y.
Proof.
  induction 1 as [x z y V|x z y _ IH A N NA NV|x z y _ IH1 _ IH2 A|x y w z _ IH1 _ IH2 A1 A2 A3 N NA NV|x y w z _ IH1 _ IH2 A1 A2 A3 N NA NV].
  - exact (kn_v D K x z y V).
  - exact (kn_1 D K x z y IH A N NA NV).
  - exact (kn_2 D K x z y IH1 IH2 A).
  - exact (kn_3 D K x y w z IH1 IH2 A1 A2 A3 N NA NV).
  - exact (kn_4 D K x y w z IH1 IH2 A1 A2 A3 N NA NV).
Qed.
Theorem known_sound x y : known D K x y -> E x y.
Proof.
  induction 1 as [x y HK|x z y V|x z y _ IH A N NA NV|x z y _ IH1 _ IH2 A|x y w z _ IH1 _ IH2 A1 A2 A3 N NA NV|x y w z _ IH1 _ IH2 A1 A2 A3 N NA NV].
  - apply Ks; exact HK.
  - apply V.
  - destruct A as [A|A]; [exact A|]. exfalso; apply NV. repeat split; auto.
  - destruct A as [A|A]; [exact A|]. exfalso. exact (no_three _ _ _ IH1 IH2 A).
  - destruct A3 as [A|A]; [exact A|]. exfalso; apply NV. repeat split; auto.
    + destruct A1 as [B|B]; [|exact B]. exfalso; exact (no_three _ _ _ B IH1 A).
    + destruct A2 as [B|B]; [|exact B]. exfalso; exact (no_three _ _ _ B IH2 A).
  - destruct A3 as [A|A]; [exact A|]. exfalso; apply NV. repeat split; auto.
    destruct A1 as [B|B]; [|exact B]. exfalso; exact (no_four _ _ _ _ B IH1 IH2 A).
Qed.
Lemma known_adj x y : known D K x y -> adjacent E x y.
Proof. intros O; left; apply known_sound; exact O. Qed.
Lemma known_asym x y : known D K x y -> ~ known D K y x.
Proof. intros A B. apply known_sound in A, B. exact (no_two E Ac _ _ A B). Qed.

(* a relation "live" that respects the derived orientations and to which the four rules, in the form
   the code has them, do not apply *)
Variable L : id -> id -> Prop.
Hypothesis Ldec : forall x y, L x y \/ ~ L x y.
Hypothesis Ladj : forall x y, L x y -> adjacent E x y.
Hypothesis Lsound : forall x y, adjacent E x y -> ~ L x y -> known D K y x.
Definition One x y : Prop := L x y /\ ~ L y x.
Definition Two x y : Prop := L x y /\ L y x.
Lemma One_known x y : One x y -> known D K x y.
Proof. intros [A B]. apply Lsound; [apply adjacent_sym, Ladj, A|exact B]. Qed.
Lemma adj_cases x y : adjacent E x y -> One x y \/ One y x \/ Two x y.
Proof.
  intros A. unfold One, Two. destruct (Ldec x y) as [P|P], (Ldec y x) as [Q|Q]; auto.
  exfalso. exact (known_asym _ _ (Lsound _ _ A P) (Lsound _ _ (adjacent_sym _ _ _ A) Q)).
Qed.
Lemma E_live x y : E x y -> L x y.
Proof. intros A. destruct (Ldec x y) as [P|P]; [exact P|]. exfalso. apply (Lsound _ _ (or_introl A)), known_sound in P. exact (no_two E Ac _ _ A P). Qed.

Hypothesis CK : forall x y, K x y -> One x y.
Hypothesis C0 : forall x z y, vstruct D x z y -> ~ L z x.
Hypothesis C1 : forall x z y, One x z -> Two z y -> x <> y -> ~ adjacent E x y -> False.
Hypothesis C2 : forall x z y, One x z -> One z y -> Two x y -> False.
Hypothesis C3 : forall x y w z, One y z -> One w z -> y <> w -> ~ adjacent E y w -> Two x y -> Two x w -> Two x z -> False.
Hypothesis C4 : forall x y w z, One y w -> One w z -> y <> z -> ~ adjacent E y z -> Two x y -> Two x w -> Two x z -> False.

Lemma One_not_vs x z y : One x z -> One z y -> ~ vstruct D x z y.
Proof. intros A B V. apply One_known, known_sound in B. destruct V as (_ & V & _). exact (no_two E Ac _ _ B V). Qed.
Lemma R1 x z y : One x z -> adjacent E z y -> x <> y -> ~ adjacent E x y -> ~ vstruct D x z y -> One z y.
Proof.
  intros O A N NA NV. destruct (adj_cases z y A) as [H|[H|H]]; [exact H| |exfalso; exact (C1 _ _ _ O H N NA)].
  exfalso; apply NV. repeat split; auto; apply known_sound, One_known; assumption.
Qed.
Lemma R2 x z y : One x z -> One z y -> adjacent E x y -> One x y.
Proof.
  intros O1 O2 A. destruct (adj_cases x y A) as [H|[H|H]]; [exact H| |exfalso; exact (C2 _ _ _ O1 O2 H)].
  exfalso. apply One_known, known_sound in O1, O2, H. exact (no_three _ _ _ O1 O2 H).
Qed.
Lemma R3 x y w z : One y z -> One w z -> adjacent E x y -> adjacent E x w -> adjacent E x z -> y <> w -> ~ adjacent E y w -> ~ vstruct D y x w -> One x z.
Proof.
  intros O1 O2 A1 A2 A3 N NA NV. destruct (adj_cases x z A3) as [H|[H|H]]; [exact H| |].
  - exfalso. assert (T : E x z) by (apply known_sound; eapply (kn_3 D K x y w z); try assumption; apply One_known; assumption).
    apply One_known, known_sound in H. exact (no_two E Ac _ _ T H).
  - destruct (adj_cases x y A1) as [B|[B|B]].
    + exact (R2 _ _ _ B O1 A3).
    + assert (C := R1 _ _ _ B A2 N NA NV). exact (R2 _ _ _ C O2 A3).
    + destruct (adj_cases x w A2) as [C|[C|C]].
      * exact (R2 _ _ _ C O2 A3).
      * assert (F := R1 w x y C A1 (fun h => N (eq_sym h)) (fun h => NA (adjacent_sym _ _ _ h)) (fun h => NV (vstruct_sym _ _ _ h))). exact (R2 _ _ _ F O1 A3).
      * exfalso. exact (C3 _ _ _ _ O1 O2 N NA B C H).
Qed.
Lemma R4 x y w z : One y w -> One w z -> adjacent E x y -> adjacent E x w -> adjacent E x z -> y <> z -> ~ adjacent E y z -> ~ vstruct D y x z -> One x z.
Proof.
  intros O1 O2 A1 A2 A3 N NA NV.
  destruct (adj_cases x y A1) as [B|[B|B]].
  - assert (C := R2 _ _ _ B O1 A2). exact (R2 _ _ _ C O2 A3).
  - exact (R1 _ _ _ B A3 N NA NV).
  - destruct (adj_cases x w A2) as [C|[C|C]].
    + exact (R2 _ _ _ C O2 A3).
    + assert (F := R2 _ _ _ O1 C (adjacent_sym _ _ _ A1)). exact (R1 _ _ _ F A3 N NA NV).
    + destruct (adj_cases x z A3) as [H|[H|H]]; [exact H| |exfalso; exact (C4 _ _ _ _ O1 O2 N NA B C H)].
      exfalso. assert (T : E x z) by (apply known_sound; eapply (kn_4 D K x y w z); try assumption; apply One_known; assumption).
      apply One_known, known_sound in H. exact (no_two E Ac _ _ T H).
Qed.
Theorem known_One x y : known D K x y -> One x y.
Proof.
  induction 1 as [x y HK|x z y V|x z y _ IH A N NA NV|x z y _ IH1 _ IH2 A|x y w z _ IH1 _ IH2 A1 A2 A3 N NA NV|x y w z _ IH1 _ IH2 A1 A2 A3 N NA NV].
  - exact (CK _ _ HK).
  - split; [apply E_live, V|exact (C0 _ _ _ V)].
  - exact (R1 _ _ _ IH A N NA NV).
  - exact (R2 _ _ _ IH1 IH2 A).
  - exact (R3 _ _ _ _ IH1 IH2 A1 A2 A3 N NA NV).
  - exact (R4 _ _ _ _ IH1 IH2 A1 A2 A3 N NA NV).
Qed.
Theorem closed_pattern x y : L x y <-> adjacent E x y /\ ~ known D K y x.
Proof.
  split.
  - intros H. split; [apply Ladj; exact H|]. intros O. apply known_One in O. destruct O as [_ O]. exact (O H).
  - intros [A N]. destruct (Ldec x y) as [H|H]; [exact H|]. exfalso. exact (N (Lsound _ _ A H)).
Qed.
End O.
