(* Meek's first three rules are enough: on a graph that shows the v-structures of a DAG, every arrow that the fourth
   rule would draw follows from the others. *)
From Verif Require Import Base PyDict Graph Dag DagFacts DagSep SkelSpec OrientSpec OrientGraph.

Section Three.
Variable D : list (id * id).
Notation E := (edge_in D).
Hypothesis Ac : acyclic E.
Variable L : id -> id -> Prop.
Hypothesis Ldec : forall x y, L x y \/ ~ L x y.
Hypothesis Ladj : forall x y, L x y -> adjacent E x y.
Hypothesis Lsound : forall x y, adjacent E x y -> ~ L x y -> oriented D y x.
Hypothesis C0 : forall x z y, vstruct D x z y -> ~ L z x.
Hypothesis C1 : forall x z y, One L x z -> Two L z y -> x <> y -> ~ adjacent E x y -> False.
Hypothesis C2 : forall x z y, One L x z -> One L z y -> Two L x y -> False.
Hypothesis C3 : forall x y w z, One L y z -> One L w z -> y <> w -> ~ adjacent E y w -> Two L x y -> Two L x w -> Two L x z -> False.
Notation One := (One L).
Notation Two := (Two L).

Lemma one_E x y : One x y -> E x y.
Proof. intros H. apply (oriented_sound D Ac), (One_oriented D L Ladj Lsound), H. Qed.
Lemma cases x y : adjacent E x y -> One x y \/ One y x \/ Two x y.
Proof. exact (adj_cases D Ac L Ldec Lsound x y). Qed.
Lemma two_sym x y : Two x y -> Two y x.
Proof. intros [A B]. split; assumption. Qed.
Lemma two_adj x y : Two x y -> adjacent E x y.
Proof. intros [A _]. exact (Ladj _ _ A). Qed.
Lemma one_adj x y : One x y -> adjacent E x y.
Proof. intros [A _]. exact (Ladj _ _ A). Qed.
Lemma one_ne x y : One x y -> x <> y.
Proof. intros [A B] ->. exact (B A). Qed.
(* an arrow into an end of an undirected edge comes from a neighbour of the other end *)
Lemma into_two a b c : One a b -> Two b c -> One a c \/ Two a c.
Proof.
  intros O T. assert (N : a <> c) by (intros ->; destruct O as [_ O]; exact (O (proj1 T))).
  destruct (adjacent_dec D a c) as [A|A]; [|destruct (C1 a b c O T N A)].
  destruct (cases a c A) as [H|[H|H]]; [auto| |auto]. exfalso. exact (C2 c a b H O (two_sym _ _ T)).
Qed.
Lemma chain x z y : One x z -> One z y -> adjacent E x y -> One x y.
Proof.
  intros O1 O2 A. destruct (cases x y A) as [H|[H|H]]; [exact H| |destruct (C2 x z y O1 O2 H)].
  exfalso. exact (no_three D Ac _ _ _ (one_E _ _ O1) (one_E _ _ O2) (one_E _ _ H)).
Qed.
Definition drawn a b : Prop := One a b /\ forall c, Two b c -> One a c.
Theorem three_drawn x y : oriented D x y -> drawn x y.
Proof.
  induction 1 as [x z y V|x z y _ [O IH] A N NA NV|x z y _ [O1 IH1] _ [O2 IH2] A|x y w z _ [O1 IH1] _ [O2 IH2] A1 A2 A3 N NA NV|x y w z _ [O1 IH1] _ [O2 IH2] A1 A2 A3 N NA NV].
  - assert (Ox : One x z) by (split; [apply (E_live D Ac L Ldec Lsound), V|exact (C0 _ _ _ V)]).
    assert (V' := vstruct_sym D _ _ _ V). assert (Oy : One y z) by (split; [apply (E_live D Ac L Ldec Lsound), V'|exact (C0 _ _ _ V')]).
    destruct V as (_ & _ & Ne & NA). split; [exact Ox|]. intros c T. destruct (into_two x z c Ox T) as [H|H]; [exact H|]. exfalso.
    destruct (into_two y z c Oy T) as [K|K].
    + apply (C1 y c x K (two_sym _ _ H)); [congruence|intros B; apply NA, adjacent_sym, B].
    + exact (C3 c x y z Ox Oy Ne NA (two_sym _ _ H) (two_sym _ _ K) (two_sym _ _ T)).
  - assert (Oz : One z y).
    { destruct (cases z y A) as [H|[H|H]]; [exact H| |destruct (C1 x z y O H N NA)]. exfalso. apply NV. split; [apply one_E; exact O|]. split; [apply one_E; exact H|auto]. }
    split; [exact Oz|]. intros c T. destruct (into_two z y c Oz T) as [H|H]; [exact H|]. exfalso.
    exact (C1 x c y (IH c H) (two_sym _ _ T) N NA).
  - assert (O : One x y) by (exact (chain x z y O1 O2 A)). split; [exact O|]. intros c T. destruct (into_two x y c O T) as [H|H]; [exact H|]. exfalso.
    exact (C2 x z c O1 (IH2 c T) H).
  - assert (NV' : One y x -> One w x -> False) by (intros H K; apply NV; split; [apply one_E; exact H|]; split; [apply one_E; exact K|auto]).
    assert (O : One x z).
    { destruct (cases x z A3) as [H|[H|H]]; [exact H| |]; exfalso; apply NV'.
      - exact (chain y z x O1 H (adjacent_sym _ _ _ A1)).
      - exact (chain w z x O2 H (adjacent_sym _ _ _ A2)).
      - exact (IH1 x (two_sym _ _ H)).
      - exact (IH2 x (two_sym _ _ H)). }
    split; [exact O|]. intros c T. assert (Oy := IH1 c T). assert (Ow := IH2 c T). destruct (into_two x z c O T) as [H|H]; [exact H|]. exfalso.
    destruct (cases x y A1) as [B|[B|B]].
    + exact (C2 x y c B Oy H).
    + destruct (cases x w A2) as [C|[C|C]]; [exact (C2 x w c C Ow H)|exact (NV' B C)|exact (C1 y x w B C N NA)].
    + destruct (cases x w A2) as [C|[C|C]]; [exact (C2 x w c C Ow H)| |exact (C3 x y w c Oy Ow N NA B C H)].
      apply (C1 w x y C B); [congruence|intros K; apply NA, adjacent_sym, K].
  - assert (NV' : One y x -> One z x -> False) by (intros H K; apply NV; split; [apply one_E; exact H|]; split; [apply one_E; exact K|auto]).
    assert (NA' : ~ adjacent E z y) by (intros K; apply NA, adjacent_sym, K).
    assert (Yx : One w x -> One y x) by (intros H; exact (chain y w x O1 H (adjacent_sym _ _ _ A1))).
    assert (O : One x z).
    { destruct (cases x z A3) as [H|[H|H]]; [exact H| |]; exfalso.
      - assert (Wx : One w x) by (exact (chain w z x O2 H (adjacent_sym _ _ _ A2))). exact (NV' (Yx Wx) H).
      - assert (Wx := IH2 x (two_sym _ _ H)). exact (C1 y x z (Yx Wx) H N NA). }
    split; [exact O|]. intros c T. assert (Ow := IH2 c T). destruct (into_two x z c O T) as [H|H]; [exact H|]. exfalso.
    assert (B : One y x).
    { destruct (cases x w A2) as [C|[C|C]]; [destruct (C2 x w c C Ow H)|exact (Yx C)|exact (IH1 x (two_sym _ _ C))]. }
    destruct (into_two y x c B H) as [K|K]; [|exact (C2 y w c O1 Ow K)]. exact (C1 y c z K (two_sym _ _ T) N NA).
Qed.
Theorem closed_three x y : L x y <-> adjacent E x y /\ ~ oriented D y x.
Proof.
  split.
  - intros H. split; [apply Ladj; exact H|]. intros O. apply three_drawn in O. destruct O as [[_ O] _]. exact (O H).
  - intros [A N]. destruct (Ldec x y) as [H|H]; [exact H|]. exfalso. exact (N (Lsound _ _ A H)).
Qed.
End Three.
