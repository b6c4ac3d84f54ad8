(* Completeness of Meek's rules with known directions: every two-way edge is directed either way by some DAG with the same
   skeleton and v-structures and with the known directions. After CpdagFacts.v. *)
From Verif Require Import Base PyDict PyDictFacts Graph GraphSpec GraphFacts GraphInv GraphQ Rows Serve SkelFacts OrientMain Dag DagFacts SkelSpec OrientSpec OrientGraph OrientTop Chordal KnowSpec KnowGraph KnowTop PropsKnow ForcedSpec.
Open Scope list_scope.
Open Scope nat_scope.

Section Cpdag.
Variable D : list (id * id).
Hypothesis Ac : acyclic (edge_in D).
Variable g : graph.
Variable K : id -> id -> Prop.
Hypothesis KS : forall x y, K x y -> edge_in D x y.
Hypothesis KT : no_lone_side D K.
Hypothesis M : known_pattern D K g.
Notation E := (edge_in D).
Notation O := (one_way g).
Notation U := (two_way g).

Lemma km_one x y : O x y -> ~ ~ known D K x y.
Proof.
  unfold one_way, only_directed_edge_exists. rewrite andb_true_iff, negb_true_iff. intros [L N] H. apply M in L. assert (X : directed_edge_exists g y x = true) by (apply M; split; [apply adjacent_sym; tauto|exact H]). congruence.
Qed.
Lemma km_two x y : U x y -> adjacent E x y /\ ~ known D K x y /\ ~ known D K y x.
Proof. unfold two_way, undirected_edge_exists. rewrite andb_true_iff. intros [L1 L2]. apply M in L1, L2. tauto. Qed.
Lemma km_one_E x y : O x y -> E x y.
Proof. exact (kp_true D K g Ac KS M x y). Qed.
Lemma km_oriented x y : known D K x y -> O x y.
Proof. exact (kp_known D K g Ac KS M x y). Qed.
Lemma km_ee x y : edge_exists g x y = true <-> adjacent E x y.
Proof. exact (kp_adj D K g Ac KS M x y). Qed.
Lemma km_adj x y : adjacent E x y -> edge_exists g x y = true.
Proof. apply km_ee. Qed.
Lemma km_vs x z y : vstruct D x z y -> O x z /\ O y z /\ apart g x y.
Proof.
  intros V. split; [apply km_oriented, (kn_v D K x z y V)|]. split; [apply km_oriented, (kn_v D K y z x), vstruct_sym, V|]. unfold apart.
  destruct (edge_exists g x y) eqn:X; [|reflexivity]. apply km_ee in X. destruct V as (_ & _ & _ & NA). contradiction.
Qed.
Lemma km_no_vs x z y : U z y -> ~ vstruct D x z y.
Proof. intros T V. apply km_two in T. destruct T as (_ & _ & N). apply N. apply (kn_v D K y z x), vstruct_sym, V. Qed.

Lemma O_stable x y : ~ ~ O x y -> O x y.
Proof. unfold one_way. destruct (only_directed_edge_exists g x y); [reflexivity|]. intros H. destruct H. discriminate. Qed.
Lemma O_dec x y : {O x y} + {~ O x y}.
Proof. unfold one_way. destruct (only_directed_edge_exists g x y); [left; reflexivity|right; discriminate]. Qed.
Lemma U_dec x y : {U x y} + {~ U x y}.
Proof. unfold two_way. destruct (undirected_edge_exists g x y); [left; reflexivity|right; discriminate]. Qed.
Lemma U_sym x y : U x y -> U y x.
Proof. unfold two_way, undirected_edge_exists. rewrite andb_comm. auto. Qed.
Lemma O_adj x y : O x y -> adjacent E x y.
Proof. intros H. left. exact (km_one_E x y H). Qed.
Lemma U_adj x y : U x y -> adjacent E x y.
Proof. intros H. apply (km_two) in H. tauto. Qed.
Lemma adj_irr x : ~ adjacent E x x.
Proof. intros [H|H]; apply (Ac x); exists x; (split; [exact H|constructor]). Qed.
Lemma U_irr x : ~ U x x.
Proof. intros H. exact (adj_irr x (U_adj x x H)). Qed.
Lemma O_irr x : ~ O x x.
Proof. intros H. exact (adj_irr x (O_adj x x H)). Qed.
Lemma O_not_U x y : O x y -> ~ U x y.
Proof. unfold one_way, two_way, only_directed_edge_exists, undirected_edge_exists. destruct (directed_edge_exists g x y), (directed_edge_exists g y x); cbn; congruence. Qed.
Lemma O_asym x y : O x y -> ~ O y x.
Proof. unfold one_way, only_directed_edge_exists. destruct (directed_edge_exists g x y), (directed_edge_exists g y x); cbn; congruence. Qed.
Lemma adj_kind x y : adjacent E x y -> {O x y} + {O y x} + {U x y}.
Proof.
  intros A. assert (H := km_adj x y A). rewrite edge_exists_or in H. unfold one_way, two_way, only_directed_edge_exists, undirected_edge_exists.
  destruct (directed_edge_exists g x y), (directed_edge_exists g y x); cbn in *; auto; discriminate.
Qed.
Lemma adj_dec x y : {adjacent E x y} + {~ adjacent E x y}.
Proof. destruct (edge_exists g x y) eqn:X; [left; apply (km_ee); exact X|right; intros H; apply (km_ee) in H; congruence]. Qed.
Lemma U_no_vs x z y : U z y -> ~ vstruct D x z y.
Proof. exact (km_no_vs x z y). Qed.

(* the rules, for the arrows of the graph *)
Lemma r1 x z y : O x z -> adjacent E z y -> x <> y -> ~ adjacent E x y -> ~ vstruct D x z y -> O z y.
Proof. intros H1 A Ne NA NV. apply O_stable. intros Kc. apply (km_one x z H1). intros H. apply Kc, km_oriented. exact (kn_1 D K x z y H A Ne NA NV). Qed.
Lemma r2 x z y : O x z -> O z y -> adjacent E x y -> O x y.
Proof. intros H1 H2 A. apply O_stable. intros Kc. apply (km_one x z H1). intros X1. apply (km_one z y H2). intros X2. apply Kc, km_oriented. exact (kn_2 D K x z y X1 X2 A). Qed.
Lemma r3 x y w z : O y z -> O w z -> adjacent E x y -> adjacent E x w -> adjacent E x z -> y <> w -> ~ adjacent E y w -> ~ vstruct D y x w -> O x z.
Proof.
  intros H1 H2 A1 A2 A3 Ne NA NV. apply O_stable. intros Kc. apply (km_one y z H1). intros X1. apply (km_one w z H2). intros X2. apply Kc, km_oriented.
  exact (kn_3 D K x y w z X1 X2 A1 A2 A3 Ne NA NV).
Qed.
Lemma r4 x y w z : O y w -> O w z -> adjacent E x y -> adjacent E x w -> adjacent E x z -> y <> z -> ~ adjacent E y z -> ~ vstruct D y x z -> O x z.
Proof.
  intros H1 H2 A1 A2 A3 Ne NA NV. apply O_stable. intros Kc. apply (km_one y w H1). intros X1. apply (km_one w z H2). intros X2. apply Kc, km_oriented.
  exact (kn_4 D K x y w z X1 X2 A1 A2 A3 Ne NA NV).
Qed.
Lemma asym x y : adjacent E x y -> adjacent E y x.
Proof. apply adjacent_sym. Qed.

(* an arrow into a two-way edge: no rule made it from a triangle with two two-way sides *)
Lemma apex d b c : O d b -> U b c -> d <> c /\ adjacent E d c /\ ~ O c d.
Proof.
  intros Odb Ubc. assert (Ne : d <> c) by (intros ->; exact (O_not_U _ _ Odb (U_sym _ _ Ubc))). split; [exact Ne|].
  assert (A : adjacent E d c).
  { destruct (adj_dec d c) as [A|A]; [exact A|]. exfalso. assert (X := r1 d b c Odb (U_adj _ _ Ubc) Ne A (U_no_vs d b c Ubc)). exact (O_not_U _ _ X Ubc). }
  split; [exact A|]. intros Ocd. assert (X := r2 c d b Ocd Odb (asym _ _ (U_adj _ _ Ubc))). exact (O_not_U _ _ X (U_sym _ _ Ubc)).
Qed.
Lemma no_triangle a b : known D K a b -> forall c, U b c -> U a c -> False.
Proof.
  intros H. induction H as [x y H|x z y V|x z y H IH A Ne NA NV|x z y H1 IH1 H2 IH2 A|x y w z H1 IH1 H2 IH2 A1 A2 A3 Ne NA NV|x y w z H1 IH1 H2 IH2 A1 A2 A3 Ne NA NV]; intros c Ubc Uac.
  - destruct (km_two _ _ Ubc) as (Abc & B1 & B2). destruct (km_two _ _ Uac) as (Aac & A1 & A2). destruct (KT x y c H Aac Abc) as [X|[X|[X|X]]]; [apply A1|apply A2|apply B1|apply B2]; apply kn_told; exact X.
  - destruct (km_vs x z y V) as (Oxz & Oyz & _). destruct V as (_ & _ & Nxy & NAxy). destruct (apex y z c Oyz Ubc) as (Nyc & Ayc & NO). destruct (adj_kind y c Ayc) as [[Oyc|Ocy]|Uyc]; [|contradiction|].
    + assert (X := r1 y c x Oyc (asym _ _ (U_adj _ _ Uac)) (fun h => Nxy (eq_sym h)) (fun h => NAxy (asym _ _ h)) (U_no_vs y c x (U_sym _ _ Uac))). exact (O_not_U _ _ X (U_sym _ _ Uac)).
    + assert (X := r3 c x y z Oxz Oyz (asym _ _ (U_adj _ _ Uac)) (asym _ _ Ayc) (asym _ _ (U_adj _ _ Ubc)) Nxy NAxy (U_no_vs x c y (U_sym _ _ Uyc))). exact (O_not_U _ _ X (U_sym _ _ Ubc)).
  - assert (Oxz := km_oriented x z H). destruct (apex x z c Oxz Uac) as (Nxc & Axc & NO). destruct (adj_kind x c Axc) as [[Oxc|Ocx]|Uxc]; [|contradiction|exact (IH c Uac Uxc)].
    assert (X := r1 x c y Oxc (asym _ _ (U_adj _ _ Ubc)) Ne NA (U_no_vs x c y (U_sym _ _ Ubc))). exact (O_not_U _ _ X (U_sym _ _ Ubc)).
  - assert (Oxz := km_oriented x z H1). assert (Ozy := km_oriented z y H2). destruct (apex z y c Ozy Ubc) as (Nzc & Azc & NO). destruct (adj_kind z c Azc) as [[Ozc|Ocz]|Uzc]; [|contradiction|exact (IH2 c Ubc Uzc)].
    exact (O_not_U _ _ (r2 x z c Oxz Ozc (U_adj _ _ Uac)) Uac).
  - assert (Oyz := km_oriented y z H1). assert (Owz := km_oriented w z H2).
    destruct (apex y z c Oyz Ubc) as (Nyc & Ayc & NO1). destruct (adj_kind y c Ayc) as [[Oyc|Ocy]|Uyc]; [|contradiction|exact (IH1 c Ubc Uyc)].
    destruct (apex w z c Owz Ubc) as (Nwc & Awc & NO2). destruct (adj_kind w c Awc) as [[Owc|Ocw]|Uwc]; [|contradiction|exact (IH2 c Ubc Uwc)].
    exact (O_not_U _ _ (r3 x y w c Oyc Owc A1 A2 (U_adj _ _ Uac) Ne NA NV) Uac).
  - assert (Oyw := km_oriented y w H1). assert (Owz := km_oriented w z H2).
    destruct (apex w z c Owz Ubc) as (Nwc & Awc & NO). destruct (adj_kind w c Awc) as [[Owc|Ocw]|Uwc]; [|contradiction|exact (IH2 c Ubc Uwc)].
    assert (Nyc : y <> c) by (intros ->; apply NA, asym, U_adj; exact Ubc).
    destruct (adj_dec y c) as [Ayc|Ayc].
    + assert (Oyc := r2 y w c Oyw Owc Ayc). assert (X := r1 y c z Oyc (asym _ _ (U_adj _ _ Ubc)) Ne NA (U_no_vs y c z (U_sym _ _ Ubc))). exact (O_not_U _ _ X (U_sym _ _ Ubc)).
    + exact (O_not_U _ _ (r4 x y w c Oyw Owc A1 A2 (U_adj _ _ Uac) Nyc Ayc (U_no_vs y x c Uac)) Uac).
Qed.
(* vertices joined by two-way edges have the same arrows coming in *)
Lemma same_parents a b c : O a b -> U b c -> O a c.
Proof.
  intros Oab Ubc. destruct (apex a b c Oab Ubc) as (Nac & Aac & NO). destruct (adj_kind a c Aac) as [[X|X]|X]; [exact X|contradiction|]. exfalso.
  apply (km_one a b Oab). intros H. exact (no_triangle a b H c Ubc X).
Qed.

(* the two-way edges have a perfect elimination order *)
Lemma edge_dec' x y : {E x y} + {~ E x y}.
Proof. apply in_dec. decide equality; apply string_dec. Qed.
Lemma U_perfect : forall n l, List.length l = n -> NoDup l -> exists m, NoDup m /\ perfect U m /\ (forall x, In x m <-> In x l).
Proof.
  induction n as [|n IH]; intros l L ND; [destruct l; [|discriminate]; exists []; split; [constructor|split; [exact I|reflexivity]]|].
  destruct (sink_exists E edge_dec' l Ac ltac:(intros ->; discriminate)) as (v & Hv & Sv). assert (RL := rm_length v l ND Hv).
  destruct (IH (rm v l) ltac:(lia) (rm_NoDup v l ND)) as (m & M1 & M2 & M3). exists (v :: m). split; [constructor; [rewrite M3, rm_In; tauto|exact M1]|]. split; [split; [|exact M2]|].
  - intros x y Hx Hy Ux Uy Ne. apply M3, rm_In in Hx. apply M3, rm_In in Hy.
    assert (Ex : E x v) by (destruct (U_adj _ _ Ux) as [X|X]; [destruct (Sv x (proj1 Hx) X)|exact X]).
    assert (Ey : E y v) by (destruct (U_adj _ _ Uy) as [X|X]; [destruct (Sv y (proj1 Hy) X)|exact X]).
    destruct (adj_dec x y) as [A|A]; [|exfalso; exact (U_no_vs y v x Ux (vstruct_sym D x v y (conj Ex (conj Ey (conj Ne A)))))].
    destruct (adj_kind x y A) as [[X|X]|X]; [| |exact X]; exfalso.
    + exact (O_not_U _ _ (same_parents x y v X (U_sym _ _ Uy)) (U_sym _ _ Ux)).
    + exact (O_not_U _ _ (same_parents y x v X (U_sym _ _ Ux)) (U_sym _ _ Uy)).
  - intros x. cbn. rewrite M3, rm_In. split; [intros [->|[? _]]; assumption|]. intros Hx. destruct (string_dec v x); [left; assumption|right; split; [exact Hx|congruence]].
Qed.

(* directing the two-way edges along a perfect order *)
Section Dir.
Variable ns : list id.
Hypothesis NS : forall x y, In (x, y) D -> In x ns /\ In y ns.
Variable l : list id.
Hypothesis NDl : NoDup l.
Hypothesis Pl : perfect U l.
Hypothesis Il : forall x, In x l <-> In x ns.
Definition directed : list (id * id) :=
  filter (fun p => only_directed_edge_exists g (fst p) (snd p) || (undirected_edge_exists g (fst p) (snd p) && Nat.ltb (pos l (snd p)) (pos l (fst p)))) (list_prod ns ns).
Lemma adj_ns x y : adjacent E x y -> In x ns /\ In y ns.
Proof. intros [H|H]; apply NS in H; tauto. Qed.
Lemma directed_In x y : edge_in directed x y <-> O x y \/ (U x y /\ pos l y < pos l x).
Proof.
  unfold edge_in, directed. rewrite filter_In, in_prod_iff. cbn [fst snd]. rewrite orb_true_iff, andb_true_iff, Nat.ltb_lt. split; [tauto|]. intros H. split; [|exact H].
  apply adj_ns. destruct H as [H|[H _]]; [apply O_adj|apply U_adj]; exact H.
Qed.
Lemma directed_adj x y : adjacent E x y <-> adjacent (edge_in directed) x y.
Proof.
  unfold adjacent at 2. rewrite !directed_In. split.
  - intros A. destruct (adj_kind x y A) as [[X|X]|X]; [auto|auto|]. assert (I := adj_ns x y A). destruct (lt_eq_lt_dec (pos l x) (pos l y)) as [[L|L]|L]; [right; right; split; [apply U_sym; exact X|exact L]| |left; right; auto].
    exfalso. apply pos_inj in L; [|apply Il; tauto|apply Il; tauto]. subst y. exact (U_irr x X).
  - intros [[H|[H _]]|[H|[H _]]]; [apply O_adj|apply U_adj|apply asym, O_adj|apply asym, U_adj]; exact H.
Qed.
Lemma directed_vs x z y : vstruct D x z y <-> vstruct directed x z y.
Proof.
  split.
  - intros V. destruct (km_vs x z y V) as (A & B & _). destruct V as (_ & _ & Ne & NA). split; [apply directed_In; left; exact A|]. split; [apply directed_In; left; exact B|]. split; [exact Ne|]. intros H. apply NA, directed_adj; exact H.
  - intros (A & B & Ne & NA). assert (NA' : ~ adjacent E x y) by (intros H; apply NA, directed_adj; exact H). apply directed_In in A. apply directed_In in B.
    destruct A as [A|[A PA]], B as [B|[B PB]].
    + split; [exact (km_one_E x z A)|]. split; [exact (km_one_E y z B)|auto].
    + exfalso. apply NA', O_adj, (same_parents x z y A), U_sym, B.
    + exfalso. apply NA', asym, O_adj, (same_parents y z x B), U_sym, A.
    + exfalso. apply NA', U_adj. assert (IA := adj_ns _ _ (U_adj _ _ A)). assert (IB := adj_ns _ _ (U_adj _ _ B)).
      apply (perfect_pos U l z x y NDl Pl); try (apply Il; tauto); try assumption; apply U_sym; assumption.
Qed.
Inductive Oplus : id -> id -> Prop :=
| op_one : forall x y, O x y -> Oplus x y
| op_more : forall x y z, Oplus x y -> O y z -> Oplus x z.
Inductive Upath : id -> id -> Prop :=
| up_refl : forall x, Upath x x
| up_more : forall x y z, Upath x y -> U y z -> Upath x z.
Lemma Oplus_U x y z : Oplus x y -> U y z -> Oplus x z.
Proof. intros H Uy. destruct H as [x y H0|x y w H1 H2]; [apply op_one; eapply same_parents; eassumption|apply (op_more x y); [exact H1|eapply same_parents; eassumption]]. Qed.
Lemma Oplus_Us x y z : Oplus x y -> Upath y z -> Oplus x z.
Proof. intros H P. induction P as [x0|x0 y0 z0 P IH Uyz]; [exact H|]. eapply Oplus_U; [apply IH; exact H|exact Uyz]. Qed.
Lemma reach_last (R : id -> id -> Prop) x y z : reach R x y -> R y z -> reach R x z.
Proof. intros H. induction H as [x|x a y A H IH]; intros Kr; [econstructor; [exact Kr|constructor]|econstructor; [exact A|apply IH; exact Kr]]. Qed.
Lemma Oplus_reach x y : Oplus x y -> reach_plus E x y.
Proof.
  induction 1 as [x y H|x y z _ IH H2]; [exists y; split; [exact (km_one_E x y H)|constructor]|]. destruct IH as (w & A & B). exists w. split; [exact A|].
  eapply reach_last; [exact B|exact (km_one_E y z H2)].
Qed.
Lemma walk x y z : edge_in directed x y -> reach (edge_in directed) y z -> (Upath x z /\ pos l z < pos l x) \/ exists s, Upath x s /\ Oplus s z.
Proof.
  intros H R. assert (Kw : (Upath x y /\ pos l y < pos l x) \/ exists s, Upath x s /\ Oplus s y).
  { apply directed_In in H. destruct H as [H|[H P]]; [right; exists x; split; [constructor|apply op_one; exact H]|left; split; [apply (up_more x x); [constructor|exact H]|exact P]]. }
  clear H. revert Kw. induction R as [y|y a z A R IH]; intros Kw; [exact Kw|]. apply IH. apply directed_In in A. destruct Kw as [[K1 K2]|(s & K1 & K2)], A as [A|[A P]].
  - right. exists y. split; [exact K1|apply op_one; exact A].
  - left. split; [eapply up_more; eassumption|lia].
  - right. exists s. split; [exact K1|eapply op_more; eassumption].
  - right. exists s. split; [exact K1|eapply Oplus_U; eassumption].
Qed.
Lemma directed_acyclic : acyclic (edge_in directed).
Proof.
  intros x (y & H & R). destruct (walk x y x H R) as [[_ P]|(s & P & Q)]; [lia|]. apply (Ac s). apply Oplus_reach. eapply Oplus_Us; eassumption.
Qed.
Lemma directed_dag : dag_over ns directed /\ equivalent D directed.
Proof.
  split; [|split; [exact directed_adj|exact directed_vs]]. split; [|exact directed_acyclic]. intros x y H. apply filter_In in H. destruct H as [H _]. apply in_prod_iff in H. exact H.
Qed.
End Dir.

Lemma known_choice ns a b : NoDup ns -> dag_over ns D -> two_way g a b -> exists D', dag_over ns D' /\ fits D K D' /\ edge_in D' a b.
Proof.
  intros ND [NS _] T. assert (Aab := U_adj a b T). assert (I := adj_ns ns NS a b Aab).
  destruct (U_perfect (List.length ns) ns eq_refl ND) as (m & M1 & M2 & M3).
  destruct (reroot (two_way g) U_sym U_dec U_irr (List.length m) m a eq_refl M1 M2 (proj2 (M3 a) (proj1 I))) as (q & Q1 & Q2 & Q3 & _).
  assert (Il : forall x, In x (q ++ [a]) <-> In x ns) by (intros x; rewrite Q3; apply M3).
  destruct (directed_dag ns NS (q ++ [a]) Q1 Q2 Il) as [X Y]. exists (directed ns (q ++ [a])). split; [exact X|]. split; [split; [exact Y|]|].
  { intros x y H. apply (directed_In ns NS). left. apply km_oriented, kn_told, H. }
  apply (directed_In ns NS). right. split; [exact T|]. assert (Na : ~ In a q) by (intros H; apply (NoDup_remove_2 q [] a) in Q1; apply Q1; rewrite app_nil_r; exact H).
  rewrite (pos_last q a Na). assert (P := pos_lt (q ++ [a]) b (proj2 (Il b) (proj2 I))). rewrite app_length in P. cbn in P.
  destruct (Nat.eq_dec (pos (q ++ [a]) b) (List.length q)) as [Eq|Nq]; [|lia]. exfalso. rewrite <- (pos_last q a Na) in Eq. apply pos_inj in Eq; [|apply Il; tauto|apply Il; tauto]. subst b. exact (U_irr a T).
Qed.
End Cpdag.
