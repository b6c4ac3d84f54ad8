(* Two DAGs over the same variables have the same d-separations exactly when they have the same adjacencies
   and the same v-structures. *)
From Verif Require Import Base Graph Dag DagFacts DagSep SkelSpec OrientSpec Chordal Ball Covered MarkovSpec.
Open Scope list_scope.
Open Scope nat_scope.

Definition arrow_dec (D : list (id * id)) (x y : id) : {edge_in D x y} + {~ edge_in D x y} := in_dec (fun p q : id * id => ltac:(decide equality; apply string_dec)) (x, y) D.

(* ---- topological rank ---- *)
Lemma topo (E : id -> id -> Prop) (dec : forall x y, {E x y} + {~ E x y}) : acyclic E ->
  forall n l, List.length l <= n -> exists rank, (forall z, In z l -> rank z < n) /\ forall a b, In a l -> In b l -> E a b -> rank a < rank b.
Proof.
  intros Ac. induction n as [|n IH]; intros l L.
  - destruct l; [|cbn in L; lia]. exists (fun _ => 0). split; [intros ? []|intros ? ? []].
  - destruct l as [|l0 l']; [exists (fun _ => 0); split; [intros ? []|intros ? ? []]|]. remember (l0 :: l') as l eqn:El. destruct (sink_exists E dec l Ac ltac:(subst; discriminate)) as (v & Hv & Sv).
    destruct (IH (rm v l)) as (rk & R1 & R2).
    { assert (H : forall m, In v m -> List.length (rm v m) < List.length m).
      { assert (K : forall m, List.length (rm v m) <= List.length m) by (intros m; induction m as [|a m IHm]; cbn; [lia|]; destruct (string_dec a v); cbn; unfold rm in IHm; lia).
        intros m. induction m as [|a m IHm]; intros Hm; [destruct Hm|]. cbn. specialize (K m). unfold rm in *. destruct (string_dec a v) as [Ea|Na]; cbn; [lia|]. destruct Hm as [Ea|Hm]; [congruence|]. specialize (IHm Hm). lia. }
      specialize (H l Hv). lia. }
    exists (fun z => if string_dec z v then n else rk z). split.
    + intros z Hz. destruct (string_dec z v); [lia|]. assert (Q : In z (rm v l)) by (apply rm_In; auto). specialize (R1 z Q). lia.
    + intros a b Ha Hb Eab. destruct (string_dec a v) as [->|Na]; [destruct (Sv b Hb Eab)|]. destruct (string_dec b v) as [->|Nb].
      * apply R1. apply rm_In; auto.
      * apply R2; auto; apply rm_In; auto.
Qed.
Lemma arg_min {A} (f : A -> nat) (l : list A) : l <> [] -> exists m, In m l /\ forall a, In a l -> f m <= f a.
Proof.
  induction l as [|a l IH]; [congruence|]. intros _. destruct l as [|b l]; [exists a; split; [left; reflexivity|intros ? [<-|[]]; lia]|].
  destruct IH as (m & Hm & Lm); [discriminate|]. destruct (le_lt_dec (f a) (f m)).
  - exists a. split; [left; reflexivity|]. intros c [<-|Hc]; [lia|]. specialize (Lm c Hc). lia.
  - exists m. split; [right; exact Hm|]. intros c [<-|Hc]; [lia|]. exact (Lm c Hc).
Qed.
Lemma arg_max {A} (f : A -> nat) (l : list A) : l <> [] -> exists m, In m l /\ forall a, In a l -> f a <= f m.
Proof.
  induction l as [|a l IH]; [congruence|]. intros _. destruct l as [|b l]; [exists a; split; [left; reflexivity|intros ? [<-|[]]; lia]|].
  destruct IH as (m & Hm & Lm); [discriminate|]. destruct (le_lt_dec (f m) (f a)).
  - exists a. split; [left; reflexivity|]. intros c [<-|Hc]; [lia|]. specialize (Lm c Hc). lia.
  - exists m. split; [right; exact Hm|]. intros c [<-|Hc]; [lia|]. exact (Lm c Hc).
Qed.

(* ---- the arrows of D that D' draws the other way round ---- *)
Definition against (D D' : list (id * id)) : list (id * id) := filter (fun p => if arrow_dec D' (snd p) (fst p) then true else false) D.
Lemma against_In D D' x y : In (x, y) (against D D') <-> edge_in D x y /\ edge_in D' y x.
Proof. unfold against. rewrite filter_In. cbn [fst snd]. destruct (arrow_dec D' y x); unfold edge_in; intuition discriminate. Qed.

Section Step.
Variable ns : list id.
Variables D D' : list (id * id).
Hypothesis G : dag_over ns D.
Hypothesis G' : dag_over ns D'.
Hypothesis Q : equivalent D D'.
Notation E := (edge_in D).
Notation E2 := (edge_in D').
Lemma same_way a b : E a b -> ~ E2 b a -> E2 a b.
Proof. intros H N. destruct (proj1 (proj1 Q a b) (or_introl H)) as [K|K]; [exact K|contradiction]. Qed.
Lemma covered_exists : against D D' <> [] -> exists x y, E x y /\ E2 y x /\ forall z, E z y <-> E z x \/ z = x.
Proof.
  intros NE. assert (Ac := do_acyclic _ _ G). assert (Ac' := do_acyclic _ _ G').
  destruct (topo E (arrow_dec D) Ac _ ns (le_n _)) as (rk & _ & RK0).
  assert (RK : forall a b, E a b -> rk a < rk b) by (intros a b H; destruct (do_nodes _ _ G a b H); auto).
  destruct (arg_min (fun p => rk (snd p)) (against D D') NE) as ((x0 & y) & H0 & My). cbn [snd] in My. apply against_In in H0.
  assert (Ny : filter (fun p => if string_dec (snd p) y then true else false) (against D D') <> []).
  { intros X. assert (Y : In (x0, y) (filter (fun p => if string_dec (snd p) y then true else false) (against D D'))) by (apply filter_In; split; [apply against_In; exact H0|cbn [snd]; destruct (string_dec y y) as [|N]; [reflexivity|destruct (N eq_refl)]]). rewrite X in Y. exact Y. }
  destruct (arg_max (fun p => rk (fst p)) _ Ny) as ((x & y') & Hx & Mx). apply filter_In in Hx. destruct Hx as [Hx Hy]. cbn [snd fst] in *. destruct (string_dec y' y) as [->|]; [|discriminate].
  apply against_In in Hx. destruct Hx as [Exy Fyx].
  assert (MIN : forall a b, E a b -> E2 b a -> rk y <= rk b) by (intros a b A B; apply (My (a, b)); apply against_In; auto).
  assert (MAX : forall a, E a y -> E2 y a -> rk a <= rk x).
  { intros a A B. apply (Mx (a, y)). apply filter_In. split; [apply against_In; auto|cbn [snd]; destruct (string_dec y y) as [|N]; [reflexivity|destruct (N eq_refl)]]. }
  exists x, y. split; [exact Exy|]. split; [exact Fyx|]. intros z.
  assert (FWD : E z x -> E z y).
  { intros Ezx. assert (Nzy : z <> y) by (intros ->; exact (no_two E Ac _ _ Exy Ezx)).
    assert (Fzx : E2 z x). { apply same_way; [exact Ezx|]. intros Fxz. specialize (MIN z x Ezx Fxz). specialize (RK x y Exy). lia. }
    destruct (arrow_dec D z y) as [K|K]; [exact K|]. exfalso. destruct (arrow_dec D y z) as [L|L].
    - assert (R1 := RK _ _ Ezx). assert (R2 := RK _ _ L). assert (R3 := RK _ _ Exy). lia.
    - (* z -> x <- y would be a v-structure of D' *)
      assert (VS : vstruct D' z x y). { split; [exact Fzx|split; [exact Fyx|split; [exact Nzy|]]]. intros A. apply (proj1 Q z y) in A. destruct A; contradiction. }
      apply (proj2 Q) in VS. destruct VS as (_ & V & _). exact (no_two E Ac _ _ Exy V). }
  split; [|intros [H|H]; [exact (FWD H)|subst z; exact Exy]].
  intros Ezy. destruct (string_dec z x) as [->|Nzx]; [auto|]. left. destruct (arrow_dec D z x) as [K|K]; [exact K|]. exfalso.
  destruct (arrow_dec D x z) as [L|L].
  - (* x -> z -> y *)
    destruct (arrow_dec D' y z) as [M|M].
    + specialize (MAX z Ezy M). specialize (RK x z L). lia.
    + assert (Fzy := same_way z y Ezy M). destruct (arrow_dec D' z x) as [P|P].
      * specialize (MIN x z L P). specialize (RK z y Ezy). lia.
      * assert (Fxz := same_way x z L P). apply (no_cycle E2 Ac' y x Fyx). econstructor; [exact Fxz|]. econstructor; [exact Fzy|constructor].
  - assert (VS : vstruct D z y x) by (split; [exact Ezy|split; [exact Exy|split; [exact Nzx|intros [A|A]; contradiction]]]).
    apply (proj2 Q) in VS. destruct VS as (_ & V & _). exact (no_two E2 Ac' _ _ Fyx V).
Qed.
End Step.

Definition flip (D : list (id * id)) (x y : id) : list (id * id) := (y, x) :: filter (fun p => if string_dec (fst p) x then if string_dec (snd p) y then false else true else true) D.
Lemma flip_In D x y a b : edge_in (flip D x y) a b <-> (a = y /\ b = x) \/ (edge_in D a b /\ ~ (a = x /\ b = y)).
Proof.
  unfold flip, edge_in. cbn [In]. rewrite filter_In. cbn [fst snd].
  assert (K : (if string_dec a x then if string_dec b y then false else true else true) = true <-> ~ (a = x /\ b = y)) by (destruct (string_dec a x); [destruct (string_dec b y)|]; intuition congruence).
  rewrite K. split; (intros [X|X]; [left|right; exact X]); [injection X as -> ->; auto|destruct X as [-> ->]; reflexivity].
Qed.
Lemma filter_less {A} (f k : A -> bool) l a : In a l -> f a = true -> k a = false -> List.length (filter f (filter k l)) < List.length (filter f l).
Proof.
  assert (LE : forall m, List.length (filter f (filter k m)) <= List.length (filter f m)).
  { induction m as [|b m IH]; cbn; [lia|]. destruct (k b); cbn; destruct (f b); cbn; lia. }
  intros H F K. induction l as [|b l IH]; [destruct H|]. cbn. destruct H as [->|H].
  - rewrite K, F. cbn. specialize (LE l). lia.
  - specialize (IH H). destruct (k b); cbn; destruct (f b); cbn; lia.
Qed.
Lemma against_flip D D' x y : edge_in D x y -> edge_in D' y x -> ~ edge_in D' x y -> List.length (against (flip D x y) D') < List.length (against D D').
Proof.
  intros H1 H2 N. unfold flip, against. cbn [filter fst snd]. destruct (arrow_dec D' x y) as [X|_]; [contradiction|].
  apply (filter_less _ _ D (x, y) H1); cbn [fst snd].
  - destruct (arrow_dec D' y x); [reflexivity|contradiction].
  - destruct (string_dec x x) as [|M]; [|destruct (M eq_refl)]; destruct (string_dec y y) as [|M]; [reflexivity|destruct (M eq_refl)].
Qed.
Lemma flip_equiv ns D x y : dag_over ns D -> edge_in D x y -> (forall z, edge_in D z y <-> edge_in D z x \/ z = x) -> dag_over ns (flip D x y) /\ equivalent D (flip D x y).
Proof.
  intros G Exy cov. assert (Ac := do_acyclic _ _ G). assert (HF := flip_In D x y). split.
  - split; [|exact (flip_acyclic _ Ac x y Exy cov _ HF)]. intros a b H. apply HF in H. destruct H as [[-> ->]|[H _]]; [destruct (do_nodes _ _ G x y Exy); auto|exact (do_nodes _ _ G a b H)].
  - assert (AD := flip_adj _ x y Exy _ HF). split; [intros a b; symmetry; apply AD|]. intros a z b. unfold vstruct. rewrite (AD a b). split; intros (A & B & N & NA).
    + destruct (flip_vs _ x y cov _ HF a z b A B N NA). auto.
    + assert (AcF := flip_acyclic _ Ac x y Exy cov _ HF). rewrite <- (AD a b) in NA.
      destruct (flip_vs _ y x (flip_cov _ Ac x y Exy cov _ HF) _ (flip_back _ Ac x y Exy cov _ HF) a z b A B N NA) as [P R]. rewrite (AD a b) in NA. auto.
Qed.
Lemma equiv_sym D D' : equivalent D D' -> equivalent D' D.
Proof. intros [A B]. split; intros; symmetry; [apply A|apply B]. Qed.
Lemma equiv_trans D1 D2 D3 : equivalent D1 D2 -> equivalent D2 D3 -> equivalent D1 D3.
Proof. intros [A B] [A' B']. split; intros; [rewrite A; apply A'|rewrite B; apply B']. Qed.

Theorem equivalent_dsep ns D D' : dag_over ns D -> dag_over ns D' -> equivalent D D' ->
  forall x y S, x <> y -> ~ In x S -> ~ In y S -> (dsep D x y S <-> dsep D' x y S).
Proof.
  intros G G' Q. remember (List.length (against D D')) as n eqn:En. revert D G Q En. induction n as [n IH] using (well_founded_induction lt_wf). intros D G Q En u t S Ne Nu Nt.
  destruct (list_eq_dec (fun p q : id * id => ltac:(decide equality; apply string_dec)) (against D D') []) as [Z|NZ].
  - assert (X : forall a b, edge_in D a b <-> edge_in D' a b).
    { assert (Y : forall a b, edge_in D a b -> ~ edge_in D' b a) by (intros a b A B; assert (K : In (a, b) (against D D')) by (apply against_In; auto); rewrite Z in K; exact K).
      intros a b. split; intros H.
      - apply (same_way D D' Q a b H). apply Y. exact H.
      - destruct (proj2 (proj1 Q a b) (or_introl H)) as [K|K]; [exact K|]. destruct (Y b a K H). }
    split; apply d_separated_ext; intros; try reflexivity; [apply X|symmetry; apply X].
  - destruct (covered_exists ns D D' G G' Q NZ) as (x & y & Exy & Fyx & cov). destruct (flip_equiv ns D x y G Exy cov) as [GF QF].
    rewrite <- (IH (List.length (against (flip D x y) D'))) with (D := flip D x y); auto.
    + apply (flip_sep _ x y _ S (do_acyclic _ _ G) (arrow_dec D) Exy cov (flip_In D x y)); assumption.
    + subst n. apply against_flip; auto. intros X. exact (no_two _ (do_acyclic _ _ G') _ _ X Fyx).
    + exact (equiv_trans _ _ _ (equiv_sym _ _ QF) Q).
Qed.

(* ---- and back ---- *)
Definition parents (D : list (id * id)) (x : id) : list id := map fst (filter (fun p => if string_dec (snd p) x then true else false) D).
Lemma parents_In D x z : In z (parents D x) <-> edge_in D z x.
Proof.
  unfold parents. rewrite in_map_iff. split.
  - intros ((a & b) & <- & H). apply filter_In in H. destruct H as [H K]. cbn [fst snd] in *. destruct (string_dec b x) as [->|]; [exact H|discriminate].
  - intros H. exists (z, x). split; [reflexivity|]. apply filter_In. split; [exact H|]. cbn [snd]. destruct (string_dec x x) as [|N]; [reflexivity|destruct (N eq_refl)].
Qed.
Lemma separable ns D x y : dag_over ns D -> x <> y -> ~ adjacent (edge_in D) x y -> exists S, ~ In x S /\ ~ In y S /\ dsep D x y S /\ forall z, In z S -> In z ns.
Proof.
  intros G Ne NA. assert (Ac := do_acyclic _ _ G).
  assert (K : forall a b, a <> b -> ~ adjacent (edge_in D) a b -> ~ reach (edge_in D) a b -> exists S, ~ In a S /\ ~ In b S /\ dsep D a b S /\ forall z, In z S -> In z ns).
  { intros a b N NAab NR. exists (parents D a). rewrite !parents_In. split; [intros H; exact (no_loop _ Ac a H)|]. split; [intros H; apply NAab; right; exact H|]. split.
    - apply (parents_separate _ Ac a b _ N NAab NR). intros z. apply parents_In.
    - intros z H. apply parents_In in H. exact (proj1 (do_nodes _ _ G z a H)). }
  assert (R : ~ reach (edge_in D) x y \/ ~ reach (edge_in D) y x).
  { destruct (topo _ (arrow_dec D) Ac _ ns (le_n _)) as (rk & _ & RK0).
    assert (RK : forall a b, edge_in D a b -> rk a < rk b) by (intros a b H; destruct (do_nodes _ _ G a b H); auto).
    destruct (le_lt_dec (rk x) (rk y)); [right|left]; intros X; (destruct (string_dec x y) as [|]; [contradiction|]); inversion X as [|a b c H Y]; subst; try congruence; apply (reach_rank _ rk RK) in Y; specialize (RK _ _ H); lia. }
  destruct R as [R|R]; [exact (K x y Ne NA R)|]. destruct (K y x) as (S & A & B & C & D0); auto; [intros [X|X]; apply NA; [right|left]; exact X|].
  exists S. split; [exact B|split; [exact A|split; [apply d_separated_sym; exact C|exact D0]]].
Qed.
Lemma dsep_adj ns D D' : dag_over ns D -> dag_over ns D' -> (forall x y S, In x ns -> In y ns -> x <> y -> (forall z, In z S -> In z ns) -> ~ In x S -> ~ In y S -> dsep D' x y S -> dsep D x y S) ->
  forall x y, adjacent (edge_in D) x y -> adjacent (edge_in D') x y.
Proof.
  intros G G' K x y A. assert (Ac := do_acyclic _ _ G). assert (Ne : x <> y) by (intros ->; destruct A as [A|A]; exact (no_loop _ Ac y A)).
  assert (I : In x ns /\ In y ns) by (destruct A as [A|A]; apply (do_nodes _ _ G) in A; tauto).
  destruct (arrow_dec D' x y) as [X|X]; [left; exact X|]. destruct (arrow_dec D' y x) as [Y|Y]; [right; exact Y|]. exfalso.
  destruct (separable ns D' x y G' Ne) as (S & Nx & Ny & Sep & IS); [intros [H|H]; contradiction|]. exact (adjacent_connected _ x y _ Ne A (K x y S (proj1 I) (proj2 I) Ne IS Nx Ny Sep)).
Qed.
Lemma dsep_vs ns D D' : dag_over ns D -> dag_over ns D' -> (forall x y, adjacent (edge_in D) x y <-> adjacent (edge_in D') x y) ->
  (forall x y S, In x ns -> In y ns -> x <> y -> (forall z, In z S -> In z ns) -> ~ In x S -> ~ In y S -> dsep D x y S -> dsep D' x y S) -> forall x z y, vstruct D x z y -> vstruct D' x z y.
Proof.
  intros G G' AD K x z y (A & B & N & NA). assert (Ac := do_acyclic _ _ G).
  assert (Nxz : x <> z) by (intros ->; exact (no_loop _ Ac z A)). assert (Nzy : z <> y) by (intros ->; exact (no_loop _ Ac y B)).
  destruct (separable ns D x y G N NA) as (S & Nx & Ny & Sep & IS). assert (Z := sep_collider _ x z y _ N Nxz Nzy (conj A B) Sep).
  assert (Sep' := K x y S (proj1 (do_nodes _ _ G x z A)) (proj1 (do_nodes _ _ G y z B)) N IS Nx Ny Sep).
  assert (C : collider (edge_in D') x z y).
  { destruct (arrow_dec D' x z) as [X|X]; [destruct (arrow_dec D' y z) as [Y|Y]; [split; assumption|]|].
    all: exfalso; apply (sep_non_collider _ x z y _ N Nxz Nzy (proj1 (AD x z) (or_introl A)) (proj1 (AD z y) (or_intror B))) in Sep'; [exact (Sep' Z)|intros [? ?]; contradiction]. }
  destruct C. split; [assumption|split; [assumption|split; [exact N|]]]. intros HH. apply NA. apply AD. exact HH.
Qed.
Theorem dsep_equivalent ns D D' : dag_over ns D -> dag_over ns D' -> same_independences ns D D' -> equivalent D D'.
Proof.
  intros G G' K. assert (K1 : forall x y S, In x ns -> In y ns -> x <> y -> (forall z, In z S -> In z ns) -> ~ In x S -> ~ In y S -> dsep D x y S -> dsep D' x y S) by (intros; apply K; assumption).
  assert (K2 : forall x y S, In x ns -> In y ns -> x <> y -> (forall z, In z S -> In z ns) -> ~ In x S -> ~ In y S -> dsep D' x y S -> dsep D x y S) by (intros x y S I1 I2 N IS A B; apply (K x y S I1 I2 N IS A B)).
  assert (AD : forall x y, adjacent (edge_in D) x y <-> adjacent (edge_in D') x y) by (intros x y; split; [exact (dsep_adj ns D D' G G' K2 x y)|exact (dsep_adj ns D' D G' G K1 x y)]).
  split; [exact AD|]. intros x z y. split; [exact (dsep_vs ns D D' G G' AD K1 x z y)|apply (dsep_vs ns D' D G' G); [intros a b; symmetry; apply AD|exact K2]].
Qed.
Lemma equivalent_iff ns D D' : dag_over ns D -> dag_over ns D' -> (equivalent D D' <-> same_independences ns D D').
Proof.
  intros G G'. split; [|exact (dsep_equivalent ns D D' G G')]. intros Q x y S _ _ N _ A B. exact (equivalent_dsep ns D D' G G' Q x y S N A B).
Qed.
