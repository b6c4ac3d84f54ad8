(* The d-separation query for graphs with one-way and two-way edges. *)
From Verif Require Import Base PyDict PyDictFacts Graph GraphSpec GraphFacts GraphInv GraphQ GraphPaths Dag DagFacts PathSpec PathFacts PathFacts2
  DagSep SkelSpec SkelFacts OrientSpec OrientGraph OrientMain OrientTop Chordal CpdagFacts TypeSpec CpdagQuerySpec.
Open Scope list_scope.
Open Scope nat_scope.

Section Query.
Variable g : graph.
Hypothesis TM : types_match g.
Notation O := (one_way g).

Lemma collider_is a b c : is_collider g a b c = true <-> surely_collider g a b c.
Proof. unfold is_collider, surely_collider. rewrite andb_true_iff, (proj1 (TM a b)), (proj1 (TM c b)). tauto. Qed.
Lemma noncollider_is a b c : is_definite_noncollider g a b c = true <-> surely_no_collider g a b c.
Proof.
  unfold is_definite_noncollider, surely_no_collider, apart.
  assert (A := proj1 (TM b a)). assert (B := proj1 (TM b c)).
  destruct (edge_of_type_exists g b a TDirected); cbn [orb]; [split; [intros _; left; apply A; reflexivity|reflexivity]|].
  destruct (edge_of_type_exists g b c TDirected); cbn [orb]; [split; [intros _; right; left; apply B; reflexivity|reflexivity]|].
  rewrite andb_true_iff, !negb_true_iff. split.
  - intros [X Y]. right; right. split; [exact X|]. intros Z. apply collider_is in Z. congruence.
  - intros [X|[X|[X Y]]]; [apply A in X; discriminate|apply B in X; discriminate|]. split; [exact X|].
    destruct (is_collider g a b c) eqn:Z; [|reflexivity]. apply collider_is in Z. contradiction.
Qed.
Lemma definite_is p : definite_status g p = true <-> definite g p.
Proof.
  induction p as [|x [|y [|z p]] IH]; try (split; [|reflexivity]; intros _ a b c T; exfalso;
      first [exact (triple_nil _ _ _ T)|exact (triple_one _ _ _ _ T)|exact (triple_two _ _ _ _ _ T)]).
  assert (S : definite_status g (x :: y :: z :: p) =
    if is_collider g x y z then definite_status g (y :: z :: p) else if is_definite_noncollider g x y z then definite_status g (y :: z :: p) else false) by reflexivity.
  rewrite S. assert (C := collider_is x y z). assert (N := noncollider_is x y z).
  assert (K : surely_collider g x y z \/ surely_no_collider g x y z -> definite g (y :: z :: p) -> definite g (x :: y :: z :: p)).
  { intros H1 H2 a b c T. apply triple_cons in T. destruct T as [(-> & -> & ->)|T]; [exact H1|exact (H2 a b c T)]. }
  assert (K2 : definite g (x :: y :: z :: p) -> definite g (y :: z :: p)).
  { intros H a b c T. apply H. apply triple_cons. right; exact T. }
  destruct (is_collider g x y z); [|destruct (is_definite_noncollider g x y z)].
  - rewrite IH. split; [apply K; left; apply C; reflexivity|exact K2].
  - rewrite IH. split; [apply K; right; apply N; reflexivity|exact K2].
  - split; [discriminate|]. intros H. destruct (H x y z) as [X|X]; [apply triple_cons; auto|apply C in X; discriminate|apply N in X; discriminate].
Qed.

Lemma one_way_iff a b : O a b <-> oneway g a b.
Proof. unfold one_way, oneway, only_directed_edge_exists. rewrite andb_true_iff, negb_true_iff. tauto. Qed.

Lemma desc_one so b fuel : set_order so -> List.length (nodes g) < fuel ->
  exists ds, descendants_of_node fuel so g b = Ok ds /\ forall x, In x ds <-> reach O b x.
Proof.
  intros Hso Hf; destruct (descendants_spec g so b fuel Hso Hf) as (ds & E & _ & Hd).
  exists ds; split; [exact E|]. intros x; rewrite Hd; apply reach_ext; intros; symmetry; apply one_way_iff.
Qed.

Definition opened (S : list id) (b : id) : Prop := exists d, reach O b d /\ In d S.

(* the collider that decides is the last one *)
Lemma blocking_is so S fuel : set_order so -> List.length (nodes g) < fuel ->
  forall p flag, exists b, collider_blocking_aux fuel so g p (nodes_of S) flag = Ok b /\
    (b = true -> flag = true \/ exists x y z, triple_on p x y z /\ surely_collider g x y z /\ ~ opened S y) /\
    (b = false -> (flag = false /\ forall x y z, triple_on p x y z -> ~ surely_collider g x y z) \/
       exists x y z, triple_on p x y z /\ surely_collider g x y z /\ opened S y).
Proof.
  intros Hso Hf; induction p as [|x [|y [|z p]] IH]; intros flag; try (exists flag; split; [reflexivity|]; split; intros ->; auto;
      left; split; [reflexivity|]; intros ? ? ? T; exfalso;
      first [exact (triple_nil _ _ _ T)|exact (triple_one _ _ _ _ T)|exact (triple_two _ _ _ _ _ T)]).
  rewrite cba_step. destruct (is_collider g x y z) eqn:C.
  - apply collider_is in C. destruct (desc_one so y fuel Hso Hf) as (ds & E & Hd); rewrite E.
    destruct (IH (negb (existsb (has_node (nodes_of S)) ds))) as (b & F & T1 & T2).
    exists b; split; [exact F|]; split.
    + intros Hb; destruct (T1 Hb) as [N|(a & b' & c & T & B)].
      * right; exists x, y, z; split; [apply triple_cons; auto|]. split; [exact C|].
        intros (d & Hr & Hs); apply negb_true_iff in N.
        assert (X : existsb (has_node (nodes_of S)) ds = true); [|congruence].
        apply existsb_exists; exists d; split; [apply Hd; exact Hr|apply has_node_nodes; exact Hs].
      * right; exists a, b', c; split; [apply triple_cons; auto|exact B].
    + intros Hb; destruct (T2 Hb) as [[N _]|(a & b' & c & T & B)].
      * right; apply negb_false_iff, existsb_exists in N; destruct N as (d & Hd1 & Hd2).
        exists x, y, z; split; [apply triple_cons; auto|]. split; [exact C|].
        exists d. split; [apply Hd; exact Hd1|apply has_node_nodes; exact Hd2].
      * right; exists a, b', c; split; [apply triple_cons; auto|exact B].
  - destruct (IH flag) as (b & F & T1 & T2); exists b; split; [exact F|]; split.
    + intros Hb; destruct (T1 Hb) as [N|(a & b' & c & T & B)]; [auto|].
      right; exists a, b', c; split; [apply triple_cons; auto|exact B].
    + intros Hb; destruct (T2 Hb) as [[N N']|(a & b' & c & T & B)].
      * left; split; [exact N|]. intros a b' c T; apply triple_cons in T; destruct T as [(-> & -> & ->)|T]; [|exact (N' _ _ _ T)].
        intros Cc; apply collider_is in Cc. congruence.
      * right; exists a, b', c; split; [apply triple_cons; auto|exact B].
Qed.

Lemma in_set_is S p : definite_noncollider_in_set g p (nodes_of S) = true <->
  exists a b c, triple_on p a b c /\ surely_no_collider g a b c /\ In b S.
Proof.
  induction p as [|x [|y [|z p]] IH];
    try (split; [discriminate|intros (a & b & c & T & _); exfalso; first [exact (triple_nil _ _ _ T)|exact (triple_one _ _ _ _ T)|exact (triple_two _ _ _ _ _ T)]]).
  assert (E : definite_noncollider_in_set g (x :: y :: z :: p) (nodes_of S) =
    (has_node (nodes_of S) y && is_definite_noncollider g x y z) || definite_noncollider_in_set g (y :: z :: p) (nodes_of S)) by reflexivity.
  rewrite E, orb_true_iff, andb_true_iff, has_node_nodes, noncollider_is; split.
  - intros [[Hs Hc]|Hr].
    + exists x, y, z; split; [apply triple_cons; auto|split; [exact Hc|exact Hs]].
    + apply IH in Hr; destruct Hr as (a & b & c & T & B); exists a, b, c; split; [apply triple_cons; auto|exact B].
  - intros (a & b & c & T & Hc & Hs); apply triple_cons in T; destruct T as [(-> & -> & ->)|T]; [left; auto|].
    right; apply IH; exists a, b, c; auto.
Qed.

(* what the code has established when it leaves a path blocked, and when it does not *)
Definition path_blocked (S p : list id) : Prop :=
  (exists a b c, triple_on p a b c /\ surely_no_collider g a b c /\ In b S) \/
  (exists a b c, triple_on p a b c /\ surely_collider g a b c /\ ~ opened S b).
Definition path_left (S p : list id) : Prop :=
  List.length p = 2 \/ ~ definite g p \/
  ((forall a b c, triple_on p a b c -> surely_no_collider g a b c -> ~ In b S) /\
   ((forall a b c, triple_on p a b c -> ~ surely_collider g a b c) \/
    exists a b c, triple_on p a b c /\ surely_collider g a b c /\ opened S b)).

Lemma paths_spec so S fuel : set_order so -> List.length (nodes g) < fuel ->
  forall ps flag, exists b, dsep_cpdag_paths fuel so g (nodes_of S) ps flag = Ok b /\
    (b = true -> flag = true /\ forall p, In p ps -> List.length p <> 2 /\ definite g p /\ path_blocked S p) /\
    (b = false -> flag = false \/ exists p, In p ps /\ path_left S p).
Proof.
  intros Hso Hf; induction ps as [|p ps IH]; intros flag.
  - exists flag; split; [reflexivity|]; split; intros ->; auto. split; [reflexivity|]. intros ? [].
  - cbn [dsep_cpdag_paths]. destruct (Nat.eqb_spec (List.length p) 2) as [L|L].
    + exists false; split; [reflexivity|]; split; [discriminate|]. intros _; right; exists p; split; [left; reflexivity|]. left; exact L.
    + assert (DP := definite_is p). destruct (definite_status g p).
      * destruct (blocking_is so S fuel Hso Hf p false) as (b & F & T1 & T2). unfold is_a_collider_blocking; rewrite F.
        assert (NS := in_set_is S p). set (n := definite_noncollider_in_set g p (nodes_of S)) in *.
        destruct (IH (flag && (n || b))) as (r & Fr & R1 & R2).
        exists r; split; [exact Fr|]; split.
        -- intros Hr; destruct (R1 Hr) as [Fl Hp]; apply andb_true_iff in Fl; destruct Fl as [Fl Fb]; split; [exact Fl|].
           intros q [<-|Hq]; [|apply Hp; exact Hq]. split; [exact L|]. split; [apply DP; reflexivity|].
           apply orb_true_iff in Fb; destruct Fb as [Fb|Fb]; [left; apply NS; exact Fb|].
           destruct (T1 Fb) as [N|X]; [discriminate|right; exact X].
        -- intros Hr; destruct (R2 Hr) as [Fl|(q & Hq & Hx)]; [|right; exists q; split; [right; exact Hq|exact Hx]].
           apply andb_false_iff in Fl; destruct Fl as [Fl|Fl]; [auto|]. right; exists p; split; [left; reflexivity|].
           apply orb_false_iff in Fl; destruct Fl as [Fn ->]. right; right. split.
           ++ intros a b c T Cc Hs. assert (X : n = true); [|congruence]. apply NS. exists a, b, c; auto.
           ++ destruct (T2 eq_refl) as [[_ N]|N]; [left; exact N|right; exact N].
      * destruct (IH false) as (r & Fr & R1 & R2). exists r; split; [exact Fr|]. split.
        -- intros Hr. destruct (R1 Hr) as [X _]. discriminate.
        -- intros _. right. exists p. split; [left; reflexivity|]. right; left. intros X. apply DP in X. discriminate.
Qed.

Lemma query_spec so S fuel u v : NoDup (dkeys (nodes g)) -> set_order so -> List.length (nodes g) < fuel ->
  exists b, are_nodes_d_separated_cpdag fuel so g u v (nodes_of S) = Ok b /\
    (b = true -> forall p, simple_path (adjR g) u v p -> List.length p <> 2 /\ definite g p /\ path_blocked S p) /\
    (b = false -> exists p, simple_path (adjR g) u v p /\ path_left S p).
Proof.
  intros HN Hso Hf; unfold are_nodes_d_separated_cpdag; rewrite !has_str_nodes; cbn [orb].
  destruct (all_paths_spec g u v fuel HN Hf) as (ps & E & _ & Hp); rewrite E.
  destruct (paths_spec so S fuel Hso Hf ps true) as (b & F & T1 & T2).
  assert (X : match ps with [] => Ok true | _ :: _ => dsep_cpdag_paths fuel so g (nodes_of S) ps true end = Ok b).
  { destruct ps; [|exact F]. simpl in F; exact F. }
  exists b; split; [exact X|]; split.
  - intros Hb p Hsp. destruct (T1 Hb) as [_ Hall]. apply Hall. apply Hp. exact Hsp.
  - intros Hb; destruct (T2 Hb) as [N|(p & Hin & Hx)]; [discriminate|]. exists p; split; [apply Hp; exact Hin|exact Hx].
Qed.
End Query.

(* ---- path surgery ---- *)
Lemma starts_app {V} (u : V) p x q q' : starts u (p ++ x :: q) -> starts u (p ++ x :: q').
Proof. intros (r & E). destruct p as [|y p]; cbn in *; injection E as -> _; eexists; reflexivity. Qed.
Lemma ends_app (v : id) p x q : ends v (p ++ x :: q) <-> ends v (x :: q).
Proof. induction p as [|y p IH]; [reflexivity|]. cbn [app]. rewrite ends_cons; [exact IH|]. destruct p; discriminate. Qed.
Lemma NoDup_cut {A} (l m r : list A) : NoDup (l ++ m ++ r) -> NoDup (l ++ r).
Proof. induction m as [|x m IH]; [auto|]. cbn [app]. intros H. apply NoDup_remove_1 in H. auto. Qed.
Section Surgery.
Variable R : id -> id -> Prop.
Lemma path_insert u v p1 a b c p2 w : simple_path R u v (p1 ++ a :: b :: c :: p2) -> ~ In w (p1 ++ a :: b :: c :: p2) -> R b w -> R w c ->
  simple_path R u v (p1 ++ a :: b :: w :: c :: p2).
Proof.
  intros (S & E & C & N) NI H1 H2. split; [exact (starts_app u p1 a _ _ S)|]. split; [|split].
  - apply ends_app in E. apply ends_app. rewrite !ends_tail in E. rewrite !ends_tail. exact E.
  - change (p1 ++ a :: b :: c :: p2) with (p1 ++ [a; b] ++ c :: p2) in C. rewrite app_assoc in C. assert (C' := C). apply chain_app_inv in C'. destruct C' as [_ C2].
    apply (chain_join R p1 a (b :: w :: c :: p2)).
    + rewrite <- app_assoc in C. change (p1 ++ [a; b] ++ c :: p2) with (p1 ++ [a] ++ b :: c :: p2) in C. rewrite app_assoc in C. apply chain_app_inv in C. tauto.
    + rewrite <- app_assoc in C. apply chain_app_inv in C. destruct C as [_ C]. cbn in C. inversion C as [| |? ? ? X1 X2]; subst.
      constructor; [exact X1|]. constructor; [exact H1|]. constructor; [exact H2|exact C2].
  - apply (Permutation.Permutation_NoDup (l := w :: (p1 ++ a :: b :: c :: p2))); [|constructor; assumption].
    change (p1 ++ a :: b :: w :: c :: p2) with (p1 ++ [a; b] ++ w :: c :: p2). change (p1 ++ a :: b :: c :: p2) with (p1 ++ [a; b] ++ c :: p2).
    rewrite !app_assoc. apply Permutation.Permutation_middle.
Qed.
Lemma path_cut u v l x m y r : simple_path R u v (l ++ x :: m ++ y :: r) -> R x y -> simple_path R u v (l ++ x :: y :: r).
Proof.
  intros (S & E & C & N) H. split; [exact (starts_app u l x _ _ S)|]. split; [|split].
  - change (l ++ x :: m ++ y :: r) with (l ++ (x :: m) ++ y :: r) in E. rewrite app_assoc, ends_app in E.
    rewrite ends_app, ends_tail. exact E.
  - assert (C' := C). change (l ++ x :: m ++ y :: r) with (l ++ (x :: m) ++ y :: r) in C'. rewrite app_assoc in C'. apply chain_app_inv in C'. destruct C' as [_ C2].
    change (l ++ x :: m ++ y :: r) with (l ++ [x] ++ m ++ y :: r) in C. rewrite app_assoc in C. apply chain_app_inv in C. destruct C as [C1 _].
    apply chain_join; [exact C1|]. constructor; assumption.
  - change (l ++ x :: m ++ y :: r) with (l ++ [x] ++ m ++ y :: r) in N. rewrite app_assoc in N. apply NoDup_cut in N. rewrite <- app_assoc in N. exact N.
Qed.
End Surgery.

Section Sound.
Variable D : list (id * id).
Hypothesis Ac : acyclic (edge_in D).
Variable g : graph.
Hypothesis M : meek_pattern g D.
Notation E := (edge_in D).
Notation O := (one_way g).
Notation U := (two_way g).

Lemma adjR_E a b : adjR g a b <-> adjacent E a b.
Proof. unfold adjR. apply (mp_ee D Ac g M). Qed.
Lemma surely_D a b c : surely_collider g a b c -> collider E a b c.
Proof. intros [H1 H2]. split; apply (mp_one_E D Ac g M); assumption. Qed.
Lemma surely_no_D a b c : a <> c -> surely_no_collider g a b c -> ~ collider E a b c.
Proof.
  intros N [H|[H|[H1 H2]]] [C1 C2].
  - exact (no_two E Ac _ _ C1 (mp_one_E D Ac g M _ _ H)).
  - exact (no_two E Ac _ _ C2 (mp_one_E D Ac g M _ _ H)).
  - apply H2. assert (V : vstruct D a b c) by (split; [exact C1|split; [exact C2|split; [exact N|exact (mp_apart D Ac g M _ _ H1)]]]).
    split; apply (mp_oriented D Ac g M); [exact (or_v D a b c V)|exact (or_v D c b a (vstruct_sym D _ _ _ V))].
Qed.
Lemma O_reach x y : reach O x y -> reach E x y.
Proof. induction 1 as [|x y z H _ IH]; [constructor|]. econstructor; [apply (mp_one_E D Ac g M); exact H|exact IH]. Qed.
(* from a node without two-way edges every descendant in the DAG is a descendant in the graph *)
Lemma follow b : (forall w, ~ U b w) -> forall d, reach E b d -> reach O b d.
Proof.
  intros NU. assert (K : forall x d, reach E x d -> (x = b \/ exists q, reach O b q /\ O q x) -> reach O b d).
  { intros x d H. induction H as [x|x y z H _ IH]; intros Hx.
    - destruct Hx as [->|(q & Hq & Hx)]; [constructor|]. exact (reach_plus_right O _ _ _ Hq Hx).
    - apply IH. right. destruct (adj_kind D Ac g M x y (or_introl H)) as [[Hk|Hk]|Hk].
      + destruct Hx as [->|(q & Hq & Hx)]; [exists b; split; [constructor|exact Hk]|]. exists x. split; [exact (reach_plus_right O _ _ _ Hq Hx)|exact Hk].
      + exfalso. exact (no_two E Ac _ _ H (mp_one_E D Ac g M _ _ Hk)).
      + destruct Hx as [->|(q & Hq & Hx)]; [destruct (NU _ Hk)|]. exists q. split; [exact Hq|exact (same_parents D Ac g M q x y Hx Hk)]. }
  intros d H. exact (K b d H (or_introl eq_refl)).
Qed.

Lemma vague a b w : O a b -> U b w -> adjacent E a w -> ~ (surely_collider g a b w \/ surely_no_collider g a b w).
Proof.
  intros H1 H2 H3 [[_ X]|[X|[X|[X _]]]].
  - exact (O_not_U g _ _ X (U_sym g _ _ H2)).
  - exact (O_asym g _ _ H1 X).
  - exact (O_not_U g _ _ X H2).
  - exact (mp_apart D Ac g M _ _ X H3).
Qed.
Lemma vague' w b c : O c b -> U b w -> adjacent E w c -> ~ (surely_collider g w b c \/ surely_no_collider g w b c).
Proof.
  intros H1 H2 H3 [[X _]|[X|[X|[X _]]]].
  - exact (O_not_U g _ _ X (U_sym g _ _ H2)).
  - exact (O_not_U g _ _ X H2).
  - exact (O_asym g _ _ H1 X).
  - exact (mp_apart D Ac g M _ _ X H3).
Qed.

(* when all paths are of definite status, colliders have no two-way edges *)
Lemma definite_collider u v p a b c : all_definite g u v -> simple_path (adjR g) u v p -> triple_on p a b c -> surely_collider g a b c -> forall w, ~ U b w.
Proof.
  intros AD SP (p1 & p2 & ->) [H1 H2] w Hw.
  assert (Aw := same_parents D Ac g M a b w H1 Hw). assert (Cw := same_parents D Ac g M c b w H2 Hw).
  assert (Rbw : adjR g b w) by (apply adjR_E, (U_adj D g M); exact Hw).
  assert (Rwb : adjR g w b) by (apply adjR_E, (U_adj D g M), U_sym; exact Hw).
  assert (Rwc : adjR g w c) by (apply adjR_E; right; apply (mp_one_E D Ac g M); exact Cw).
  assert (Ewc : adjacent E w c) by (apply adjR_E; exact Rwc).
  assert (Eaw : adjacent E a w) by (left; apply (mp_one_E D Ac g M); exact Aw).
  assert (KR : forall l r, simple_path (adjR g) u v (l ++ a :: b :: w :: r) -> False).
  { intros l r SP'. apply (vague a b w H1 Hw Eaw). apply (AD _ SP'). exists l, r. reflexivity. }
  assert (KL : forall l r, simple_path (adjR g) u v (l ++ w :: b :: c :: r) -> False).
  { intros l r SP'. apply (vague' w b c H2 Hw Ewc). apply (AD _ SP'). exists l, r. reflexivity. }
  destruct (In_dec string_dec w (p1 ++ a :: b :: c :: p2)) as [I|NI].
  - apply in_app_or in I. destruct I as [I|[<-|[<-|[<-|I]]]].
    + apply in_split in I. destruct I as (q1 & q2 & ->). apply (KL q1 p2). rewrite <- app_assoc in SP. cbn [app] in SP.
      apply (path_cut _ _ _ q1 w (q2 ++ [a]) b); [|exact Rwb]. rewrite <- app_assoc. exact SP.
    + exact (O_irr D Ac g M _ Aw).
    + exact (U_irr D Ac g M _ Hw).
    + exact (O_irr D Ac g M _ Cw).
    + apply in_split in I. destruct I as (q1 & q2 & ->). apply (KR p1 q2).
      change (p1 ++ a :: b :: w :: q2) with (p1 ++ [a] ++ b :: w :: q2). rewrite app_assoc. apply (path_cut _ _ _ (p1 ++ [a]) b (c :: q1) w); [|exact Rbw].
      rewrite <- app_assoc. exact SP.
  - apply (KR p1 (c :: p2)). apply path_insert; assumption.
Qed.

Lemma opened_D S b : opened g S b -> exists d, reach E b d /\ In d S.
Proof. intros (d & H & I). exists d. split; [apply O_reach; exact H|exact I]. Qed.

Lemma triple_ends u v p a b c : simple_path (adjR g) u v p -> triple_on p a b c -> a <> c.
Proof.
  intros (_ & _ & _ & N) (p1 & p2 & ->) ->. change (p1 ++ c :: b :: c :: p2) with (p1 ++ [c; b] ++ c :: p2) in N.
  rewrite app_assoc in N. apply NoDup_remove_2 in N. apply N. apply in_or_app; left. apply in_or_app; right. left; reflexivity.
Qed.
Hypothesis TM : types_match g.

Lemma query_sound so S fuel u v : NoDup (dkeys (nodes g)) -> set_order so -> List.length (nodes g) < fuel ->
  exists b, are_nodes_d_separated_cpdag fuel so g u v (nodes_of S) = Ok b /\ (b = true -> dsep D u v S).
Proof.
  intros HN Hso Hf. destruct (query_spec g TM so S fuel u v HN Hso Hf) as (b & Q & T1 & _). exists b. split; [exact Q|].
  intros Hb p SP OP. specialize (T1 Hb). apply (simple_path_ext _ (adjR g)) in SP; [|intros; symmetry; apply adjR_E].
  assert (AD : all_definite g u v) by (intros q Hq; apply T1; exact Hq).
  destruct (T1 p SP) as (_ & _ & [(a & x & c & T & N & I)|(a & x & c & T & C & NO)]).
  - apply (proj2 (OP a x c T)); [|exact I]. apply surely_no_D; [exact (triple_ends u v p a x c SP T)|exact N].
  - destruct (proj1 (OP a x c T) (surely_D _ _ _ C)) as (d & Rd & I). apply NO. exists d. split; [|exact I].
    apply follow; [|exact Rd]. exact (definite_collider u v p a x c AD SP T C).
Qed.

Lemma query_exact so S fuel u v : NoDup (dkeys (nodes g)) -> set_order so -> List.length (nodes g) < fuel ->
  all_definite g u v -> uniform_surely g u v S ->
  exists b, are_nodes_d_separated_cpdag fuel so g u v (nodes_of S) = Ok b /\ (b = true <-> dsep D u v S).
Proof.
  intros HN Hso Hf AD UN. destruct (query_sound so S fuel u v HN Hso Hf) as (b & Q & Snd). exists b. split; [exact Q|]. split; [exact Snd|].
  intros DS. destruct b; [reflexivity|exfalso].
  destruct (query_spec g TM so S fuel u v HN Hso Hf) as (b' & Q' & _ & T2). rewrite Q in Q'. injection Q' as <-.
  destruct (T2 eq_refl) as (p & SP & L).
  assert (SP' : simple_path (adjacent E) u v p) by (apply (simple_path_ext _ _ _ _ _ adjR_E); exact SP).
  apply (DS p SP'). destruct L as [L|[L|[L1 L2]]].
  - intros a x c T. exfalso. destruct p as [|? [|? [|? ?]]]; try discriminate. exact (triple_two _ _ _ _ _ T).
  - exfalso. apply L, AD, SP.
  - intros a x c T. split.
    + intros C. destruct (AD p SP a x c T) as [X|X]; [|exfalso; exact (surely_no_D _ _ _ (triple_ends u v p a x c SP T) X C)].
      apply opened_D. destruct L2 as [L2|(a' & x' & c' & T' & C' & OP)]; [destruct (L2 a x c T X)|].
      exact (UN p a' x' c' a x c SP T' C' T X OP).
    + intros NC I. destruct (AD p SP a x c T) as [X|X]; [exact (NC (surely_D _ _ _ X))|]. exact (L1 a x c T X I).
Qed.
End Sound.
