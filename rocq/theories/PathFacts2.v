(* d-separation queries, directed path queries. *)
From Verif Require Import Base PyDict PyDictFacts Graph GraphFacts GraphInv GraphInv3 GraphQ GraphPaths Dag PathSpec PathFacts.

Lemma acyclic_asym {V} (E : V -> V -> Prop) a b : acyclic E -> E a b -> ~ E b a.
Proof. intros Ha H1 H2; apply (Ha a); exists b; split; [exact H1|]; eapply reach_step; [exact H2|apply reach_refl]. Qed.

Lemma dag_oneway g a b : dag_graph g -> oneway g a b <-> arrow g a b.
Proof.
  intros D; split; [intros [A _]; exact A|]. intros A; split; [exact A|].
  destruct (directed_edge_exists g b a) eqn:B; [|reflexivity].
  exfalso; eapply acyclic_asym; [apply (dg_acyclic _ D)|exact A|exact B].
Qed.

Lemma reach_ext {V} (E F : V -> V -> Prop) a b : (forall x y, E x y <-> F x y) -> reach E a b <-> reach F a b.
Proof. intros H; split; induction 1; try apply reach_refl; eapply reach_step; try eassumption; apply H; assumption. Qed.

Lemma type_iff g a b : dag_graph g -> edge_of_type_exists g a b TDirected = true <-> arrow g a b.
Proof.
  intros D; split; [|apply (dg_type _ D)].
  unfold edge_of_type_exists, arrow; destruct (directed_edge_exists g a b); auto.
Qed.

Lemma is_collider_iff g a b c : dag_graph g -> is_collider g a b c = true <-> collider (arrow g) a b c.
Proof. intros D; unfold is_collider, collider; rewrite andb_true_iff, !type_iff by exact D; tauto. Qed.

Lemma adjR_iff g a b : adjR g a b <-> adjacent (arrow g) a b.
Proof. unfold adjR, adjacent, arrow; rewrite edge_exists_or, orb_true_iff; tauto. Qed.

Lemma chain_ext {V} (R R' : V -> V -> Prop) p : (forall a b, R a b <-> R' a b) -> chain R p <-> chain R' p.
Proof. intros H; split; induction 1; constructor; auto; apply H; assumption. Qed.

Lemma simple_path_ext {V} (R R' : V -> V -> Prop) x y p : (forall a b, R a b <-> R' a b) ->
  simple_path R x y p <-> simple_path R' x y p.
Proof. intros H; unfold simple_path; rewrite (chain_ext R R' p H); tauto. Qed.

Lemma triple_nil {V} (a b c : V) : ~ triple_on [] a b c.
Proof. intros (p1 & p2 & E); destruct p1; discriminate. Qed.

Lemma triple_one {V} (x a b c : V) : ~ triple_on [x] a b c.
Proof. intros (p1 & p2 & E); destruct p1 as [|y p1]; [discriminate|]; injection E as _ E; destruct p1; discriminate. Qed.

Lemma triple_two {V} (x y a b c : V) : ~ triple_on [x; y] a b c.
Proof.
  intros (p1 & p2 & E); destruct p1 as [|z p1]; [discriminate|]; injection E as _ E.
  destruct p1 as [|w p1]; [discriminate|]; injection E as _ E; destruct p1; discriminate.
Qed.

Lemma triple_cons {V} (x y z : V) p a b c :
  triple_on (x :: y :: z :: p) a b c <-> (x = a /\ y = b /\ z = c) \/ triple_on (y :: z :: p) a b c.
Proof.
  split.
  - intros (p1 & p2 & E); destruct p1 as [|w p1]; simpl in E.
    + injection E as -> -> -> _; auto.
    + injection E as -> E; right; exists p1, p2; exact E.
  - intros [(-> & -> & ->)|(p1 & p2 & E)].
    + exists [], p; reflexivity.
    + exists (x :: p1), p2; rewrite E; reflexivity.
Qed.

Lemma has_node_nodes S x : has_node (nodes_of S) x = true <-> In x S.
Proof.
  unfold has_node, nodes_of; rewrite existsb_exists; split.
  - intros (c & Hc & E); apply in_map_iff in Hc; destruct Hc as (j & <- & Hj).
    apply eqb_true in E; subst; exact Hj.
  - intros Hx; exists (CNode x); split; [apply in_map; exact Hx|apply eqb_refl].
Qed.

Lemma has_str_nodes S x : has_str (nodes_of S) x = false.
Proof. unfold has_str, nodes_of; induction S as [|y S IH]; simpl; auto. Qed.

Definition blocked_at (g : graph) (S : list id) (a b c : id) : Prop :=
  collider (arrow g) a b c /\ forall d, reach (arrow g) b d -> ~ In d S.

Lemma desc_arrow g so b fuel : dag_graph g -> set_order so -> List.length (nodes g) < fuel ->
  exists ds, descendants_of_node fuel so g b = Ok ds /\ forall x, In x ds <-> reach (arrow g) b x.
Proof.
  intros D Hso Hf; destruct (descendants_spec g so b fuel Hso Hf) as (ds & E & _ & Hd).
  exists ds; split; [exact E|]. intros x; rewrite Hd; apply reach_ext; intros; apply dag_oneway; exact D.
Qed.

Lemma cba_step fuel so g x y z p cs flag :
  collider_blocking_aux fuel so g (x :: y :: z :: p) cs flag =
  if is_collider g x y z then
    match descendants_of_node fuel so g y with
    | Ok ds => collider_blocking_aux fuel so g (y :: z :: p) cs (negb (existsb (has_node cs) ds))
    | Err e => Err e
    end
  else collider_blocking_aux fuel so g (y :: z :: p) cs flag.
Proof. reflexivity. Qed.

Lemma nis_step g x y z p cs :
  noncollider_in_set g (x :: y :: z :: p) cs =
  (has_node cs y && negb (is_collider g x y z)) || noncollider_in_set g (y :: z :: p) cs.
Proof. reflexivity. Qed.

Lemma collider_blocking_spec g so S fuel : dag_graph g -> set_order so -> List.length (nodes g) < fuel ->
  forall p flag, exists b, collider_blocking_aux fuel so g p (nodes_of S) flag = Ok b /\
    (b = true -> flag = true \/ exists x y z, triple_on p x y z /\ blocked_at g S x y z) /\
    (b = false -> (flag = false /\ forall x y z, triple_on p x y z -> ~ collider (arrow g) x y z) \/
       exists x y z d, triple_on p x y z /\ collider (arrow g) x y z /\ reach (arrow g) y d /\ In d S).
Proof.
  intros D Hso Hf; induction p as [|x [|y [|z p]] IH]; intros flag; try (exists flag; split; [reflexivity|]; split; intros ->; auto;
      left; split; [reflexivity|]; intros ? ? ? T; exfalso;
      first [exact (triple_nil _ _ _ T)|exact (triple_one _ _ _ _ T)|exact (triple_two _ _ _ _ _ T)]).
  rewrite cba_step. destruct (is_collider g x y z) eqn:C.
  - apply is_collider_iff in C; [|exact D].
    destruct (desc_arrow g so y fuel D Hso Hf) as (ds & E & Hd); rewrite E.
    destruct (IH (negb (existsb (has_node (nodes_of S)) ds))) as (b & F & T1 & T2).
    exists b; split; [exact F|]; split.
    + intros Hb; destruct (T1 Hb) as [N|(a & b' & c & T & B)].
      * right; exists x, y, z; split; [apply triple_cons; auto|]. split; [exact C|].
        intros d Hr Hs; apply negb_true_iff in N.
        assert (X : existsb (has_node (nodes_of S)) ds = true); [|congruence].
        apply existsb_exists; exists d; split; [apply Hd; exact Hr|apply has_node_nodes; exact Hs].
      * right; exists a, b', c; split; [apply triple_cons; auto|exact B].
    + intros Hb; destruct (T2 Hb) as [[N _]|(a & b' & c & d & T & B)].
      * right; apply negb_false_iff, existsb_exists in N; destruct N as (d & Hd1 & Hd2).
        exists x, y, z, d; split; [apply triple_cons; auto|]. split; [exact C|].
        split; [apply Hd; exact Hd1|apply has_node_nodes; exact Hd2].
      * right; exists a, b', c, d; split; [apply triple_cons; auto|exact B].
  - destruct (IH flag) as (b & F & T1 & T2); exists b; split; [exact F|]; split.
    + intros Hb; destruct (T1 Hb) as [N|(a & b' & c & T & B)]; [auto|].
      right; exists a, b', c; split; [apply triple_cons; auto|exact B].
    + intros Hb; destruct (T2 Hb) as [[N N']|(a & b' & c & d & T & B)].
      * left; split; [exact N|]. intros a b' c T; apply triple_cons in T; destruct T as [(-> & -> & ->)|T]; [|exact (N' _ _ _ T)].
        intros Cc; apply is_collider_iff in Cc; [congruence|exact D].
      * right; exists a, b', c, d; split; [apply triple_cons; auto|exact B].
Qed.

Lemma noncollider_spec g S p : dag_graph g ->
  noncollider_in_set g p (nodes_of S) = true <->
  exists a b c, triple_on p a b c /\ ~ collider (arrow g) a b c /\ In b S.
Proof.
  intros D; induction p as [|x [|y [|z p]] IH];
    try (split; [discriminate|intros (a & b & c & T & _); exfalso; first [exact (triple_nil _ _ _ T)|exact (triple_one _ _ _ _ T)|exact (triple_two _ _ _ _ _ T)]]).
  rewrite nis_step.
  rewrite orb_true_iff, andb_true_iff, has_node_nodes, negb_true_iff; split.
  - intros [[Hs Hc]|Hr].
    + exists x, y, z; split; [apply triple_cons; auto|split; [|exact Hs]].
      intros C; apply is_collider_iff in C; [congruence|exact D].
    + apply IH in Hr; destruct Hr as (a & b & c & T & B); exists a, b, c; split; [apply triple_cons; auto|exact B].
  - intros (a & b & c & T & Hc & Hs); apply triple_cons in T; destruct T as [(-> & -> & ->)|T].
    + left; split; [exact Hs|]. destruct (is_collider g a b c) eqn:C; [|reflexivity].
      apply is_collider_iff in C; [contradiction|exact D].
    + right; apply IH; exists a, b, c; auto.
Qed.

(* what the code has established when it leaves a path unblocked *)
Definition left_open (g : graph) (S p : list id) : Prop :=
  (forall a b c, triple_on p a b c -> ~ collider (arrow g) a b c -> ~ In b S) /\
  ((forall a b c, triple_on p a b c -> ~ collider (arrow g) a b c) \/
   exists a b c d, triple_on p a b c /\ collider (arrow g) a b c /\ reach (arrow g) b d /\ In d S).

Lemma dsep_paths_spec g so S fuel : dag_graph g -> set_order so -> List.length (nodes g) < fuel ->
  forall ps flag, exists b, dsep_paths fuel so g (nodes_of S) ps flag = Ok b /\
    (b = true -> flag = true /\ forall p, In p ps -> List.length p <> 2 /\ ~ open_path (arrow g) (fun x => In x S) p) /\
    (b = false -> flag = false \/ exists p, In p ps /\ left_open g S p).
Proof.
  intros D Hso Hf; induction ps as [|p ps IH]; intros flag.
  - exists flag; split; [reflexivity|]; split; intros ->; auto.
  - cbn [dsep_paths]. destruct (Nat.eqb_spec (List.length p) 2) as [L|L].
    + exists false; split; [reflexivity|]; split; [discriminate|]. intros _; right; exists p; split; [left; reflexivity|].
      destruct p as [|x [|y [|z p]]]; try discriminate.
      split; [|left]; intros a b c T; exfalso; exact (triple_two _ _ _ _ _ T).
    + destruct (collider_blocking_spec g so S fuel D Hso Hf p false) as (b & F & T1 & T2).
      unfold is_a_collider_blocking in *; rewrite F.
      destruct (IH (flag && (b || noncollider_in_set g p (nodes_of S)))) as (r & Fr & R1 & R2).
      exists r; split; [exact Fr|]; split.
      * intros Hr; destruct (R1 Hr) as [Fl Hp]; apply andb_true_iff in Fl; destruct Fl as [Fl Fb]; split; [exact Fl|].
        intros q [<-|Hq]; [|apply Hp; exact Hq]. split; [exact L|]. intros Ho.
        apply orb_true_iff in Fb; destruct Fb as [Fb|Fb].
        -- destruct (T1 Fb) as [N|(x & y & z & T & Cc & B)]; [discriminate|].
           destruct (proj1 (Ho x y z T) Cc) as (d & Hd & Hs); exact (B d Hd Hs).
        -- apply noncollider_spec in Fb; [|exact D]; destruct Fb as (x & y & z & T & Cc & Hs).
           exact (proj2 (Ho x y z T) Cc Hs).
      * intros Hr; destruct (R2 Hr) as [Fl|(q & Hq & Hx)].
        -- apply andb_false_iff in Fl; destruct Fl as [Fl|Fl]; [auto|]. right; exists p; split; [left; reflexivity|].
           apply orb_false_iff in Fl; destruct Fl as [-> Fl]. split.
           ++ intros a b c T Cc Hs. assert (X : noncollider_in_set g p (nodes_of S) = true); [|congruence].
              apply noncollider_spec; [exact D|]; exists a, b, c; auto.
           ++ destruct (T2 eq_refl) as [[_ N]|N]; [left; exact N|right; exact N].
        -- right; exists q; split; [right; exact Hq|exact Hx].
Qed.

Lemma dsep_spec g so S fuel u v : NoDup (dkeys (nodes g)) -> dag_graph g -> set_order so -> List.length (nodes g) < fuel ->
  exists b, are_nodes_d_separated_dag fuel so g u v (nodes_of S) = Ok b /\
    (b = true -> d_separated (arrow g) u v (fun x => In x S)) /\
    (b = false -> exists p, simple_path (adjacent (arrow g)) u v p /\ left_open g S p).
Proof.
  intros HN D Hso Hf; unfold are_nodes_d_separated_dag; rewrite !has_str_nodes; cbn [orb].
  destruct (all_paths_spec g u v fuel HN Hf) as (ps & E & _ & Hp); rewrite E.
  destruct (dsep_paths_spec g so S fuel D Hso Hf ps true) as (b & F & T1 & T2).
  assert (X : match ps with [] => Ok true | _ :: _ => dsep_paths fuel so g (nodes_of S) ps true end = Ok b).
  { destruct ps; [|exact F]. simpl in F; exact F. }
  exists b; split; [exact X|]; split.
  - intros Hb p Hsp Ho; destruct (T1 Hb) as [_ Hall].
    apply (simple_path_ext _ (adjR g)) in Hsp; [|intros; symmetry; apply adjR_iff].
    apply Hp in Hsp; apply (Hall p Hsp); exact Ho.
  - intros Hb; destruct (T2 Hb) as [N|(p & Hin & Hx)]; [discriminate|].
    exists p; split; [|exact Hx]. apply Hp in Hin.
    apply (simple_path_ext _ _ _ _ _ (adjR_iff g)); exact Hin.
Qed.

Lemma dsep_exact g so S fuel u v : NoDup (dkeys (nodes g)) -> dag_graph g -> set_order so -> List.length (nodes g) < fuel ->
  uniform_colliders g u v S ->
  exists b, are_nodes_d_separated_dag fuel so g u v (nodes_of S) = Ok b /\
    (b = true <-> d_separated (arrow g) u v (fun x => In x S)).
Proof.
  intros HN D Hso Hf HU; destruct (dsep_spec g so S fuel u v HN D Hso Hf) as (b & E & T1 & T2).
  exists b; split; [exact E|]; split; [exact T1|].
  intros Hd; destruct b; [reflexivity|]. exfalso.
  destruct (T2 eq_refl) as (p & Hsp & Hn & Hc). apply (Hd p Hsp).
  intros a b c T; split; [|apply Hn; exact T]. intros Cc.
  destruct Hc as [Hc|(a' & b' & c' & d & T' & Cc' & Hr & Hs)]; [exfalso; exact (Hc a b c T Cc)|].
  apply (HU p a' b' c' a b c); eauto.
Qed.

(* ---------- directed paths ---------- *)

Lemma live_rows g u : WF g -> (exists w, arrow g u w \/ arrow g w u) -> exists r, dget (edges g) u = Some r.
Proof.
  intros W (w & Hw). assert (M : dmem (edges g) u = true).
  { destruct Hw as [Hw|Hw]; apply dee_iff in Hw; try exact W; destruct Hw as (e & E & _);
      destruct (WF_row_v _ _ _ _ W E); assumption. }
  unfold dmem in M; destruct (dget (edges g) u); [eauto|discriminate].
Qed.

Lemma rexists_spec {A} (f : A -> res bool) (P : A -> Prop) l :
  (forall a, In a l -> exists b, f a = Ok b /\ (b = true <-> P a)) ->
  exists b, rexists f l = Ok b /\ (b = true <-> exists a, In a l /\ P a).
Proof.
  induction l as [|a l IH]; intros Hf.
  - exists false; split; [reflexivity|]. split; [discriminate|intros (a & [] & _)].
  - destruct (Hf a (or_introl eq_refl)) as (b & E & Hb).
    destruct IH as (b' & E' & Hb'); [intros x Hx; apply Hf; right; exact Hx|].
    simpl; rewrite E; simpl; destruct b.
    + exists true; split; [reflexivity|]. split; [|reflexivity]. intros _; exists a; split; [left; reflexivity|apply Hb; reflexivity].
    + exists b'; split; [exact E'|]. rewrite Hb'; split.
      * intros (x & Hx & Px); exists x; split; [right; exact Hx|exact Px].
      * intros (x & [<-|Hx] & Px); [apply Hb in Px; discriminate|eauto].
Qed.

Lemma row_live g u r w : WF g -> all_live g -> dget (edges g) u = Some r -> In w (dkeys r) <-> arrow g u w.
Proof.
  intros W Hl R; rewrite (row_keys _ _ _ w R); unfold arrow; rewrite dee_iff by exact W; split.
  - intros [e E]; exists e; split; [exact E|]. specialize (Hl u w); unfold directed_edge_is_soft_deleted in Hl; rewrite E in Hl; exact Hl.
  - intros (e & E & _); exists e; exact E.
Qed.

Lemma arrow_node g u v : arrow g u v -> In v (dkeys (nodes g)) /\ dmem (nodes g) v = true /\ dmem (nodes g) u = true.
Proof. intros A; apply dee_iff0 in A; destruct A as (A & B & _); split; [apply dmem_In; exact B|auto]. Qed.

Lemma dpe_fuel_spec g v : WF g -> all_live g -> acyclic (arrow g) ->
  forall n u vis, unseen (dkeys (nodes g)) (u :: vis) < n -> (exists r, dget (edges g) u = Some r) ->
    (forall x, In x vis -> reach_plus (arrow g) x u) ->
  exists b, directed_path_exists n g u v = Ok b /\ (b = true <-> reach_plus (arrow g) u v).
Proof.
  intros W Hl Ha; induction n as [|n IH]; intros u vis Hf [r R] Hv; [lia|].
  cbn [directed_path_exists]. destruct (directed_edge_exists g u v) eqn:D.
  - exists true; split; [reflexivity|]; split; [|reflexivity]. intros _; exists v; split; [exact D|apply reach_refl].
  - rewrite R.
    destruct (rexists_spec (fun w => if dmem (nodes g) w then directed_path_exists n g w v else Err KeyError)
                (fun w => reach_plus (arrow g) w v) (dkeys r)) as (b & E & Hb).
    + intros w Hw; apply (row_live g u r w W Hl R) in Hw.
      destruct (arrow_node g u w Hw) as (Hn & Hm & _); rewrite Hm.
      assert (Hnv : ~ In w (u :: vis)).
      { intros [<-|Hin].
        - apply (Ha u); exists u; split; [exact Hw|apply reach_refl].
        - destruct (Hv w Hin) as (y & Hy & Hr). apply (Ha w); exists y; split; [exact Hy|].
          eapply reach_plus_right; eassumption. }
      apply (IH w (u :: vis)).
      * assert (L := unseen_cons_lt _ _ _ Hn Hnv); lia.
      * apply live_rows; [exact W|]; exists u; right; exact Hw.
      * intros x [<-|Hx]; [exists w; split; [exact Hw|apply reach_refl]|].
        destruct (Hv x Hx) as (y & Hy & Hr); exists y; split; [exact Hy|]. eapply reach_plus_right; eassumption.
    + exists b; split; [exact E|]. rewrite Hb; split.
      * intros (w & Hw & y & Hy & Hr); apply (row_live g u r w W Hl R) in Hw.
        exists w; split; [exact Hw|]. eapply reach_step; eassumption.
      * intros (w & Hw & Hr); exists w; split; [apply (row_live g u r w W Hl R); exact Hw|].
        inversion Hr as [|x y z Hy Hr']; subst; [unfold arrow in Hw; congruence|]. exists y; auto.
Qed.

Lemma dpe_spec g u v fuel : WF g -> all_live g -> acyclic (arrow g) -> List.length (nodes g) < fuel ->
  (exists w, edge_exists g u w = true) ->
  exists b, directed_path_exists fuel g u v = Ok b /\ (b = true <-> reach_plus (arrow g) u v).
Proof.
  intros W Hl Ha Hf (w & Hw); apply (dpe_fuel_spec g v W Hl Ha fuel u []).
  - assert (L := unseen_le (dkeys (nodes g)) [u]). unfold dkeys in L at 2; rewrite map_length in L; lia.
  - apply live_rows; [exact W|]. rewrite edge_exists_or in Hw; apply orb_true_iff in Hw; exists w; exact Hw.
  - intros x [].
Qed.

Lemma listed_cons g u v w q : arrow g u w -> ~ arrow g u v -> listed_path g w v q -> listed_path g u v (u :: q).
Proof.
  intros A N ([q' ->] & He & Hc & Hl & Hs); split; [eexists; reflexivity|]. split; [apply (proj2 (ends_tail _ _ _ _)); exact He|].
  split; [constructor; assumption|]. split; [simpl in *; lia|].
  intros [|x p1] a b c p2 E; simpl in E; injection E as -> E.
  - exact N.
  - eapply Hs; exact E.
Qed.

Lemma rflat_spec {A B} (f : A -> res (list B)) (P : A -> B -> Prop) l :
  (forall a, In a l -> exists ys, f a = Ok ys /\ forall y, In y ys <-> P a y) ->
  exists ys, rflat f l = Ok ys /\ forall y, In y ys <-> exists a, In a l /\ P a y.
Proof.
  induction l as [|a l IH]; intros Hf.
  - exists []; split; [reflexivity|]. intros y; split; [contradiction|intros (a & [] & _)].
  - destruct (Hf a (or_introl eq_refl)) as (y1 & E1 & H1).
    destruct IH as (y2 & E2 & H2); [intros x Hx; apply Hf; right; exact Hx|].
    exists (y1 ++ y2); simpl; rewrite E1; simpl; rewrite E2; split; [reflexivity|].
    intros y; rewrite in_app_iff, H1, H2; split.
    + intros [Hx|(x & Hx & Px)]; [exists a; simpl; auto|exists x; simpl; auto].
    + intros (x & [<-|Hx] & Px); [auto|right; eauto].
Qed.

Lemma dp_fuel_spec g v : WF g -> acyclic (arrow g) ->
  forall n u vis, unseen (dkeys (nodes g)) (u :: vis) < n -> (exists r, dget (edges g) u = Some r) ->
    (forall x, In x vis -> reach_plus (arrow g) x u) ->
  exists ps, directed_paths n g u v = Ok ps /\
    forall q, In q ps <-> exists p, listed_path g u v p /\ q = pairs_of p.
Proof.
  intros W Ha; induction n as [|n IH]; intros u vis Hf [r R] Hv; [lia|].
  cbn [directed_paths]. destruct (directed_edge_exists g u v) eqn:D.
  - exists [[(u, v)]]; split; [reflexivity|]. intros q; split.
    + intros [<-|[]]; exists [u; v]; split; [|reflexivity].
      split; [eexists; reflexivity|]. split; [exists [u]; reflexivity|].
      split; [constructor; [exact D|constructor]|]. split; [simpl; lia|].
      intros p1 a b c p2 E; exfalso. eapply (triple_two u v a b c); exists p1, p2; exact E.
    + intros (p & ([q' ->] & He & Hc & Hl & Hs) & ->).
      destruct q' as [|x [|y q']]; [simpl in Hl; lia| |].
      * apply (proj1 (ends_tail _ _ _ _)), (proj1 (ends_sing _ _)) in He; subst; left; reflexivity.
      * exfalso; apply (Hs [] u x y q' eq_refl); exact D.
  - rewrite R.
    destruct (rflat_spec (fun w => if dmem (nodes g) w then
                                 if directed_edge_exists g u w then
                                   rbind (directed_paths n g w v) (fun ps => Ok (map (cons (u, w)) ps))
                                 else Ok []
                               else Err KeyError)
                (fun w q => arrow g u w /\ exists p, listed_path g w v p /\ q = (u, w) :: pairs_of p) (dkeys r)) as (ps & E & Hp).
    + intros w Hw.
      assert (Hm : dmem (nodes g) w = true).
      { apply (row_keys _ _ _ w R) in Hw; destruct Hw as [e Ee]; destruct (wf_fwd _ W _ _ _ Ee) as (_ & B & _); exact B. }
      rewrite Hm. destruct (directed_edge_exists g u w) eqn:Dw.
      * assert (Hnv : ~ In w (u :: vis)).
        { intros [<-|Hin].
          - apply (Ha u); exists u; split; [exact Dw|apply reach_refl].
          - destruct (Hv w Hin) as (y & Hy & Hr). apply (Ha w); exists y; split; [exact Hy|].
            eapply reach_plus_right; [exact Hr|exact Dw]. }
        destruct (IH w (u :: vis)) as (ps & E & Hp).
        -- assert (Hn : In w (dkeys (nodes g))) by (apply dmem_In; exact Hm).
           assert (L := unseen_cons_lt _ _ _ Hn Hnv); lia.
        -- apply live_rows; [exact W|]; exists u; right; exact Dw.
        -- intros x [<-|Hx]; [exists w; split; [exact Dw|apply reach_refl]|].
           destruct (Hv x Hx) as (y & Hy & Hr); exists y; split; [exact Hy|]. eapply reach_plus_right; [exact Hr|exact Dw].
        -- rewrite E; exists (map (cons (u, w)) ps); split; [reflexivity|].
           intros q; rewrite in_map_iff; split.
           ++ intros (q' & <- & Hq); apply Hp in Hq; destruct Hq as (p & Hl & ->); split; [exact Dw|eauto].
           ++ intros (_ & p & Hl & ->); exists (pairs_of p); split; [reflexivity|apply Hp; eauto].
      * exists []; split; [reflexivity|]. intros q; split; [contradiction|]. intros (A & _); unfold arrow in A; congruence.
    + exists ps; split; [exact E|]. intros q; rewrite Hp; split.
      * intros (w & Hw & A & p & Hl & ->). exists (u :: p); split.
        -- apply (listed_cons g u v w p); auto. unfold arrow; congruence.
        -- destruct Hl as ([q' ->] & _); reflexivity.
      * intros (p & ([q' ->] & He & Hc & Hl & Hs) & ->).
        destruct q' as [|w q']; [simpl in Hl; lia|].
        inversion Hc as [| |? ? ? A Hc']; subst. exists w; split.
        -- apply (row_keys _ _ _ w R). assert (A' := A); apply dee_iff in A'; [|exact W]; destruct A' as (e & Ee & _); exists e; exact Ee.
        -- split; [exact A|]. exists (w :: q'); split; [|reflexivity].
           split; [eexists; reflexivity|]. split; [apply (proj1 (ends_tail _ _ _ _)) in He; exact He|]. split; [exact Hc'|].
           split.
           ++ destruct q' as [|z q']; [|simpl; lia].
              apply (proj1 (ends_tail _ _ _ _)), (proj1 (ends_sing _ _)) in He; subst; unfold arrow in A; congruence.
           ++ intros p1 a b c p2 Ep; apply (Hs (u :: p1) a b c p2); rewrite Ep; reflexivity.
Qed.

Lemma dp_spec g u v fuel : WF g -> acyclic (arrow g) -> List.length (nodes g) < fuel ->
  (exists w, edge_exists g u w = true) ->
  exists ps, directed_paths fuel g u v = Ok ps /\
    forall q, In q ps <-> exists p, listed_path g u v p /\ q = pairs_of p.
Proof.
  intros W Ha Hf (w & Hw); apply (dp_fuel_spec g v W Ha fuel u []).
  - assert (L := unseen_le (dkeys (nodes g)) [u]). unfold dkeys in L at 2; rewrite map_length in L; lia.
  - apply live_rows; [exact W|]. rewrite edge_exists_or in Hw; apply orb_true_iff in Hw; exists w; exact Hw.
  - intros x [].
Qed.
