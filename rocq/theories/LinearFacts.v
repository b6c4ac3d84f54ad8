(* In data that follow linear structural equations over a DAG, d-separation makes residuals orthogonal. *)
From Coq Require Import Reals List Lia Lra.
From Verif Require Import Base PyDict Graph SampleGen SampleSpec SampleFacts Dag DagFacts PathSpec GraphCheck RuleFacts SkelSpec Ball DsepDec Numeric NumericSpec NumericFacts LinearSpec UnitsFacts.
Import ListNotations.
Open Scope R_scope.

Notation lsum f l := (vsum (map f l)).
Lemma lsum_ext {A} (f g : A -> R) l : (forall a, In a l -> f a = g a) -> lsum f l = lsum g l.
Proof. intros H. induction l as [|a l IH]; [reflexivity|]. cbn. rewrite (H a (or_introl eq_refl)), IH; [reflexivity|]. intros; apply H; right; assumption. Qed.
Lemma lsum_zero {A} (l : list A) : lsum (fun _ => 0) l = 0.
Proof. induction l as [|a l IH]; [reflexivity|]. cbn. rewrite IH. ring. Qed.
Lemma lsum_minus {A} (f g : A -> R) l : lsum (fun a => f a - g a) l = lsum f l - lsum g l.
Proof. induction l as [|a l IH]; cbn; [ring|]. rewrite IH. ring. Qed.
Lemma lsum_swap {A B} (f : A -> B -> R) l m : lsum (fun a => lsum (f a) m) l = lsum (fun b => lsum (fun a => f a b) l) m.
Proof. induction l as [|a l IH]; [cbn; rewrite lsum_zero; reflexivity|]. cbn. rewrite IH. rewrite <- vsum_map_plus. reflexivity. Qed.
Lemma lsum_single (f : id -> R) l v : NoDup l -> In v l -> (forall w, In w l -> w <> v -> f w = 0) -> lsum f l = f v.
Proof.
  induction l as [|a l IH]; intros ND I Z; [destruct I|]. inversion ND as [|a' l' Na ND']; subst. cbn. destruct I as [->|I].
  - rewrite (lsum_ext f (fun _ => 0)), lsum_zero; [ring|]. intros w Hw. apply Z; [right; exact Hw|]. intros ->. exact (Na Hw).
  - rewrite IH; [|exact ND'|exact I|intros w Hw; apply Z; right; exact Hw]. rewrite (Z a); [ring|left; reflexivity|]. intros ->. exact (Na I).
Qed.
Lemma lsum_nonneg {A} (f : A -> R) l : (forall a, In a l -> 0 <= f a) -> 0 <= lsum f l.
Proof. induction l as [|a l IH]; intros H; cbn; [lra|]. assert (0 <= f a) by (apply H; left; reflexivity). assert (0 <= lsum f l) by (apply IH; intros; apply H; right; assumption). lra. Qed.
Lemma lsum_pos_zero {A} (f : A -> R) l : (forall a, In a l -> 0 <= f a) -> lsum f l = 0 -> forall a, In a l -> f a = 0.
Proof.
  induction l as [|b l IH]; intros H E a I; [destruct I|]. cbn in E. assert (0 <= f b) by (apply H; left; reflexivity). assert (0 <= lsum f l) by (apply lsum_nonneg; intros; apply H; right; assumption).
  destruct I as [->|I]; [lra|]. apply IH; [intros; apply H; right; assumption|lra|exact I].
Qed.
Lemma sumn_lsum {A} n (f : A -> nat -> R) l : sumn n (fun t => lsum (fun a => f a t) l) = lsum (fun a => sumn n (f a)) l.
Proof. induction l as [|a l IH]; cbn; [apply sumn_zero|]. rewrite sumn_plus, IH. reflexivity. Qed.
Lemma ip_lsum {A} n (c : A -> R) (F : A -> nat -> R) l g : ip n (fun t => lsum (fun a => c a * F a t) l) g = lsum (fun a => c a * ip n (F a) g) l.
Proof.
  unfold ip. rewrite (sumn_ext n _ (fun t => lsum (fun a => c a * (F a t * g t)) l)).
  - rewrite (sumn_lsum n (fun a t => c a * (F a t * g t))). apply lsum_ext. intros a _. apply sumn_scale.
  - intros t _. rewrite Rmult_comm, <- vsum_map_scale. apply lsum_ext. intros; ring.
Qed.

(* ---- the family of a node on one side of a separation ---- *)
Section Side.
Variable D : list (id * id).
Notation E := (edge_in D).
Hypothesis Ac : acyclic E.
Variables (x y : id) (S : list id).
Hypothesis Nxy : x <> y.
Hypothesis Sx : ~ In x S.
Hypothesis Sy : ~ In y S.
Hypothesis Sep : dsep D x y S.
(* v is on the side of x: connected with x given S *)
Definition near (v : id) : bool := if string_dec v x then true else negb (dsepb D x v S).
Lemma edec u v : {E u v} + {~ E u v}.
Proof. destruct (edgeb D u v) eqn:Q; [left; apply edgeb_iff; exact Q|right; intros H; apply edgeb_iff in H; congruence]. Qed.
Lemma no_ball h : ~ ball E S x y h.
Proof. apply (proj1 (sep_ball E edec Ac S x y Nxy)). exact Sep. Qed.
Lemma sep_iff v : dsepb D x v S = true <-> dsep D x v S.
Proof. exact (dsepb_iff D Ac x v S). Qed.
Lemma ball_near v h : v = x \/ ball E S x v h -> near v = true.
Proof.
  unfold near. destruct (string_dec v x) as [|N]; [reflexivity|]. intros [->|B]; [contradiction|]. destruct (dsepb D x v S) eqn:Q; [|reflexivity]. exfalso.
  apply sep_iff in Q. apply (proj1 (sep_ball E edec Ac S x v (fun e => N (eq_sym e))) Q h B).
Qed.
Lemma near_ball v : near v = true -> ~ ~ (v = x \/ exists h, ball E S x v h).
Proof.
  unfold near. destruct (string_dec v x) as [->|N]; [intros _ H; apply H; left; reflexivity|]. intros Q H. apply Bool.negb_true_iff in Q.
  assert (X : dsep D x v S). { apply (sep_ball E edec Ac S x v (fun e => N (eq_sym e))). intros h B. apply H. right. exists h. exact B. }
  apply sep_iff in X. congruence.
Qed.
Lemma near_x : near x = true.
Proof. unfold near. destruct (string_dec x x); [reflexivity|contradiction]. Qed.
Lemma far_y : near y = false.
Proof. destruct (near y) eqn:Q; [|reflexivity]. exfalso. apply (near_ball y Q). intros [->|[h B]]; [exact (Nxy eq_refl)|exact (no_ball h B)]. Qed.
(* w is an ancestor of x, y or a member of S *)
Definition relevant (w : id) : Prop := exists t, reach E w t /\ (t = x \/ t = y \/ In t S).
Definition to_S (w : id) : Prop := exists d, reach E w d /\ In d S.
Lemma step_x w : reach E w x -> ~ to_S w -> w = x \/ ball E S x w false.
Proof.
  intros R. remember x as t eqn:Et in R. revert Et. induction R as [w|w v t Ewv R IH]; intros Et N; [left; exact Et|]. right.
  assert (Nv : ~ to_S v). { intros (d & Rd & Sd). apply N. exists d. split; [exact (reach_step id E w v d Ewv Rd)|exact Sd]. }
  destruct IH as [->|B]; try assumption; [apply b_in; exact Ewv|]. apply (b_up _ _ _ v w B); [|exact Ewv]. intros I. apply Nv. exists v. split; [apply reach_refl|exact I].
Qed.
Lemma step_y w h : reach E w y -> ~ to_S w -> ball E S x w h -> False.
Proof.
  intros R. remember y as t eqn:Et in R. revert h Et. induction R as [w|w v t Ewv R IH]; intros h Et N B; [rewrite Et in B; exact (no_ball h B)|].
  assert (Nv : ~ to_S v). { intros (d & Rd & Sd). apply N. exists d. split; [exact (reach_step id E w v d Ewv Rd)|exact Sd]. }
  apply (IH true Et Nv). apply (b_down _ _ _ w h v B); [|exact Ewv]. intros I. apply N. exists w. split; [apply reach_refl|exact I].
Qed.
Lemma to_S_dec w : to_S w \/ ~ to_S w.
Proof.
  unfold to_S. destruct (existsb (reachb D w) S) eqn:Q.
  - left. apply existsb_exists in Q. destruct Q as (d & I & Q). exists d. split; [apply (reachb_iff D Ac); exact Q|exact I].
  - right. intros (d & R & I). assert (existsb (reachb D w) S = true); [|congruence]. apply existsb_exists. exists d. split; [exact I|apply (reachb_iff D Ac); exact R].
Qed.
(* if the walk enters a relevant node it can leave it against its arrows *)
Lemma parents_of w u : relevant w -> (w = x \/ exists h, ball E S x w h) -> (In w S -> ball E S x w true) -> E u w -> near u = true.
Proof.
  intros (t & R & T) A IS Euw. destruct A as [->|[h B]]; [apply (ball_near u false); right; apply b_in; exact Euw|].
  destruct (in_dec string_dec w S) as [I|I]; [apply (ball_near u false); right; exact (b_turn _ _ _ w u (IS I) I Euw)|].
  destruct h; [|apply (ball_near u false); right; exact (b_up _ _ _ w u B I Euw)].
  destruct (to_S_dec w) as [(d & Rd & Sd)|N].
  - destruct (detour E S x w d Rd Sd B) as [J|[_ Bf]]; [contradiction|]. apply (ball_near u false). right. exact (b_up _ _ _ w u Bf I Euw).
  - destruct T as [->|[->|T]]; [| |exfalso; apply N; exists t; split; assumption].
    + destruct (step_x w R N) as [->|Bf]; [apply (ball_near u false); right; apply b_in; exact Euw|apply (ball_near u false); right; exact (b_up _ _ _ w u Bf I Euw)].
    + exfalso. exact (step_y w true R N B).
Qed.
Lemma child_of u w : ~ In u S -> near u = true -> E u w -> ~ ~ ball E S x w true.
Proof.
  intros N Q Euw H. apply (near_ball u Q). intros [->|[h B]]; apply H; [apply b_out; exact Euw|exact (b_down _ _ _ u h w B N Euw)].
Qed.
(* a node and its parents, without S, are all near or all far *)
Lemma family_near w u v : relevant w -> (u = w \/ E u w) -> (v = w \/ E v w) -> ~ In u S -> ~ In v S -> near u = true -> near v = true.
Proof.
  intros Re Fu Fv Nu Nv Q. destruct (near v) eqn:Qv; [reflexivity|]. exfalso. destruct Fu as [->|Euw].
  - destruct Fv as [->|Evw]; [congruence|]. apply (near_ball w Q). intros A. assert (X := parents_of w v Re A (fun I => match Nu I with end) Evw). congruence.
  - apply (child_of u w Nu Q Euw). intros B. destruct Fv as [->|Evw].
    + assert (X := ball_near w true (or_intror B)). congruence.
    + assert (X := parents_of w v Re (or_intror (ex_intro _ true B)) (fun _ => B) Evw). congruence.
Qed.
End Side.

(* ---- the equations solved for the noise ---- *)
Section Solve.
Variable ns : list id.
Variable es : list (sedge R).
Notation D := (arrows es).
Notation E := (edge_in D).
Hypothesis ND : NoDup ns.
Hypothesis DO : dag_over ns D.
(* what the causes leave of the value of w *)
Definition left_over (g : id -> R) (w : id) : R := g w - lsum (fun e => se_value e * g (se_from e)) (incoming es w).
Lemma arrow_cause u v : E u v <-> cause es u v.
Proof.
  unfold edge_in, arrows, cause. rewrite in_map_iff. split; intros (e & A & B).
  - injection A as <- <-. exists e. auto.
  - destruct B as [<- <-]. exists e. auto.
Qed.
Lemma incoming_edge e w : In e (incoming es w) -> E (se_from e) w.
Proof.
  unfold incoming. rewrite filter_In. intros [I Q]. destruct (string_dec (se_to e) w) as [<-|]; [|discriminate]. unfold edge_in, arrows. apply in_map_iff. exists e. auto.
Qed.
Definition expansion (l : list (R * id)) (m : id -> R) : Prop :=
  (forall w, m w <> 0 -> exists p, In p l /\ reach E w (snd p)) /\
  forall g, lsum (fun p => fst p * g (snd p)) l = lsum (fun w => m w * left_over g w) ns.
Lemma ranked : exists rank : id -> nat, forall u v, E u v -> (rank u < rank v)%nat.
Proof.
  assert (AC : acyclic (cause es)). { intros v (u & A & B). apply (do_acyclic _ _ DO v). exists u. split; [apply arrow_cause; exact A|]. clear A. induction B; [apply reach_refl|]. eapply reach_step; [apply arrow_cause; eassumption|exact IHB]. }
  assert (SO : set_order (fun l => nodup string_dec l)) by (intros l; split; [apply NoDup_nodup|intros a; apply nodup_In]).
  destruct (iid_variables_end es (2 * List.length es) _ SO AC (le_n _)) as [vs V]. destruct (iid_variables_ok es _ _ vs SO V) as (NDv & _ & B).
  exists (fun v => index v vs). intros u v H. apply before_index; [exact NDv|]. apply B, arrow_cause, H.
Qed.
Lemma expand_list l : (forall p, In p l -> exists m, expansion [(1, snd p)] m) -> exists m, expansion l m.
Proof.
  induction l as [|p l IH]; intros H.
  - exists (fun _ => 0). split; [intros w N; contradiction N; reflexivity|]. intros g. cbn. rewrite (lsum_ext _ (fun _ => 0)); [symmetry; apply lsum_zero|intros; ring].
  - destruct (H p (or_introl eq_refl)) as (m1 & A1 & B1). destruct (IH (fun q I => H q (or_intror I))) as (m2 & A2 & B2). exists (fun w => fst p * m1 w + m2 w). split.
    + intros w N. destruct (Req_EM_T (m2 w) 0) as [Z|Z].
      * destruct (A1 w) as (q & [<-|[]] & Rq); [intros Z1; apply N; rewrite Z, Z1; ring|]. exists p. split; [left; reflexivity|exact Rq].
      * destruct (A2 w Z) as (q & I & Rq). exists q. split; [right; exact I|exact Rq].
    + intros g. cbn [map vsum]. rewrite B2. specialize (B1 g). cbn in B1. replace (g (snd p)) with (1 * g (snd p) + 0) by ring. rewrite B1, <- vsum_map_scale, <- vsum_map_plus. apply lsum_ext. intros; ring.
Qed.
Lemma expand_one v : In v ns -> exists m, expansion [(1, v)] m.
Proof.
  destruct ranked as [rank Rk]. intros I. remember (rank v) as k eqn:Ek. revert v I Ek. induction k as [k IH] using (well_founded_induction lt_wf). intros v I Ek.
  destruct (expand_list (map (fun e => (se_value e, se_from e)) (incoming es v))) as (m & A & B).
  { intros p Hp. apply in_map_iff in Hp. destruct Hp as (e & <- & He). cbn [snd]. assert (Eu := incoming_edge e v He). apply (IH (rank (se_from e))); [rewrite Ek; apply Rk; exact Eu|apply (do_nodes _ _ DO _ _ Eu)|reflexivity]. }
  exists (fun w : id => (if string_dec w v then 1 else 0) + m w). split.
  - intros w N. exists (1, v). split; [left; reflexivity|]. cbn [snd]. destruct (string_dec w v) as [->|Nw]; [apply reach_refl|].
    destruct (A w) as (p & Hp & Rp); [intros Z; apply N; rewrite Z; ring|]. apply in_map_iff in Hp. destruct Hp as (e & <- & He). cbn [snd] in Rp. assert (Eu := incoming_edge e v He).
    clear -Rp Eu. induction Rp as [a|a b c Eab R IH]; [exact (reach_step id E _ _ _ Eu (reach_refl id E v))|]. exact (reach_step id E _ _ _ Eab (IH Eu)).
  - intros g. specialize (B g). rewrite map_map in B. cbn [fst snd] in B. cbn [map vsum fst snd].
    rewrite (lsum_ext (fun w : id => ((if string_dec w v then 1 else 0) + m w) * left_over g w) (fun w : id => (if string_dec w v then 1 else 0) * left_over g w + m w * left_over g w)) by (intros; ring).
    rewrite (vsum_map_plus (fun w : id => (if string_dec w v then 1 else 0) * left_over g w) (fun w : id => m w * left_over g w)). rewrite <- B. rewrite (lsum_single (fun w : id => (if string_dec w v then 1 else 0) * left_over g w) ns v ND I).
    + destruct (string_dec v v); [|contradiction]. unfold left_over. ring.
    + intros w _ Nw. destruct (string_dec w v); [contradiction|ring].
Qed.
Lemma expand l : (forall p, In p l -> In (snd p) ns) -> exists m, expansion l m.
Proof. intros H. apply expand_list. intros p I. apply expand_one, H, I. Qed.

(* ---- orthogonality ---- *)
Variable n : nat.
Variable X : id -> nat -> R.      (* centered columns *)
Notation N w := (fun t => left_over (fun v => X v t) w).
Hypothesis Un : forall u v, In u ns -> In v ns -> u <> v -> ip n (N u) (N v) = 0.
Lemma ip_left (r : nat -> R) w : ip n (N w) r = left_over (fun v => ip n (X v) r) w.
Proof. unfold left_over. rewrite ip_minus. f_equal. apply (ip_lsum n se_value (fun e => X (se_from e))). Qed.
Lemma orthogonal x y S c : In x ns -> In y ns -> (forall s, In s S -> In s ns) -> x <> y -> ~ In x S -> ~ In y S -> dsep D x y S ->
  forall r, (forall t, (t < n)%nat -> r t = X x t - lsum (fun j => c j * X (nth j S ""%string) t) (seq 0 (List.length S))) ->
  (forall s, In s S -> ip n (X s) r = 0) -> ip n (X y) r = 0.
Proof.
  intros Ix Iy IS Nxy Sx Sy Sep r Er Or. set (sl := seq 0 (List.length S)) in *.
  set (l := (1, x) :: map (fun j => (- c j, nth j S ""%string)) sl).
  assert (Hsl : forall j, In j sl -> In (nth j S ""%string) S) by (intros j Hj; apply nth_In; apply in_seq in Hj; lia).
  destruct (expand l) as (m & A & B). { intros p [<-|Hp]; [exact Ix|]. apply in_map_iff in Hp. destruct Hp as (j & <- & Hj). apply IS, Hsl, Hj. }
  assert (Bl : forall g, g x - lsum (fun j => c j * g (nth j S ""%string)) sl = lsum (fun w => m w * left_over g w) ns).
  { intros g. rewrite <- B. unfold l. cbn [map vsum fst snd]. rewrite map_map. cbn [fst snd]. rewrite (lsum_ext (fun j => - c j * g (nth j S ""%string)) (fun j => (-1) * (c j * g (nth j S ""%string)))) by (intros; ring). rewrite vsum_map_scale. ring. }
  (* the residual is a combination of the noise *)
  assert (Rn : forall t, (t < n)%nat -> r t = lsum (fun w => m w * N w t) ns) by (intros t Ht; rewrite (Er t Ht); apply (Bl (fun v => X v t))).
  assert (Nr : forall w, In w ns -> ip n (N w) r = m w * ip n (N w) (N w)).
  { intros w Iw. rewrite ip_sym, (ip_ext n r (fun t => lsum (fun w => m w * N w t) ns) (N w) (N w) Rn (fun _ _ => eq_refl)), (ip_lsum n m (fun w => N w)).
    rewrite (lsum_single (fun v => m v * ip n (N v) (N w)) ns w ND Iw); [reflexivity|]. intros v Iv Nv. rewrite Un by assumption. ring. }
  set (f := fun v => ip n (X v) r). assert (Fw : forall w, In w ns -> left_over f w = m w * ip n (N w) (N w)) by (intros w Iw; rewrite <- (Nr w Iw); symmetry; apply ip_left).
  assert (Ac := do_acyclic _ _ DO). set (far := fun v => if near D x S v then false else if in_dec string_dec v S then false else true). set (g := fun v => if far v then f v else 0).
  assert (gS : forall v, In v S -> g v = f v) by (intros v I; unfold g, far, f; destruct (near D x S v); [symmetry; apply Or; exact I|]; destruct (in_dec string_dec v S); [symmetry; apply Or; exact I|contradiction]).
  (* on relevant nodes, what g leaves over is 0 or what f leaves over *)
  assert (Split : forall w, In w ns -> relevant D x y S w -> left_over g w = 0 \/ left_over g w = left_over f w).
  { intros w Iw Re. set (fam := fun u => u = w \/ E u w).
    assert (Q : (exists u, fam u /\ ~ In u S /\ near D x S u = true) \/ forall u, fam u -> ~ In u S -> near D x S u = false).
    { set (b := fun u => if in_dec string_dec u S then false else near D x S u). destruct (existsb b (w :: map se_from (incoming es w))) eqn:Q.
      - left. apply existsb_exists in Q. destruct Q as (u & Iu & Q). exists u. unfold b in Q. destruct (in_dec string_dec u S) as [|Nu]; [discriminate|]. split; [|split; [exact Nu|exact Q]].
        destruct Iu as [<-|Iu]; [left; reflexivity|]. apply in_map_iff in Iu. destruct Iu as (e & <- & He). right. apply incoming_edge, He.
      - right. intros u Fu Nu. destruct (near D x S u) eqn:Qu; [|reflexivity]. exfalso. assert (existsb b (w :: map se_from (incoming es w)) = true); [|congruence]. apply existsb_exists. exists u. split.
        + destruct Fu as [->|Eu]; [left; reflexivity|]. right. apply arrow_cause in Eu. destruct Eu as (e & He & Ef & Et). apply in_map_iff. exists e. split; [exact Ef|]. unfold incoming. apply filter_In. split; [exact He|]. destruct (string_dec (se_to e) w); [reflexivity|contradiction].
        + unfold b. destruct (in_dec string_dec u S); [contradiction|exact Qu]. }
    assert (Fe : forall e, In e (incoming es w) -> fam (se_from e)) by (intros e He; right; apply incoming_edge, He).
    destruct Q as [(u & Fu & Nu & Qu)|Q].
    - left. assert (Z : forall v, fam v -> g v = 0).
      { intros v Fv. destruct (in_dec string_dec v S) as [I|I]; [rewrite gS by exact I; apply Or; exact I|]. unfold g, far. rewrite (family_near D Ac x y S Nxy Sep w u v Re Fu Fv Nu I Qu). reflexivity. }
      unfold left_over. rewrite (Z w (or_introl eq_refl)), (lsum_ext _ (fun _ => 0)), lsum_zero; [ring|]. intros e He. rewrite (Z _ (Fe e He)). ring.
    - right. assert (Z : forall v, fam v -> g v = f v).
      { intros v Fv. destruct (in_dec string_dec v S) as [I|I]; [apply gS; exact I|]. unfold g, far. rewrite (Q v Fv I). destruct (in_dec string_dec v S); [contradiction|reflexivity]. }
      unfold left_over. rewrite (Z w (or_introl eq_refl)). f_equal. apply lsum_ext. intros e He. rewrite (Z _ (Fe e He)). reflexivity. }
  (* all of it is 0 *)
  assert (Rel : forall w, m w <> 0 -> relevant D x y S w).
  { intros w Z. destruct (A w Z) as (p & Hp & Rp). exists (snd p). split; [exact Rp|]. destruct Hp as [<-|Hp]; [left; reflexivity|]. apply in_map_iff in Hp. destruct Hp as (j & <- & Hj). right. right. apply Hsl, Hj. }
  assert (Sum : lsum (fun w => m w * left_over g w) ns = 0).
  { rewrite <- Bl. unfold g at 1, far at 1. rewrite near_x. rewrite (lsum_ext _ (fun _ => 0)), lsum_zero; [ring|]. intros j Hj. rewrite gS by (apply Hsl, Hj). unfold f. rewrite Or by (apply Hsl, Hj). ring. }
  assert (Pos : forall w, In w ns -> 0 <= m w * left_over g w).
  { intros w Iw. destruct (Req_EM_T (m w) 0) as [Z|Z]; [rewrite Z; lra|]. destruct (Split w Iw (Rel w Z)) as [Q|Q]; rewrite Q; [lra|]. rewrite Fw by exact Iw. assert (H := ip_nonneg n (N w)). nra. }
  assert (Zero : forall w, In w ns -> relevant D x y S w -> left_over g w = 0).
  { intros w Iw Re. destruct (Split w Iw Re) as [Q|Q]; [exact Q|]. assert (P := lsum_pos_zero _ ns Pos Sum w Iw). cbn beta in P. rewrite Q, (Fw w Iw) in P. rewrite Q, (Fw w Iw).
    set (s := ip n (N w) (N w)) in *. destruct (Req_EM_T (m w) 0) as [Z|Z]; [rewrite Z; ring|]. apply (Rmult_eq_reg_l (m w)); [rewrite P; ring|exact Z]. }
  destruct (expand [(1, y)]) as (my & Ay & By); [intros p [<-|[]]; exact Iy|]. specialize (By g). cbn [map vsum fst snd] in By.
  assert (Gy : g y = f y). { unfold g, far. rewrite (far_y D Ac x y S Nxy Sy Sep). destruct (in_dec string_dec y S); [contradiction|reflexivity]. }
  change (f y = 0). rewrite <- Gy. replace (g y) with (1 * g y + 0) by ring. rewrite By. rewrite (lsum_ext _ (fun _ => 0)); [apply lsum_zero|]. intros w Iw. destruct (Req_EM_T (my w) 0) as [Z|Z]; [rewrite Z; ring|].
  rewrite Zero; [ring|exact Iw|]. destruct (Ay w Z) as (p & [<-|[]] & Rp). exists y. split; [exact Rp|right; left; reflexivity].
Qed.
End Solve.
