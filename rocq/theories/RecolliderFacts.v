(* Facts about one ColliderTest step on a graph that may already have arrows, for C119. *)
From Verif Require Import Base PyDict PyDictFacts Graph GraphSpec GraphFacts GraphInv GraphInv2 GraphQ Actions ActionSpec ActionFacts ActionMain Generators GenSpec GenFacts
  Rules RuleFacts IndepTests Pipeline Parallel PipeSpec PipeFacts PipeMain PipeMain2 LoopFacts Dag PathSpec SkelSpec SkelFacts OrientSpec ColliderFacts Serve ConflictSpec ConflictFacts RecolliderSpec.
Open Scope string_scope.
Open Scope list_scope.
Open Scope nat_scope.

Section Recollide.
Variable g : graph.
Hypothesis W : WF g.
Hypothesis CL : clean g.
Notation ids := (dkeys (nodes g)).
Hypothesis RW : forall x y, In (x, y) (node_pairs ids) -> dmem (edges g) x = true /\ dmem (edges g) y = true.
Hypothesis RD : forall x y i, In (x, y) (node_pairs ids) -> In i (history g (x, y)) -> t_act i = REMOVE_EDGE_UNDIRECTED ->
  exists d, t_data i = Some d /\ (dget d "separatedBy" = None \/ exists s, dget d "separatedBy" = Some (MNodes s)).
Variable so : list id -> list id.
Hypothesis SO : set_order so.

Lemma rc_stored x z : (exists e, eget g x z = Some e) <-> directed_edge_exists g x z = true.
Proof.
  split.
  - intros (e & G). rewrite <- entry_eget in G. exact (CL _ _ _ (entry_ok _ _ _ _ G)).
  - intros L. destruct (live_entry _ _ _ W L) as (e & G & _). eauto.
Qed.
Lemma rc_row x : dmem (edges g) x = true -> exists r, row_of g x = Ok r /\ forall z, In z r <-> directed_edge_exists g x z = true.
Proof.
  intros R. unfold row_of, dmem in *. destruct (dget (edges g) x) as [r|] eqn:E; [|discriminate].
  exists (dkeys r). split; [reflexivity|]. intros z. rewrite <- rc_stored. unfold eget, dget2. rewrite E. rewrite <- dmem_In. unfold dmem. destruct (dget r z) as [e|]; split; intros Q; eauto; try discriminate. destruct Q; discriminate.
Qed.
Lemma rc_common x y : In (x, y) (node_pairs ids) -> exists zs, common_keys so g x y = Ok zs /\ forall z, In z zs <-> directed_edge_exists g x z = true /\ directed_edge_exists g y z = true.
Proof.
  intros P. destruct (RW x y P) as [Hx Hy]. destruct (rc_row x Hx) as (rx & Ex & Ix). destruct (rc_row y Hy) as (ry & Ey & Iy). unfold common_keys. rewrite Ex, Ey. cbn [rbind]. eexists. split; [reflexivity|].
  intros z. rewrite (proj2 (SO _) z), filter_In, mem_In, Ix, Iy. tauto.
Qed.
Lemma rc_seps x y : In (x, y) (node_pairs ids) -> exists acts S, retrieve_edge_history g x y (Some REMOVE_EDGE_UNDIRECTED) = Ok acts /\ separators acts = Ok S /\ forall z, In z S <-> in_sepset g x y z.
Proof.
  intros Pxy. assert (R : retrieve_edge_history g x y (Some REMOVE_EDGE_UNDIRECTED) = Ok (removals (history g (x, y)))).
  { unfold retrieve_edge_history, history, removals. destruct (dget (ehist g) (x, y)); reflexivity. }
  assert (Q : forall l, (forall i, In i l -> exists d, t_data i = Some d /\ (dget d "separatedBy" = None \/ exists s, dget d "separatedBy" = Some (MNodes s))) ->
    exists S, separators l = Ok S /\ forall z, In z S <-> exists i d s, In i l /\ t_data i = Some d /\ dget d "separatedBy" = Some (MNodes s) /\ In z s).
  { induction l as [|i l IH]; intros H; [exists []; split; [reflexivity|]; intros z; split; [intros []|intros (? & ? & ? & [] & _)]|].
    destruct (IH (fun j h => H j (or_intror h))) as (S & E & I). destruct (H i (or_introl eq_refl)) as (d & Ed & [N|(s & Es)]).
    - exists S. unfold separators in *. cbn [rflat]. rewrite Ed, N. cbn [rbind]. rewrite E. cbn [rbind app]. split; [reflexivity|]. intros z. rewrite I. split.
      + intros (j & d' & s & Hj & H'). exists j, d', s. cbn; auto.
      + intros (j & d' & s & [Hj|Hj] & E1 & E2 & Hz); [|exists j, d', s; auto]. exfalso. subst j. congruence.
    - exists (s ++ S). unfold separators in *. cbn [rflat]. rewrite Ed, Es. cbn [rbind]. rewrite E. cbn [rbind]. split; [reflexivity|]. intros z. rewrite in_app_iff, I. split.
      + intros [Hz|(j & d' & s' & Hj & H')]; [exists i, d, s|exists j, d', s']; cbn; auto.
      + intros (j & d' & s' & [Hj|Hj] & E1 & E2 & Hz); [left; subst j; congruence|right; exists j, d', s'; auto]. }
  destruct (Q (removals (history g (x, y)))) as (S & E & I).
  - intros i Hi. apply filter_In in Hi. destruct Hi as [Hi A]. apply (RD x y i Pxy Hi). destruct (t_act i); (reflexivity || discriminate).
  - exists (removals (history g (x, y))), S. split; [exact R|]. split; [exact E|]. intros z. rewrite I. unfold in_sepset. split.
    + intros (i & d & s & Hi & H). apply filter_In in Hi. destruct Hi as [Hi A]. exists i, d, s. split; [exact Hi|]. split; [destruct (t_act i); (reflexivity || discriminate)|exact H].
    + intros (i & d & s & Hi & A & H). exists i, d, s. split; [|exact H]. apply filter_In. split; [exact Hi|]. rewrite A. reflexivity.
Qed.
Lemma rc_inner x z : directed_edge_exists g x z = true -> In z ids.
Proof. intros L. apply rc_stored in L. destruct L as (e & G). apply dmem_In. exact (proj1 (proj2 (wf_fwd _ W _ _ _ G))). Qed.

Lemma rc_call_inv x y local o : In (x, y) (node_pairs ids) -> call (collider_step KEEP_FIRST so) g [x; y] (Some local) = Ok o ->
  exists zs acts S rs, (forall z, taken_for_collider g x z y <-> In z zs /\ ~ In z S) /\ items_of o = rs /\ separators acts = Ok S /\
    rflat (collider_body KEEP_FIRST (Some local) acts g x y) zs = Ok rs.
Proof.
  intros P C. destruct (pair_nodes g W x y P) as (Hx & Hy & Ne). unfold call in C. cbn -[collider_test] in C. apply collider_inv in C. destruct C as (x' & y' & Ex & Ey & C).
  rewrite (node_ok g [x; y] 0 x eq_refl Hx) in Ex. rewrite (node_ok g [x; y] 1 y eq_refl Hy) in Ey. injection Ex as <-. injection Ey as <-. destruct C as [[A ->]|(A & zs & acts & rs & -> & Ez & Eh & F)].
  - exists [], [], [], []. split; [|repeat split; reflexivity]. intros z. split; [intros (_ & B & _); congruence|intros [[] _]].
  - destruct (rc_common x y P) as (zs' & Ez' & Iz). rewrite Ez in Ez'. injection Ez' as <-. destruct (rc_seps x y P) as (acts' & S & Eh' & Es & Is). rewrite Eh in Eh'. injection Eh' as <-.
    exists zs, acts, S, rs. split; [|repeat split; assumption]. intros z. rewrite Iz, Is. unfold taken_for_collider. tauto.
Qed.
Lemma rc_total x y local : In (x, y) (node_pairs ids) -> exists o, call (collider_step KEEP_FIRST so) g [x; y] (Some local) = Ok o.
Proof.
  intros P. destruct (pair_nodes g W x y P) as (Hx & Hy & Ne). unfold call. cbn -[collider_test]. unfold collider_test. rewrite (node_ok g [x; y] 0 x eq_refl Hx), (node_ok g [x; y] 1 y eq_refl Hy). cbn [rbind].
  destruct (undirected_edge_exists g x y); [eauto|]. destruct (rc_common x y P) as (zs & -> & Iz). destruct (rc_seps x y P) as (acts & S & -> & Es & _). cbn [rbind].
  destruct (rflat_total (collider_body KEEP_FIRST (Some local) acts g x y) zs) as (rs & ->); [|cbn; eauto]. intros z Hz. apply Iz in Hz. exact (body_total g KEEP_FIRST acts S local x y z (rc_inner x z (proj1 Hz)) Es).
Qed.

(* what a proposal of the step is: z is the middle and w one of the ends of a triple taken for a collider; the removal of
   z -> w is proposed when nothing was said about w -> z before, and otherwise nothing is done *)
Definition about (local : list outcome) (i : tresult) : Prop := exists x z y w, taken_for_collider g x z y /\ (w = x \/ w = y) /\ t_u i = z /\ t_v i = w /\
  ((t_act i = REMOVE_EDGE_DIRECTED /\ forall o j, In o local -> In j (items_of o) -> ~ (t_u j = w /\ t_v j = z)) \/
   (t_act i = DO_NOTHING /\ exists o j, In o local /\ In j (items_of o) /\ t_u j = w /\ t_v j = z)).
Lemma rc_item x y local o i : In (x, y) (node_pairs ids) -> call (collider_step KEEP_FIRST so) g [x; y] (Some local) = Ok o -> In i (items_of o) ->
  exists z w, taken_for_collider g x z y /\ (w = x \/ w = y) /\ t_u i = z /\ t_v i = w /\
  ((t_act i = REMOVE_EDGE_DIRECTED /\ forall o j, In o local -> In j (items_of o) -> ~ (t_u j = w /\ t_v j = z)) \/
   (t_act i = DO_NOTHING /\ exists o j, In o local /\ In j (items_of o) /\ t_u j = w /\ t_v j = z)).
Proof.
  intros P C Hi. destruct (rc_call_inv x y local o P C) as (zs & acts & S & rs & I & E & Es & F). rewrite E in Hi. destruct (rflat_In _ _ _ _ F Hi) as (z & l & Hz & B & Hl).
  apply collider_body_inv in B. destruct B as (S' & Es' & _ & B). rewrite Es in Es'. injection Es' as <-. destruct B as [[_ ->]|(NS & ux & uy & Ux & Uy & B)]; [destruct Hl|].
  assert (K : taken_for_collider g x z y) by (apply I; auto). exists z.
  assert (Q : forall w uw, filter_unapplied_actions (Some local) w z = Ok uw -> uw <> [] -> exists o' j, In o' local /\ In j (items_of o') /\ t_u j = w /\ t_v j = z).
  { intros w uw U Ne. destruct uw as [|j uw]; [contradiction|]. destruct (proj1 (unapplied_In local w z (j :: uw) j U) (or_introl eq_refl)) as (o' & H). exists o', j. exact H. }
  assert (Q' : forall w, filter_unapplied_actions (Some local) w z = Ok [] -> forall o' j, In o' local -> In j (items_of o') -> ~ (t_u j = w /\ t_v j = z)).
  { intros w U o' j Ho Hj [H1 H2]. exact (proj2 (unapplied_In local w z [] j U) (ex_intro _ o' (conj Ho (conj Hj (conj H1 H2))))). }
  cbn zeta in B. destruct B as [(-> & -> & ->)|[_ ->]].
  - destruct Hl as [<-|[<-|[]]]; [exists x|exists y]; (split; [exact K|]); (split; [auto|]); (split; [reflexivity|]); (split; [reflexivity|]); left; (split; [reflexivity|apply Q'; assumption]).
  - apply in_app_iff in Hl. destruct Hl as [Hl|Hl].
    + destruct uy as [|j uy]; [destruct Hl|]. destruct Hl as [<-|[]]. exists y. split; [exact K|]. split; [auto|]. split; [reflexivity|]. split; [reflexivity|]. right. split; [reflexivity|]. apply (Q y (j :: uy) Uy). discriminate.
    + destruct ux as [|j ux]; [destruct Hl|]. destruct Hl as [<-|[]]. exists x. split; [exact K|]. split; [auto|]. split; [reflexivity|]. split; [reflexivity|]. right. split; [reflexivity|]. apply (Q x (j :: ux) Ux). discriminate.
Qed.
(* a triple taken for a collider gives the two removals or a report about one of its ends *)
Lemma rc_cand x z y local o : taken_for_collider g x z y -> call (collider_step KEEP_FIRST so) g [x; y] (Some local) = Ok o ->
  (In (remove_directed z x (between x y z)) (items_of o) /\ In (remove_directed z y (between x y z)) (items_of o)) \/
  exists w, (w = x \/ w = y) /\ In (mkT z w DO_NOTHING (Some (conflict x y z))) (items_of o).
Proof.
  intros K C. destruct (rc_call_inv x y local o (proj1 K) C) as (zs & acts & S & rs & I & E & Es & F). rewrite E. apply I in K. destruct K as [Hz Ns].
  destruct (rflat_at _ z _ _ F Hz) as (r & r1 & r2 & l1 & l2 & B & -> & _ & _). apply collider_body_inv in B. destruct B as (S' & Es' & _ & B). rewrite Es in Es'. injection Es' as <-.
  destruct B as [[Q _]|(_ & ux & uy & Ux & Uy & B)]; [contradiction|]. cbn zeta in B. destruct B as [(_ & _ & ->)|[Ne ->]].
  - left. rewrite !in_app_iff. cbn. auto 7.
  - right. destruct uy as [|j uy].
    + destruct ux as [|i ux]; [destruct Ne; contradiction|]. exists x. split; [auto|]. rewrite !in_app_iff. cbn. auto.
    + exists y. split; [auto|]. rewrite !in_app_iff. cbn. auto.
Qed.
Lemma rc_ends x z y : taken_for_collider g x z y -> z <> x /\ z <> y.
Proof.
  intros (_ & _ & L1 & L2 & _). assert (K : forall a b, directed_edge_exists g a b = true -> b <> a).
  { intros a b L. destruct (live_entry _ _ _ W L) as (e & G & _). destruct (wf_fwd _ W _ _ _ G) as (_ & _ & Ne & _). congruence. }
  split; apply K; assumption.
Qed.

(* ---- all proposals of the step ---- *)
Definition all_items (os : list outcome) : list tresult := flat_map items_of os.
Definition backed (i : tresult) : Prop := directed_edge_exists g (t_v i) (t_u i) = true /\ (t_act i = REMOVE_EDGE_DIRECTED \/ t_act i = DO_NOTHING) /\
  exists x y, taken_for_collider g x (t_u i) y /\ (t_v i = x \/ t_v i = y).
Definition consistent (l : list tresult) : Prop := forall i j, In i l -> In j l -> t_act i = REMOVE_EDGE_DIRECTED -> t_act j = REMOVE_EDGE_DIRECTED -> ~ (t_u j = t_v i /\ t_v j = t_u i).
Definition two_sided (i : tresult) : Prop := directed_edge_exists g (t_u i) (t_v i) = true /\ directed_edge_exists g (t_v i) (t_u i) = true.
Definition good_items (l : list tresult) : Prop := (forall i, In i l -> backed i) /\ consistent l /\
  ((exists i, In i l /\ two_sided i) -> exists i, In i l /\ two_sided i /\ t_act i = REMOVE_EDGE_DIRECTED) /\
  (forall i, In i l -> t_act i = DO_NOTHING -> two_sided i).
Lemma rc_traced l local new : traced (collider_step KEEP_FIRST so) g l local new -> (forall ns, In ns l -> exists x y, ns = [x; y] /\ In (x, y) (node_pairs ids)) ->
  good_items (all_items local) -> good_items (all_items (local ++ new)).
Proof.
  induction 1 as [|ns l local o new C T IH]; intros H G; [rewrite app_nil_r; exact G|].
  change (local ++ o :: new) with (local ++ [o] ++ new). rewrite app_assoc. apply IH; [intros n h; apply H; right; exact h|].
  destruct (H ns (or_introl eq_refl)) as (x & y & -> & Pxy). destruct G as (G1 & G2 & G3 & G4). unfold all_items in *. rewrite flat_map_app. cbn [flat_map]. rewrite app_nil_r.
  assert (IT := fun i => rc_item x y local o i Pxy C).
  assert (IN : forall o' j, In o' local -> In j (items_of o') -> In j (flat_map items_of local)) by (intros o' j Ho Hj; apply in_flat_map; eauto).
  assert (NB : forall i, In i (items_of o) -> backed i).
  { intros i Hi. destruct (IT i Hi) as (z & w & K & Hw & U & V & A). split; [|split].
    - rewrite U, V. destruct K as (_ & _ & L1 & L2 & _). destruct Hw as [-> | ->]; assumption.
    - destruct A as [[A _]|[A _]]; auto.
    - exists x, y. rewrite U, V. auto. }
  assert (DN : forall i, In i (items_of o) -> t_act i = DO_NOTHING -> two_sided i /\ exists j, In j (flat_map items_of local) /\ two_sided j).
  { intros i Hi A. destruct (IT i Hi) as (z & w & K & Hw & U & V & [[A' _]|(_ & o' & j & Ho & Hj & E1 & E2)]); [congruence|]. assert (Bj := proj1 (G1 j (IN _ _ Ho Hj))). rewrite E1, E2 in Bj.
    assert (Bi := proj1 (NB i Hi)). rewrite U, V in Bi. split; [split; rewrite U, V; assumption|]. exists j. split; [exact (IN _ _ Ho Hj)|]. split; rewrite E1, E2; assumption. }
  split; [|split; [|split]].
  - intros i Hi. apply in_app_iff in Hi. destruct Hi as [Hi|Hi]; [exact (G1 i Hi)|exact (NB i Hi)].
  - assert (X : forall i j, In i (items_of o) -> In j (flat_map items_of local) -> t_act i = REMOVE_EDGE_DIRECTED -> ~ (t_u j = t_v i /\ t_v j = t_u i)).
    { intros i j Hi Hj A. destruct (IT i Hi) as (z & w & K & Hw & U & V & [[_ N]|[A' _]]); [|congruence]. apply in_flat_map in Hj. destruct Hj as (o' & Ho & Hj). rewrite U, V. exact (N o' j Ho Hj). }
    intros i j Hi Hj Ai Aj. apply in_app_iff in Hi. apply in_app_iff in Hj. destruct Hi as [Hi|Hi], Hj as [Hj|Hj].
    + exact (G2 i j Hi Hj Ai Aj).
    + intros [E1 E2]. exact (X j i Hj Hi Aj (conj (eq_sym E2) (eq_sym E1))).
    + exact (X i j Hi Hj Ai).
    + destruct (IT i Hi) as (z & w & K & Hw & U & V & _). destruct (IT j Hj) as (z' & w' & K' & Hw' & U' & V' & _). destruct (rc_ends x z y K) as [N1 N2]. destruct (rc_ends x z' y K') as [N3 N4].
      intros [E1 E2]. destruct Hw as [-> | ->]; congruence.
  - intros (i & Hi & T2). apply in_app_iff in Hi. destruct Hi as [Hi|Hi].
    + destruct G3 as (k & Hk & T3); [eauto|]. exists k. split; [apply in_app_iff; auto|exact T3].
    + destruct (proj1 (proj2 (NB i Hi))) as [A|A]; [exists i; split; [apply in_app_iff; auto|auto]|]. destruct (DN i Hi A) as (_ & Q). destruct (G3 Q) as (k & Hk & T3). exists k. split; [apply in_app_iff; auto|exact T3].
  - intros i Hi A. apply in_app_iff in Hi. destruct Hi as [Hi|Hi]; [exact (G4 i Hi A)|exact (proj1 (DN i Hi A))].
Qed.

(* ---- carrying the proposals out ---- *)
Lemma rc_fresh : matches g g (fun _ => false).
Proof.
  split; [exact W|]. intros a b. destruct (eget g a b) as [e|] eqn:G; [|exact Logic.I]. assert (L := proj1 (rc_stored a b) (ex_intro _ e G)).
  destruct (live_entry _ _ _ W L) as (e' & G' & D' & _). congruence.
Qed.
Lemma rc_apply h D i : matches g h D -> backed i -> D (t_v i, t_u i) = false -> exists h' b, apply_action i h = (h', Ok b) /\ matches g h' (sim D i).
Proof.
  intros Mg (L & A & _) F. destruct (apply_action i h) as [h' r] eqn:R. assert (Wh := proj1 Mg). destruct (apply_action_spec h i h' r Wh R) as (W' & _ & _ & S).
  destruct A as [A|A].
  - unfold sim. rewrite A. unfold action_guard, action_ready, action_effect in S. rewrite A in S.
    assert (X : edge_exists h (t_u i) (t_v i) = true).
    { assert (Hh : has g (t_v i, t_u i)) by (unfold has; cbn; destruct (proj2 (rc_stored _ _) L) as (e & ->); discriminate).
      rewrite edge_exists_or, (matches_dee g h D (t_v i) (t_u i) Mg Hh), F. apply orb_true_r. }
    destruct r as [[]|e].
    + destruct S as (_ & _ & ((_ & OC) & E1 & E2) & _). exists h', true. split; [reflexivity|]. split; [exact W'|]. intros a b.
      destruct Mg as [_ M]. specialize (M a b). unfold upd. destruct (eqb_spec (a, b) (t_u i, t_v i)) as [Y|Y].
      * injection Y as -> ->. rewrite entry_eget in E1. rewrite E1, entry_eget. destruct (eget h (t_u i) (t_v i)), (eget g (t_u i) (t_v i)); cbn; auto.
      * destruct (eqb_spec (a, b) (t_v i, t_u i)) as [Z|Z].
        -- injection Z as -> ->. rewrite entry_eget in E2. rewrite E2, entry_eget.
           destruct (directed_edge_exists h (t_v i) (t_u i)), (eget h (t_v i) (t_u i)), (eget g (t_v i) (t_u i)); cbn; auto.
        -- specialize (OC a b). rewrite !entry_eget in OC. rewrite OC; [exact M|]. cbn. intros [H|[H|[]]]; congruence.
    + destruct S as [_ S]. congruence.
    + destruct S as (_ & S & _). destruct S; exact Logic.I.
  - unfold sim. rewrite A. unfold action_guard in S. rewrite A in S. destruct r as [[]|e].
    + destruct S as [S _]; discriminate.
    + destruct S as [-> _]. eauto.
    + destruct S as [S _]; discriminate.
Qed.
Lemma rc_take all : (forall i, In i all -> backed i) -> consistent all -> forall l, (forall i, In i l -> In i all) -> forall h D, matches g h D ->
  (forall p, D p = true -> exists i, In i all /\ t_act i = REMOVE_EDGE_DIRECTED /\ (t_u i, t_v i) = p) -> exists h' t, take_items false l h = (h', Ok t) /\ matches g h' (sims D l).
Proof.
  intros B C. induction l as [|i l IH]; intros Hl h D M HD; [exists h, []; auto|].
  assert (Hi := Hl i (or_introl eq_refl)). assert (Bi := B i Hi). destruct (proj1 (proj2 Bi)) as [A|A].
  - assert (F : D (t_v i, t_u i) = false).
    { destruct (D (t_v i, t_u i)) eqn:F; [|reflexivity]. destruct (HD _ F) as (j & Hj & Aj & Ej). injection Ej as E1 E2. destruct (C i j Hi Hj A Aj (conj E1 E2)). }
    destruct (rc_apply h D i M Bi F) as (h1 & b & R & M1).
    destruct (IH (fun j q => Hl j (or_intror q)) h1 (sim D i) M1) as (h2 & t & R2 & M2).
    { intros p. unfold sim. rewrite A. unfold upd. destruct (eqb_spec p (t_u i, t_v i)) as [->|]; [intros _; exists i; auto|apply HD]. }
    exists h2, (if b then i :: t else t). split; [|exact M2]. cbn [take_items]. unfold bind. rewrite R, R2. reflexivity.
  - assert (SD : sim D i = D) by (unfold sim; rewrite A; reflexivity).
    assert (R : apply_action i h = (h, Ok false)).
    { destruct (apply_action i h) as [h1 r] eqn:R. destruct (apply_action_spec h i h1 r (proj1 M) R) as (_ & _ & _ & S). unfold action_guard in S. rewrite A in S. destruct r as [[]|e]; [destruct S as [S _]; discriminate|destruct S as [-> _]; reflexivity|destruct S as [S _]; discriminate]. }
    destruct (IH (fun j q => Hl j (or_intror q)) h D M HD) as (h2 & t & R2 & M2).
    exists h2, t. split; [cbn [take_items]; unfold bind; rewrite R, R2; reflexivity|]. change (sims D (i :: l)) with (sims (sim D i) l). rewrite SD. exact M2.
Qed.
Definition rc_gone (os : list outcome) : dirs := sims (fun _ => false) (all_items os).
Lemma rc_pairs ns : In ns (LoopFacts.pairs_of g) -> exists x y, ns = [x; y] /\ In (x, y) (node_pairs ids).
Proof. intros H. rewrite pairs_are in H. apply in_map_iff in H. destruct H as ([x y] & <- & H). eauto. Qed.
Lemma rc_step P : exists g2 taken os, execute_step P no_hooks (collider_step KEEP_FIRST so) false g = (g2, Ok (taken, all_items os)) /\
  traced (collider_step KEEP_FIRST so) g (LoopFacts.pairs_of g) [] os /\ matches g g2 (rc_gone os) /\ good_items (all_items os).
Proof.
  assert (Gen : gen_run (s_gen (collider_step KEEP_FIRST so) g) g = Ok (map Generators.One (LoopFacts.pairs_of g))) by (cbn; rewrite app_nil_r; reflexivity).
  rewrite (plain_unfold false (collider_step KEEP_FIRST so) ltac:(repeat split) P g _ Gen).
  destruct (collect_total (collider_step KEEP_FIRST so) g (LoopFacts.pairs_of g)) with (local := @nil outcome) as (os & C).
  { intros ns local H. destruct (rc_pairs ns H) as (x & y & -> & Q). exact (rc_total x y local Q). }
  rewrite C. unfold bind. cbn [liftr]. unfold ret. destruct (collect_traced _ _ _ _ _ C) as (new & E & T). cbn [app] in E. subst new.
  assert (G : good_items (all_items os)).
  { apply (rc_traced _ [] os T rc_pairs). split; [intros i []|]. split; [intros i j []|]. split; [intros (i & [] & _)|intros i []]. }
  destruct (take_action no_hooks false os g) as [g2 r] eqn:Tk. destruct (take_action_flat os false g g2 r Tk) as (r' & T2 & Rr).
  destruct (rc_take (all_items os) (proj1 G) (proj1 (proj2 G)) (all_items os) (fun i h => h) g _ rc_fresh ltac:(discriminate)) as (g2' & t & T3 & M2). unfold all_items in T3 at 1. rewrite T2 in T3. injection T3 as -> ->.
  destruct r as [[tk pr]|]; [|contradiction]. assert (Ep := take_all_proposed _ _ _ _ Tk). cbn in Ep. subst pr. exists g2', tk, os. auto.
Qed.
Lemma rc_pstep fuel P : exists g' os, run_pstep fuel P no_hooks (PStep (collider_step KEEP_FIRST so)) g = (g', Ok tt) /\
  traced (collider_step KEEP_FIRST so) g (LoopFacts.pairs_of g) [] os /\ good_items (all_items os) /\
  forall a b, directed_edge_exists g' a b = directed_edge_exists g a b && negb (rc_gone os (a, b)).
Proof.
  destruct (rc_step P) as (g1 & tk & os & E & T & M & N). cbn [run_pstep]. unfold bind, log_step. rewrite E. cbn [fst snd].
  set (g2 := with_ahist g1 _). assert (W2 : WF g2) by (apply WF_ahist; exact (proj1 M)).
  destruct (purge_ok g2 W2) as (g3 & R3 & _ & _ & A3 & _). assert (L := purge_dee g2 g3 W2 R3). rewrite R3. exists g3, os. split; [reflexivity|].
  split; [exact T|]. split; [exact N|]. intros a b. rewrite L. change (directed_edge_exists g2 a b) with (directed_edge_exists g1 a b). destruct (eget g a b) as [e|] eqn:G.
  - assert (Hh : has g (a, b)) by (unfold has; cbn; congruence). rewrite (matches_dee g g1 _ a b M Hh), (matches_dee g g _ a b rc_fresh Hh). reflexivity.
  - assert (Hh : ~ has g (a, b)) by (unfold has; cbn; congruence). rewrite (matches_none g g1 _ a b M Hh), (matches_none g g _ a b rc_fresh Hh). reflexivity.
Qed.
Lemma rc_gone_iff os a b : good_items (all_items os) -> rc_gone os (a, b) = true <-> exists i, In i (all_items os) /\ t_act i = REMOVE_EDGE_DIRECTED /\ t_u i = a /\ t_v i = b.
Proof.
  intros (B & _). split.
  - intros H. destruct (sims_off _ _ _ H) as [Q|(i & Hi & A & Ep)]; [discriminate|]. injection Ep as E1 E2. eauto.
  - intros (i & Hi & A & <- & <-). apply in_split in Hi. destruct Hi as (l1 & l2 & E). unfold rc_gone. rewrite E. apply sims_last; [exact A|reflexivity|].
    intros j Hj R. assert (Bj := B j). rewrite E in Bj. destruct (proj1 (proj2 (Bj (in_or_app _ (i :: l2) j (or_intror (or_intror Hj)))))); congruence.
Qed.

Theorem rc_main fuel P : exists g', run_pstep fuel P no_hooks (PStep (collider_step KEEP_FIRST so)) g = (g', Ok tt) /\
  (forall a b, edge_exists g' a b = edge_exists g a b) /\
  (forall a b, one_way g a b -> one_way g' a b) /\
  (forall a b, new_arrow g g' a b -> two_way g a b /\ exists c, taken_for_collider g a b c \/ taken_for_collider g c b a) /\
  ((exists a b, new_arrow g g' a b) <-> exists x z y, taken_for_collider g x z y /\ (two_way g x z \/ two_way g y z)).
Proof.
  destruct (rc_pstep fuel P) as (g' & os & R & T & G & L). exists g'. split; [exact R|]. assert (GI := fun a b => rc_gone_iff os a b G). destruct G as (B & C & T3 & T4).
  assert (Opp : forall a b, rc_gone os (a, b) = true -> directed_edge_exists g b a = true /\ rc_gone os (b, a) = false /\ exists x y, taken_for_collider g x a y /\ (b = x \/ b = y)).
  { intros a b H. apply GI in H. destruct H as (i & Hi & A & <- & <-). destruct (B i Hi) as (L1 & _ & X). split; [exact L1|]. split; [|exact X].
    destruct (rc_gone os (t_v i, t_u i)) eqn:H; [|reflexivity]. apply GI in H. destruct H as (j & Hj & Aj & E1 & E2). destruct (C i j Hi Hj A Aj (conj E1 E2)). }
  assert (OW : forall h a b, one_way h a b <-> directed_edge_exists h a b = true /\ directed_edge_exists h b a = false).
  { intros h a b. unfold one_way, only_directed_edge_exists. rewrite andb_true_iff, negb_true_iff. tauto. }
  assert (TW : forall a b, two_way g a b <-> directed_edge_exists g a b = true /\ directed_edge_exists g b a = true).
  { intros a b. unfold two_way, undirected_edge_exists. apply andb_true_iff. }
  split; [|split; [|split]].
  - intros a b. rewrite !edge_exists_or, !L. destruct (rc_gone os (a, b)) eqn:H1.
    + destruct (Opp a b H1) as (-> & -> & _). cbn. rewrite !orb_true_r. reflexivity.
    + destruct (rc_gone os (b, a)) eqn:H2; cbn; rewrite ?andb_true_r, ?andb_false_r; [|reflexivity]. destruct (Opp b a H2) as (-> & _). reflexivity.
  - intros a b O. apply OW in O. destruct O as [O1 O2]. apply OW. rewrite !L, O1, O2. split; [|reflexivity]. destruct (rc_gone os (a, b)) eqn:H; [|reflexivity]. destruct (Opp a b H) as (H1 & _). congruence.
  - intros a b [O N]. rewrite OW in O, N. rewrite !L in O. destruct O as [O1 O2]. apply andb_true_iff in O1. destruct O1 as [O1 _].
    destruct (directed_edge_exists g b a) eqn:Lb; [|destruct N; auto]. cbn in O2. apply negb_false_iff in O2. destruct (Opp b a O2) as (_ & _ & x & y & K & Hw).
    split; [apply TW; auto|]. destruct Hw as [-> | ->]; eauto.
  - split.
    + intros (a & b & [O N]). rewrite OW in O, N. rewrite !L in O. destruct O as [O1 O2]. apply andb_true_iff in O1. destruct O1 as [O1 _].
      destruct (directed_edge_exists g b a) eqn:Lb; [|destruct N; auto]. cbn in O2. apply negb_false_iff in O2. destruct (Opp b a O2) as (_ & _ & x & y & K & Hw).
      exists x, b, y. split; [exact K|]. destruct Hw as [<- | <-]; [left|right]; apply TW; auto.
    + intros (x & z & y & K & H2).
      assert (Hp : In [x; y] (LoopFacts.pairs_of g)) by (rewrite pairs_are; destruct K as (K & _); apply (in_map (fun p => [fst p; snd p])) in K; exact K).
      destruct (traced_at _ _ _ _ _ T _ Hp) as (l1 & l2 & n1 & o & n2 & _ & Eo & _ & Co & _). cbn [app] in Co.
      assert (Io : forall i, In i (items_of o) -> In i (all_items os)) by (intros i Hi; unfold all_items; apply in_flat_map; exists o; split; [rewrite Eo; apply in_elt|exact Hi]).
      assert (S : exists i, In i (all_items os) /\ two_sided i).
      { destruct (rc_cand x z y n1 o K Co) as [[I1 I2]|(w & Hw & I1)].
        - rewrite !TW in H2. destruct H2 as [[A1 A2]|[A1 A2]]; [exists (remove_directed z x (between x y z)); split; [exact (Io _ I1)|split; cbn; assumption]|exists (remove_directed z y (between x y z)); split; [exact (Io _ I2)|split; cbn; assumption]].
        - eexists. split; [exact (Io _ I1)|]. apply (T4 _ (Io _ I1)). reflexivity. }
      destruct (T3 S) as (i & Hi & [S1 S2] & A). assert (Gi : rc_gone os (t_u i, t_v i) = true) by (apply GI; eauto). destruct (Opp _ _ Gi) as (_ & Gv & _).
      exists (t_v i), (t_u i). split; [apply OW; rewrite !L, Gi, Gv, S1, S2; split; reflexivity|]. rewrite OW. intros [_ Q]. congruence.
Qed.
End Recollide.
