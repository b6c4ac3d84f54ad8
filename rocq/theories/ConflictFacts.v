(* Facts about the order of proposals in a ColliderTest step, for C99. *)
From Verif Require Import Base PyDict PyDictFacts Graph GraphSpec GraphFacts GraphInv GraphInv2 GraphQ Actions ActionSpec ActionFacts ActionMain Generators GenSpec GenFacts
  Rules RuleFacts IndepTests Pipeline Parallel PipeSpec PipeFacts PipeMain PipeMain2 LoopFacts Dag PathSpec SkelSpec SkelFacts OrientSpec ColliderFacts Serve ConflictSpec.
Open Scope string_scope.
Open Scope list_scope.
Open Scope nat_scope.

Lemma combos_one {A} (l : list A) : combos 1 l = map (fun y => [y]) l.
Proof. induction l as [|x l IH]; [reflexivity|]. cbn [combos]. rewrite IH. destruct l; reflexivity. Qed.
Lemma combos_two (l : list id) : combos 2 l = map (fun p => [fst p; snd p]) (node_pairs l).
Proof.
  induction l as [|x l IH]; [reflexivity|]. cbn [combos node_pairs]. rewrite combos_one, IH, !map_app, !map_map. reflexivity.
Qed.
Lemma pairs_are g : LoopFacts.pairs_of g = map (fun p => [fst p; snd p]) (node_pairs (dkeys (nodes g))).
Proof.
  unfold LoopFacts.pairs_of. rewrite all_combinations_eq. cbn [cs_min]. unfold cs_stop. cbn [cs_max Nat.eqb]. rewrite <- combos_two.
  assert (L : List.length (nodes g) = List.length (dkeys (nodes g))) by (unfold dkeys; rewrite map_length; reflexivity). rewrite L.
  destruct (dkeys (nodes g)) as [|a [|b l]]; [reflexivity|reflexivity|]. cbn [List.length]. destruct (Nat.ltb_spec (S (S (List.length l)) + 1) (2 + 1)) as [H|H]; [lia|]. cbn. rewrite app_nil_r. reflexivity.
Qed.

(* the calls of a step that sees what was collected before *)
Inductive traced (s : step) (g : graph) : list (list id) -> list outcome -> list outcome -> Prop :=
| tr_nil : forall local, traced s g [] local []
| tr_cons : forall ns l local o new, call s g ns (Some local) = Ok o -> traced s g l (local ++ [o]) new -> traced s g (ns :: l) local (o :: new).
Lemma collect_traced s g : forall l local os, collect s g (map Generators.One l) local = Ok os -> exists new, os = local ++ new /\ traced s g l local new.
Proof.
  induction l as [|ns l IH]; intros local os E; cbn [map collect as_args rbind] in E.
  - injection E as <-. exists []. rewrite app_nil_r. split; [reflexivity|constructor].
  - apply rbind_ok in E. destruct E as (o & C & E). destruct (IH _ _ E) as (new & -> & T). exists (o :: new). rewrite <- app_assoc. split; [reflexivity|constructor; assumption].
Qed.
Lemma traced_at s g l local new : traced s g l local new -> forall ns, In ns l -> exists l1 l2 n1 o n2, l = l1 ++ ns :: l2 /\ new = n1 ++ o :: n2 /\
  traced s g l1 local n1 /\ call s g ns (Some (local ++ n1)) = Ok o /\ traced s g l2 (local ++ n1 ++ [o]) n2.
Proof.
  induction 1 as [|ns0 l local o new C T IH]; intros ns H; [destruct H|]. destruct H as [<-|H].
  - exists [], l, [], o, new. rewrite app_nil_r. cbn. repeat split; [constructor|exact C|exact T].
  - destruct (IH ns H) as (l1 & l2 & n1 & o1 & n2 & -> & -> & T1 & C1 & T2). exists (ns0 :: l1), l2, (o :: n1), o1, n2. rewrite <- app_assoc in C1. cbn [app] in C1. rewrite <- app_assoc in T2. cbn [app] in T2.
    repeat split; [constructor; assumption|exact C1|exact T2].
Qed.
Lemma traced_from s g l local new : traced s g l local new -> forall o, In o new -> exists l1 ns l2 n1 n2, l = l1 ++ ns :: l2 /\ new = n1 ++ o :: n2 /\
  traced s g l1 local n1 /\ call s g ns (Some (local ++ n1)) = Ok o.
Proof.
  induction 1 as [|ns0 l local o new C T IH]; intros o' H; [destruct H|]. destruct H as [<-|H].
  - exists [], ns0, l, [], new. rewrite app_nil_r. cbn. repeat split; [constructor|exact C].
  - destruct (IH o' H) as (l1 & ns & l2 & n1 & n2 & -> & -> & T1 & C1). exists (ns0 :: l1), ns, l2, (o :: n1), n2. rewrite <- app_assoc in C1. cbn [app] in C1. repeat split; [constructor; assumption|exact C1].
Qed.
Lemma collect_total s g l : (forall ns local, In ns l -> exists o, call s g ns (Some local) = Ok o) -> forall local, exists os, collect s g (map Generators.One l) local = Ok os.
Proof.
  induction l as [|ns l IH]; intros H local; cbn [map collect as_args rbind]; [eauto|]. destruct (H ns local (or_introl eq_refl)) as (o & ->). cbn [rbind]. apply IH. intros n lo Hn. apply H. right; exact Hn.
Qed.
Lemma map_split {A B} (f : A -> B) : forall l l1 b l2, map f l = l1 ++ b :: l2 -> exists k1 a k2, l = k1 ++ a :: k2 /\ map f k1 = l1 /\ f a = b /\ map f k2 = l2.
Proof.
  induction l as [|x l IH]; intros l1 b l2 E; [destruct l1; discriminate|]. destruct l1 as [|c l1]; cbn in E; injection E as E1 E2.
  - exists [], x, l. auto.
  - destruct (IH _ _ _ E2) as (k1 & a & k2 & -> & <- & <- & <-). exists (x :: k1), a, k2. cbn. rewrite E1. auto.
Qed.
Lemma in_before {A} (l : list A) l1 a l2 b : l = l1 ++ a :: l2 -> In b l1 -> before l b a.
Proof. intros -> H. apply in_split in H. destruct H as (k1 & k2 & ->). exists k1, k2, l2. rewrite <- app_assoc. reflexivity. Qed.

Lemma take_all_proposed : forall rs g g' p, take_action no_hooks false rs g = (g', Ok p) -> snd p = flat_map items_of rs.
Proof.
  induction rs as [|[items|] rs IH]; intros g g' p R.
  - injection R as <- <-. reflexivity.
  - cbn [take_action] in R. unfold bind, gget in R. cbn [run_pre_hooks no_hooks pre_hooks rfold run_post_hooks post_hooks] in R.
    destruct (take_items false items g) as [g1 [t|e]]; [|discriminate]. cbn in R. destruct (take_action no_hooks false rs g1) as [g2 [q|e]] eqn:E; [|discriminate]. injection R as <- <-. cbn. f_equal. exact (IH _ _ _ E).
  - cbn [take_action] in R. exact (IH _ _ _ R).
Qed.
Section Candidates.
Variable g : graph.
Hypothesis W : WF g.
Hypothesis SK : skeleton g.
Hypothesis RD : readable g.
Variable so : list id -> list id.
Hypothesis SO : set_order so.
Variable st : cstrategy.
Notation ids := (dkeys (nodes g)).

Lemma pair_nodes x y : In (x, y) (node_pairs ids) -> In x ids /\ In y ids /\ x <> y.
Proof.
  intros H. assert (P : In [x; y] (LoopFacts.pairs_of g)) by (rewrite pairs_are; apply (in_map (fun p => [fst p; snd p])) in H; exact H).
  unfold LoopFacts.pairs_of in P. apply all_combinations_In in P. destruct P as [S _]. assert (ND := subseq_NoDup _ _ S (wf_nodes _ W)). assert (SI := subseq_In _ _ S).
  split; [apply SI; left; reflexivity|]. split; [apply SI; right; left; reflexivity|]. inversion ND as [|? ? N _]; subst. intros E. apply N. left. symmetry. exact E.
Qed.
Lemma node_ok ns i x : nth_error ns i = Some x -> In x ids -> node_at g ns i = Ok x.
Proof. intros E H. unfold node_at. rewrite E. apply dmem_In in H. rewrite H. reflexivity. Qed.
Lemma both_ways x z : edge_exists g x z = true -> directed_edge_exists g x z = true /\ directed_edge_exists g z x = true.
Proof.
  intros E. rewrite edge_exists_or in E. apply orb_true_iff in E.
  assert (K : forall a b, directed_edge_exists g a b = true -> directed_edge_exists g b a = true).
  { intros a b L. destruct (live_entry _ _ _ W L) as (e & G & _). rewrite <- entry_eget in G. exact (proj2 (SK _ _ _ (entry_ok _ _ _ _ G))). }
  destruct E as [E|E]; split; auto.
Qed.
Lemma stored x z : (exists e, eget g x z = Some e) <-> edge_exists g x z = true.
Proof.
  split.
  - intros (e & G). rewrite <- entry_eget in G. destruct (SK _ _ _ (entry_ok _ _ _ _ G)) as [L _]. rewrite edge_exists_or, L. reflexivity.
  - intros E. destruct (both_ways x z E) as [L _]. destruct (live_entry _ _ _ W L) as (e & G & _). eauto.
Qed.
Lemma row_ok x : In x ids -> exists r, row_of g x = Ok r /\ forall z, In z r <-> edge_exists g x z = true.
Proof.
  intros H. assert (R := proj1 RD x H). unfold row_of, dmem in *. destruct (dget (edges g) x) as [r|] eqn:E; [|discriminate].
  exists (dkeys r). split; [reflexivity|]. intros z. rewrite <- stored. unfold eget, dget2. rewrite E. rewrite <- dmem_In. unfold dmem. destruct (dget r z) as [e|]; split; intros Q; eauto; try discriminate. destruct Q; discriminate.
Qed.
Lemma common_ok x y : In x ids -> In y ids -> exists zs, common_keys so g x y = Ok zs /\ forall z, In z zs <-> edge_exists g x z = true /\ edge_exists g y z = true.
Proof.
  intros Hx Hy. destruct (row_ok x Hx) as (rx & Ex & Ix). destruct (row_ok y Hy) as (ry & Ey & Iy). unfold common_keys. rewrite Ex, Ey. cbn [rbind]. eexists. split; [reflexivity|].
  intros z. rewrite (proj2 (SO _) z), filter_In, mem_In, Ix, Iy. tauto.
Qed.
Lemma seps_ok x y : exists acts S, retrieve_edge_history g x y (Some REMOVE_EDGE_UNDIRECTED) = Ok acts /\ separators acts = Ok S /\ forall z, In z S <-> in_sepset g x y z.
Proof.
  assert (R : retrieve_edge_history g x y (Some REMOVE_EDGE_UNDIRECTED) = Ok (removals (history g (x, y)))).
  { unfold retrieve_edge_history, history, removals. destruct (dget (ehist g) (x, y)); reflexivity. }
  assert (Q : forall l, (forall i, In i l -> exists d, t_data i = Some d /\ (dget d "separatedBy" = None \/ exists s, dget d "separatedBy" = Some (MNodes s))) ->
    exists S, separators l = Ok S /\ forall z, In z S <-> exists i d s, In i l /\ t_data i = Some d /\ dget d "separatedBy" = Some (MNodes s) /\ In z s).
  { induction l as [|i l IH]; intros H; [exists []; split; [reflexivity|]; intros z; split; [intros []|intros (? & ? & ? & [] & _)]|].
    destruct (IH (fun j h => H j (or_intror h))) as (S & E & I). destruct (H i (or_introl eq_refl)) as (d & Ed & [N|(s & Es)]).
    - exists S. unfold separators in *. cbn [rflat]. rewrite Ed, N. cbn [rbind]. rewrite E. cbn [rbind app]. split; [reflexivity|]. intros z. rewrite I. split.
      + intros (j & d' & s & Hj & H'). exists j, d', s. cbn; auto.
      + intros (j & d' & s & [Hj|Hj] & E1 & E2 & Hz); [|exists j, d', s; auto]. exfalso. subst j. congruence.
    - exists (s ++ S). unfold separators in *. cbn [rflat]. rewrite Ed, Es. cbn [rbind]. rewrite E. cbn [rbind]. split; [reflexivity|]. intros z. rewrite in_app_iff, I. split.
      + intros [Hz|(j & d' & s' & Hj & H')]; [exists i, d, s|exists j, d', s']; cbn; auto.
      + intros (j & d' & s' & [Hj|Hj] & E1 & E2 & Hz); [left; subst j; congruence|right; exists j, d', s'; auto]. }
  destruct (Q (removals (history g (x, y)))) as (S & E & I).
  - intros i Hi. apply filter_In in Hi. destruct Hi as [Hi A]. apply (proj2 RD x y i Hi). destruct (t_act i); (reflexivity || discriminate).
  - exists (removals (history g (x, y))), S. split; [exact R|]. split; [exact E|]. intros z. rewrite I. unfold in_sepset. split.
    + intros (i & d & s & Hi & H). apply filter_In in Hi. destruct Hi as [Hi A]. exists i, d, s. split; [exact Hi|]. split; [destruct (t_act i); (reflexivity || discriminate)|exact H].
    + intros (i & d & s & Hi & A & H). exists i, d, s. split; [|exact H]. apply filter_In. split; [exact Hi|]. rewrite A. reflexivity.
Qed.
Lemma body_total acts S us x y z : In z ids -> separators acts = Ok S -> exists rs, collider_body st (Some us) acts g x y z = Ok rs.
Proof.
  intros Hz E. unfold collider_body. apply dmem_In in Hz. rewrite Hz, E. cbn [negb rbind filter_unapplied_actions]. destruct (mem z S); [eauto|].
  match goal with |- context [match ?a with [] => _ | _ => _ end] => destruct a end; match goal with |- context [match ?a with [] => _ | _ => _ end] => destruct a end; destruct st; eauto.
Qed.
Lemma rflat_total {A B} (f : A -> res (list B)) l : (forall a, In a l -> exists r, f a = Ok r) -> exists rs, rflat f l = Ok rs.
Proof.
  induction l as [|a l IH]; intros H; cbn [rflat]; [eauto|]. destruct (H a (or_introl eq_refl)) as (r & ->). destruct (IH (fun b h => H b (or_intror h))) as (rs & ->). cbn. eauto.
Qed.
Lemma rflat_at {A B} (f : A -> res (list B)) a : forall l rs, rflat f l = Ok rs -> In a l -> exists r r1 r2 l1 l2, f a = Ok r /\ rs = r1 ++ r ++ r2 /\ l = l1 ++ a :: l2 /\ rflat f l2 = Ok r2.
Proof.
  induction l as [|b l IH]; intros rs E H; [destruct H|]. cbn [rflat] in E. apply rbind_ok in E. destruct E as (r & E1 & E). apply rbind_ok in E. destruct E as (r' & E2 & E). injection E as <-. destruct H as [<-|H].
  - exists r, [], r', [], l. auto.
  - destruct (IH _ E2 H) as (s & r1 & r2 & l1 & l2 & F & -> & -> & F2). exists s, (r ++ r1), r2, (b :: l1), l2. rewrite <- app_assoc. auto.
Qed.
Lemma inner_node x z : edge_exists g x z = true -> In z ids.
Proof. intros E. apply stored in E. destruct E as (e & G). apply dmem_In. exact (proj1 (proj2 (wf_fwd _ W _ _ _ G))). Qed.
Lemma apart x y : undirected_edge_exists g x y = edge_exists g x y.
Proof.
  destruct (edge_exists g x y) eqn:E.
  - destruct (both_ways x y E) as [A B]. unfold undirected_edge_exists. rewrite A, B. reflexivity.
  - rewrite edge_exists_or in E. apply orb_false_iff in E. unfold undirected_edge_exists. rewrite (proj1 E). reflexivity.
Qed.

(* one call, on a pair of nodes *)
Lemma call_inv x y local o : In (x, y) (node_pairs ids) -> call (collider_step st so) g [x; y] (Some local) = Ok o ->
  exists zs acts S rs, (forall z, candidate g x z y <-> In z zs /\ ~ In z S) /\ items_of o = rs /\ separators acts = Ok S /\
    rflat (collider_body st (Some local) acts g x y) zs = Ok rs.
Proof.
  intros P C. destruct (pair_nodes x y P) as (Hx & Hy & Ne). unfold call in C. cbn -[collider_test] in C. apply collider_inv in C. destruct C as (x' & y' & Ex & Ey & C).
  rewrite (node_ok [x; y] 0 x eq_refl Hx) in Ex. rewrite (node_ok [x; y] 1 y eq_refl Hy) in Ey. injection Ex as <-. injection Ey as <-. rewrite apart in C. destruct C as [[A ->]|(A & zs & acts & rs & -> & Ez & Eh & F)].
  - exists [], [], [], []. split; [|repeat split; reflexivity]. intros z. split; [intros (_ & B & _); congruence|intros [[] _]].
  - destruct (common_ok x y Hx Hy) as (zs' & Ez' & Iz). rewrite Ez in Ez'. injection Ez' as <-. destruct (seps_ok x y) as (acts' & S & Eh' & Es & Is). rewrite Eh in Eh'. injection Eh' as <-.
    exists zs, acts, S, rs. split; [|repeat split; assumption]. intros z. rewrite Iz, Is. unfold candidate. tauto.
Qed.
Lemma call_total x y local : In (x, y) (node_pairs ids) -> exists o, call (collider_step st so) g [x; y] (Some local) = Ok o.
Proof.
  intros P. destruct (pair_nodes x y P) as (Hx & Hy & Ne). unfold call. cbn -[collider_test]. unfold collider_test. rewrite (node_ok [x; y] 0 x eq_refl Hx), (node_ok [x; y] 1 y eq_refl Hy). cbn [rbind].
  destruct (undirected_edge_exists g x y); [eauto|]. destruct (common_ok x y Hx Hy) as (zs & -> & Iz). destruct (seps_ok x y) as (acts & S & -> & Es & _). cbn [rbind].
  destruct (rflat_total (collider_body st (Some local) acts g x y) zs) as (rs & ->); [|cbn; eauto]. intros z Hz. apply Iz in Hz. exact (body_total acts S local x y z (inner_node x z (proj1 Hz)) Es).
Qed.

Lemma twin : forall u v e, eget g u v = Some e -> eget g v u <> None.
Proof.
  intros u v e G. rewrite <- entry_eget in G. destruct (SK _ _ _ (entry_ok _ _ _ _ G)) as [_ L]. destruct (live_entry _ _ _ W L) as (e' & G' & _). congruence.
Qed.
Lemma fresh : matches g g (fun _ => false).
Proof.
  split; [exact W|]. intros a b. destruct (eget g a b) as [e|] eqn:G; [|exact Logic.I]. rewrite <- entry_eget in G. destruct (SK _ _ _ (entry_ok _ _ _ _ G)) as [L _].
  destruct (live_entry _ _ _ W L) as (e' & G' & D' & _). rewrite <- entry_eget in G'. congruence.
Qed.
Definition gone (os : list outcome) : dirs := sims (fun _ => false) (flat_map items_of os).
Lemma step_run P : exists g2 taken os, execute_step P no_hooks (collider_step st so) false g = (g2, Ok (taken, flat_map items_of os)) /\
  traced (collider_step st so) g (LoopFacts.pairs_of g) [] os /\ matches g g2 (gone os) /\ never_off (gone os).
Proof.
  assert (Gen : gen_run (s_gen (collider_step st so) g) g = Ok (map Generators.One (LoopFacts.pairs_of g))) by (cbn; rewrite app_nil_r; reflexivity).
  rewrite (plain_unfold false (collider_step st so) ltac:(repeat split) P g _ Gen).
  destruct (collect_total (collider_step st so) g (LoopFacts.pairs_of g)) with (local := @nil outcome) as (os & C).
  { intros ns local H. rewrite pairs_are in H. apply in_map_iff in H. destruct H as ([x y] & <- & H). exact (call_total x y local H). }
  rewrite C. unfold bind. cbn [liftr]. unfold ret. destruct (collect_traced _ _ _ _ _ C) as (new & E & T). cbn [app] in E. subst new.
  destruct (collect_safe g W twin st so (fun l z => proj1 (proj2 (SO l) z)) (map Generators.One (LoopFacts.pairs_of g)) [] os (fun _ => false)) as (new & En & S); [intros o i []|discriminate|discriminate|exact C|].
  cbn in En. subst new. destruct (take_action no_hooks false os g) as [g2 r] eqn:Tk. destruct (take_action_flat os false g g2 r Tk) as (r' & T2 & Rr).
  destruct (sim_take g twin _ g _ fresh ltac:(discriminate) S) as (g2' & t & T3 & M2). rewrite T2 in T3. injection T3 as -> ->.
  destruct r as [[tk pr]|]; [|contradiction]. assert (Ep := take_all_proposed _ _ _ _ Tk). cbn in Ep. subst pr. exists g2', tk, os. split; [reflexivity|]. split; [exact T|]. split; [exact M2|].
  exact (safe_never g _ _ (fun a b (h : false = true) => match Bool.diff_false_true h with end) S).
Qed.
Lemma pstep_run fuel P : exists g' taken os, run_pstep fuel P no_hooks (PStep (collider_step st so)) g = (g', Ok tt) /\
  ahist g' = ahist g ++ [HStep "ColliderTest" taken (flat_map items_of os) []] /\ traced (collider_step st so) g (LoopFacts.pairs_of g) [] os /\ never_off (gone os) /\
  forall a b, directed_edge_exists g' a b = directed_edge_exists g a b && negb (gone os (a, b)).
Proof.
  destruct (step_run P) as (g1 & tk & os & E & T & M & N). cbn [run_pstep]. unfold bind, log_step. rewrite E. cbn [fst snd].
  assert (H1 : ahist g1 = ahist g).
  { change (execute_step P no_hooks (collider_step st so) false g) with (execute_step (batch_runner no_hooks) no_hooks (collider_step st so) false g) in E.
    assert (Q := step_wflog (ahist g) (batch_runner no_hooks) no_hooks (collider_step st so) false (batch_pool no_hooks) g (conj W eq_refl)). rewrite E in Q. exact (proj2 (proj1 Q)). }
  set (g2 := with_ahist g1 _). assert (W2 : WF g2) by (apply WF_ahist; exact (proj1 M)).
  destruct (purge_ok g2 W2) as (g3 & R3 & _ & _ & A3 & _). assert (L := purge_dee g2 g3 W2 R3). rewrite R3. exists g3, tk, os. split; [reflexivity|]. split; [rewrite A3; cbn; rewrite H1; reflexivity|].
  split; [exact T|]. split; [exact N|]. intros a b. rewrite L. change (directed_edge_exists g2 a b) with (directed_edge_exists g1 a b). destruct (eget g a b) as [e|] eqn:G.
  - assert (Hh : has g (a, b)) by (unfold has; cbn; congruence). rewrite (matches_dee g g1 _ a b M Hh), (matches_dee g g _ a b fresh Hh). reflexivity.
  - assert (Hh : ~ has g (a, b)) by (unfold has; cbn; congruence). rewrite (matches_none g g1 _ a b M Hh), (matches_none g g _ a b fresh Hh). reflexivity.
Qed.

(* what the items of a call are about *)
Lemma item_body x y local o i : In (x, y) (node_pairs ids) -> call (collider_step st so) g [x; y] (Some local) = Ok o -> In i (items_of o) ->
  exists z ux uy rs, candidate g x z y /\ filter_unapplied_actions (Some local) x z = Ok ux /\ filter_unapplied_actions (Some local) y z = Ok uy /\ In i rs /\
    let both := [remove_directed z x (between x y z); remove_directed z y (between x y z)] in
      ((ux = [] /\ uy = [] /\ rs = both) \/
       ((ux <> [] \/ uy <> []) /\
        rs = match st with
             | KEEP_FIRST => (match uy with [] => [] | _ => [mkT z y DO_NOTHING (Some (conflict x y z))] end) ++
                             (match ux with [] => [] | _ => [mkT z x DO_NOTHING (Some (conflict x y z))] end)
             | KEEP_LAST => generate_restores ux ++ generate_restores uy ++ both
             | OtherStrategy => []
             end)).
Proof.
  intros P C Hi. destruct (call_inv x y local o P C) as (zs & acts & S & rs & I & E & Es & F). rewrite E in Hi. destruct (rflat_In _ _ _ _ F Hi) as (z & l & Hz & B & Hl).
  apply collider_body_inv in B. destruct B as (S' & Es' & _ & B). rewrite Es in Es'. injection Es' as <-. destruct B as [[_ ->]|(NS & ux & uy & Ux & Uy & B)]; [destruct Hl|].
  exists z, ux, uy, l. split; [apply I; auto|]. split; [exact Ux|]. split; [exact Uy|]. split; [exact Hl|]. exact B.
Qed.
Lemma cand_body x z y local o : candidate g x z y -> call (collider_step st so) g [x; y] (Some local) = Ok o ->
  exists r1 rs r2 ux uy, items_of o = r1 ++ rs ++ r2 /\ filter_unapplied_actions (Some local) x z = Ok ux /\ filter_unapplied_actions (Some local) y z = Ok uy /\
    let both := [remove_directed z x (between x y z); remove_directed z y (between x y z)] in
      ((ux = [] /\ uy = [] /\ rs = both) \/
       ((ux <> [] \/ uy <> []) /\
        rs = match st with
             | KEEP_FIRST => (match uy with [] => [] | _ => [mkT z y DO_NOTHING (Some (conflict x y z))] end) ++
                             (match ux with [] => [] | _ => [mkT z x DO_NOTHING (Some (conflict x y z))] end)
             | KEEP_LAST => generate_restores ux ++ generate_restores uy ++ both
             | OtherStrategy => []
             end)).
Proof.
  intros K C. destruct (call_inv x y local o (proj1 K) C) as (zs & acts & S & rs & I & E & Es & F). apply I in K. destruct K as [Hz Ns].
  destruct (rflat_at _ z _ _ F Hz) as (r & r1 & r2 & l1 & l2 & B & -> & _ & _). apply collider_body_inv in B. destruct B as (S' & Es' & _ & B). rewrite Es in Es'. injection Es' as <-.
  destruct B as [[Q _]|(_ & ux & uy & Ux & Uy & B)]; [contradiction|]. exists r1, r, r2, ux, uy. auto.
Qed.
Lemma pair_at l1 ns l2 : LoopFacts.pairs_of g = l1 ++ ns :: l2 -> exists k1 x y k2, ns = [x; y] /\ node_pairs ids = k1 ++ (x, y) :: k2 /\ map (fun p => [fst p; snd p]) k1 = l1 /\ map (fun p => [fst p; snd p]) k2 = l2.
Proof. intros E. rewrite pairs_are in E. destruct (map_split _ _ _ _ _ E) as (k1 & [x y] & k2 & E1 & E2 & E3 & E4). exists k1, x, y, k2. auto. Qed.

Lemma sims_keep p : forall l D, D p = true -> (forall i, In i l -> t_act i = RESTORE_EDGE_DIRECTED -> (t_u i, t_v i) <> p) -> sims D l p = true.
Proof.
  unfold sims. induction l as [|i l IH]; intros D E H; [exact E|]. cbn [fold_left]. apply IH; [|intros j h; apply H; right; exact h]. unfold sim. destruct (t_act i) eqn:A; try exact E; unfold upd; destruct (eqb_spec p (t_u i, t_v i)) as [Q|Q]; try exact E; try reflexivity.
  exfalso. exact (H i (or_introl eq_refl) A (eq_sym Q)).
Qed.
Lemma sims_off p : forall l D, sims D l p = true -> D p = true \/ exists i, In i l /\ t_act i = REMOVE_EDGE_DIRECTED /\ (t_u i, t_v i) = p.
Proof.
  unfold sims. induction l as [|i l IH]; intros D E; [left; exact E|]. cbn [fold_left] in E. destruct (IH _ E) as [Q|(j & Hj & Q)]; [|right; exists j; split; [right; exact Hj|exact Q]].
  unfold sim in Q. destruct (t_act i) eqn:A; try (left; exact Q); unfold upd in Q; destruct (eqb_spec p (t_u i, t_v i)) as [X|X]; try (left; exact Q); try discriminate.
  right. exists i. split; [left; reflexivity|]. auto.
Qed.
Lemma sims_last p l1 i l2 : t_act i = REMOVE_EDGE_DIRECTED -> (t_u i, t_v i) = p -> (forall j, In j l2 -> t_act j = RESTORE_EDGE_DIRECTED -> (t_u j, t_v j) <> p) -> sims (fun _ => false) (l1 ++ i :: l2) p = true.
Proof.
  intros A E H. rewrite sims_app. change (sims (sims (fun _ => false) l1) (i :: l2)) with (sims (sim (sims (fun _ => false) l1) i) l2). apply sims_keep; [|exact H].
  unfold sim. rewrite A. unfold upd. rewrite E, eqb_refl. reflexivity.
Qed.
Lemma one_ways os g' x z : never_off (gone os) -> (forall a b, directed_edge_exists g' a b = directed_edge_exists g a b && negb (gone os (a, b))) ->
  edge_exists g x z = true -> gone os (z, x) = true -> one_way g' x z.
Proof.
  intros N L E G. destruct (both_ways x z E) as [A B]. unfold one_way, only_directed_edge_exists. rewrite !L, A, G, (N _ _ G). cbn. rewrite andb_false_r. reflexivity.
Qed.
(* every arrow of the result is part of a candidate *)
Lemma arrows_from os g' : traced (collider_step st so) g (LoopFacts.pairs_of g) [] os ->
  (forall a b, directed_edge_exists g' a b = directed_edge_exists g a b && negb (gone os (a, b))) ->
  forall a b, one_way g' a b -> exists c, candidate g a b c \/ candidate g c b a.
Proof.
  intros T L a b O. unfold one_way, only_directed_edge_exists in O. apply andb_true_iff in O. destruct O as [O1 O2]. apply negb_true_iff in O2. rewrite L in O1, O2. apply andb_true_iff in O1. destruct O1 as [O1 _].
  assert (E : edge_exists g a b = true) by (rewrite edge_exists_or, O1; reflexivity). rewrite (proj2 (both_ways a b E)) in O2. cbn [andb] in O2. apply negb_false_iff in O2.
  destruct (sims_off _ _ _ O2) as [Q|(i & Hi & A & Ep)]; [discriminate|]. injection Ep as E1 E2. apply in_flat_map in Hi. destruct Hi as (o & Ho & Hi).
  destruct (traced_from _ _ _ _ _ T o Ho) as (l1 & ns & l2 & n1 & n2 & Ep & _ & _ & C). destruct (pair_at _ _ _ Ep) as (k1 & x & y & k2 & -> & Ek & _).
  assert (Pxy : In (x, y) (node_pairs ids)) by (rewrite Ek; apply in_elt). destruct (item_body x y _ o i Pxy C Hi) as (z & ux & uy & rs & K & Ux & Uy & Hr & B). cbn zeta in B.
  assert (Q : In i [remove_directed z x (between x y z); remove_directed z y (between x y z)]).
  { destruct B as [(_ & _ & ->)|[_ ->]]; [exact Hr|]. destruct st.
    - exfalso. apply in_app_iff in Hr. destruct Hr as [Hr|Hr]; [destruct uy; [destruct Hr|]|destruct ux; [destruct Hr|]]; destruct Hr as [<-|[]]; discriminate A.
    - rewrite !in_app_iff in Hr. destruct Hr as [Hr|[Hr|Hr]]; [exfalso|exfalso|exact Hr]; unfold generate_restores in Hr; apply in_flat_map in Hr; destruct Hr as (j & _ & Hr); destruct (taction_eqb (t_act j) REMOVE_EDGE_DIRECTED); [|destruct Hr| |destruct Hr]; destruct Hr as [<-|[]]; discriminate A.
    - destruct Hr. }
  destruct Q as [<-|[<-|[]]]; cbn in E1, E2; subst; [exists y; left; exact K|exists x; right; exact K].
Qed.
End Candidates.

Section First.
Variable g : graph.
Hypothesis W : WF g.
Hypothesis SK : skeleton g.
Hypothesis RD : readable g.
Variable so : list id -> list id.
Hypothesis SO : set_order so.
Notation ids := (dkeys (nodes g)).
Lemma first_item x y local o i : In (x, y) (node_pairs ids) -> call (collider_step KEEP_FIRST so) g [x; y] (Some local) = Ok o -> In i (items_of o) ->
  exists z w, candidate g x z y /\ (w = x \/ w = y) /\ t_u i = z /\ t_v i = w /\ (t_act i = REMOVE_EDGE_DIRECTED \/
    (t_act i = DO_NOTHING /\ t_data i = Some (conflict x y z) /\ exists o' j, In o' local /\ In j (items_of o') /\ t_u j = w /\ t_v j = z)).
Proof.
  intros P C Hi. destruct (item_body g W SK RD so SO KEEP_FIRST x y local o i P C Hi) as (z & ux & uy & rs & K & Ux & Uy & Hr & B). cbn zeta in B. exists z.
  assert (Q : forall w uw, filter_unapplied_actions (Some local) w z = Ok uw -> uw <> [] -> exists o' j, In o' local /\ In j (items_of o') /\ t_u j = w /\ t_v j = z).
  { intros w uw U Ne. destruct uw as [|j uw]; [contradiction|]. destruct (proj1 (unapplied_In local w z (j :: uw) j U) (or_introl eq_refl)) as (o' & H). exists o', j. exact H. }
  destruct B as [(_ & _ & ->)|[_ ->]].
  - destruct Hr as [<-|[<-|[]]]; [exists x|exists y]; cbn; auto 7.
  - apply in_app_iff in Hr. destruct Hr as [Hr|Hr].
    + destruct uy as [|j uy]; [destruct Hr|]. destruct Hr as [<-|[]]. exists y. split; [exact K|]. split; [auto|]. split; [reflexivity|]. split; [reflexivity|]. right. split; [reflexivity|]. split; [reflexivity|]. apply (Q y (j :: uy) Uy). discriminate.
    + destruct ux as [|j ux]; [destruct Hr|]. destruct Hr as [<-|[]]. exists x. split; [exact K|]. split; [auto|]. split; [reflexivity|]. split; [reflexivity|]. right. split; [reflexivity|]. split; [reflexivity|]. apply (Q x (j :: ux) Ux). discriminate.
Qed.
Lemma first_cand x z y local o : candidate g x z y -> call (collider_step KEEP_FIRST so) g [x; y] (Some local) = Ok o ->
  (In (remove_directed z x (between x y z)) (items_of o) /\ In (remove_directed z y (between x y z)) (items_of o)) \/
  exists w, (w = x \/ w = y) /\ In (mkT z w DO_NOTHING (Some (conflict x y z))) (items_of o).
Proof.
  intros K C. destruct (cand_body g W SK RD so SO KEEP_FIRST x z y local o K C) as (r1 & rs & r2 & ux & uy & -> & Ux & Uy & B). cbn zeta in B. destruct B as [(_ & _ & ->)|[Ne ->]].
  - left. rewrite !in_app_iff. cbn. auto 7.
  - right. destruct uy as [|j uy].
    + destruct ux as [|i ux]; [destruct Ne; contradiction|]. exists x. split; [auto|]. rewrite !in_app_iff. cbn. auto.
    + exists y. split; [auto|]. rewrite !in_app_iff. cbn. auto.
Qed.
Lemma first_main fuel P : exists g' taken props, run_pstep fuel P no_hooks (PStep (collider_step KEEP_FIRST so)) g = (g', Ok tt) /\
  ahist g' = ahist g ++ [HStep "ColliderTest" taken props []] /\
  (forall x z y, candidate g x z y -> (one_way g' x z /\ one_way g' y z) \/ reported props x z y) /\
  (forall x z y, reported props x z y -> candidate g x z y /\ exists x' z' y', candidate g x' z' y' /\ before (node_pairs ids) (x', y') (x, y) /\ contradict x z y x' z' y') /\
  (forall a b, one_way g' a b -> exists c, candidate g a b c \/ candidate g c b a).
Proof.
  destruct (pstep_run g W SK RD so SO KEEP_FIRST fuel P) as (g' & tk & os & R & A & T & N & L). exists g', tk, (flat_map items_of os). split; [exact R|]. split; [exact A|].
  assert (FI : forall l1 n1, (exists l2, LoopFacts.pairs_of g = l1 ++ l2) -> traced (collider_step KEEP_FIRST so) g l1 [] n1 -> forall o i, In o n1 -> In i (items_of o) ->
    exists x y z w, In [x; y] l1 /\ candidate g x z y /\ (w = x \/ w = y) /\ t_u i = z /\ t_v i = w /\ (t_act i = REMOVE_EDGE_DIRECTED \/ t_act i = DO_NOTHING)).
  { intros l1 n1 (l2 & E) T1 o i Ho Hi. destruct (traced_from _ _ _ _ _ T1 o Ho) as (k1 & ns & k2 & m1 & m2 & -> & _ & _ & C). rewrite <- app_assoc in E. cbn [app] in E.
    destruct (pair_at g _ _ _ E) as (q1 & x & y & q2 & -> & Eq & _). assert (Pxy : In (x, y) (node_pairs ids)) by (rewrite Eq; apply in_elt).
    destruct (first_item x y _ o i Pxy C Hi) as (z & w & K & Hw & U & V & B). exists x, y, z, w. split; [apply in_elt|]. split; [exact K|]. split; [exact Hw|]. split; [exact U|]. split; [exact V|].
    destruct B as [B|[B _]]; auto. }
  split; [|split].
  - intros x z y K. assert (Hp : In [x; y] (LoopFacts.pairs_of g)) by (rewrite pairs_are; destruct K as (K & _); apply (in_map (fun p => [fst p; snd p])) in K; exact K).
    destruct (traced_at _ _ _ _ _ T _ Hp) as (l1 & l2 & n1 & o & n2 & El & En & T1 & C & T2).
    assert (Io : forall i, In i (items_of o) -> In i (flat_map items_of os)) by (intros i Hi; apply in_flat_map; exists o; split; [rewrite En; apply in_elt|exact Hi]).
    destruct (first_cand x z y _ o K C) as [[R1 R2]|(w & Hw & R1)].
    + left. assert (G : forall v, In (remove_directed z v (between x y z)) (items_of o) -> gone os (z, v) = true).
      { intros v Hv. apply Io in Hv. apply in_split in Hv. destruct Hv as (m1 & m2 & Em). unfold gone. rewrite Em. apply sims_last; [reflexivity|reflexivity|].
        intros j Hj Aj. exfalso. assert (Hj' : In j (flat_map items_of os)) by (rewrite Em; apply in_app_iff; right; right; exact Hj). apply in_flat_map in Hj'. destruct Hj' as (o' & Ho & Hj').
        destruct (FI (LoopFacts.pairs_of g) os (ex_intro _ [] (eq_sym (app_nil_r _))) T o' j Ho Hj') as (_ & _ & _ & _ & _ & _ & _ & _ & _ & [Q|Q]); congruence. }
      destruct K as (_ & _ & E1 & E2 & _). split; apply (one_ways g W SK os g'); auto.
    + right. exists (mkT z w DO_NOTHING (Some (conflict x y z))), (conflict x y z). split; [apply Io; exact R1|]. repeat (split; [reflexivity|]). split; [cbn; exact Hw|]. repeat split.
  - intros x z y (i & d & Hi & Ai & Ui & Vi & Di & D1 & D2). apply in_flat_map in Hi. destruct Hi as (o & Ho & Hi).
    destruct (traced_from _ _ _ _ _ T o Ho) as (l1 & ns & l2 & n1 & n2 & El & _ & T1 & C). destruct (pair_at g _ _ _ El) as (k1 & a & b & k2 & -> & Ek & Ek1 & _).
    assert (Pab : In (a, b) (node_pairs ids)) by (rewrite Ek; apply in_elt). destruct (first_item a b _ o i Pab C Hi) as (z0 & w & K & Hw & U & V & B).
    destruct B as [B|(_ & Dd & o' & j & Ho' & Hj & Uj & Vj)]; [congruence|]. rewrite Di in Dd. injection Dd as ->. cbn in D2. injection D2 as -> -> ->. split; [exact K|].
    destruct (FI l1 n1 (ex_intro _ _ El) T1 o' j Ho' Hj) as (x' & y' & z' & w' & H' & K' & Hw' & U' & V' & _). exists x', z', y'. split; [exact K'|]. split.
    + apply (in_before _ k1 (x, y) k2); [exact Ek|]. rewrite <- Ek1 in H'. apply in_map_iff in H'. destruct H' as ([p q] & E & H'). injection E as -> ->. exact H'.
    + split; [destruct Hw as [Hw|Hw]; [left|right]; congruence|destruct Hw' as [Q|Q]; [left|right]; congruence].
  - apply (arrows_from g W SK RD so SO KEEP_FIRST os g' T L).
Qed.
End First.

Section Last.
Variable g : graph.
Hypothesis W : WF g.
Hypothesis SK : skeleton g.
Hypothesis RD : readable g.
Variable so : list id -> list id.
Hypothesis SO : set_order so.
Notation ids := (dkeys (nodes g)).
Lemma restores_of l j : In j (generate_restores l) -> exists i, In i l /\ t_u j = t_u i /\ t_v j = t_v i /\ t_act j = RESTORE_EDGE_DIRECTED.
Proof. unfold generate_restores. intros H. apply in_flat_map in H. destruct H as (i & Hi & H). exists i. destruct (taction_eqb _ _); [|destruct H]. destruct H as [<-|[]]. auto. Qed.
Lemma last_restore x y local o i : In (x, y) (node_pairs ids) -> call (collider_step KEEP_LAST so) g [x; y] (Some local) = Ok o -> In i (items_of o) -> t_act i = RESTORE_EDGE_DIRECTED ->
  exists z, candidate g x z y /\ (t_u i = x \/ t_u i = y) /\ t_v i = z.
Proof.
  intros P C Hi A. destruct (item_body g W SK RD so SO KEEP_LAST x y local o i P C Hi) as (z & ux & uy & rs & K & Ux & Uy & Hr & B). cbn zeta in B. exists z. split; [exact K|].
  destruct B as [(_ & _ & ->)|[_ ->]]; [destruct Hr as [<-|[<-|[]]]; discriminate A|]. rewrite !in_app_iff in Hr. destruct Hr as [Hr|[Hr|[<-|[<-|[]]]]]; [| |discriminate A|discriminate A]; apply restores_of in Hr; destruct Hr as (j & Hj & U & V & _).
  - destruct (proj1 (unapplied_In local x z ux j Ux) Hj) as (_ & _ & _ & E1 & E2). split; [left; congruence|congruence].
  - destruct (proj1 (unapplied_In local y z uy j Uy) Hj) as (_ & _ & _ & E1 & E2). split; [right; congruence|congruence].
Qed.
Lemma last_main fuel P : exists g' taken props, run_pstep fuel P no_hooks (PStep (collider_step KEEP_LAST so)) g = (g', Ok tt) /\
  ahist g' = ahist g ++ [HStep "ColliderTest" taken props []] /\
  (forall x z y, candidate g x z y -> (forall x' z' y', candidate g x' z' y' -> before (node_pairs ids) (x, y) (x', y') -> ~ contradict x z y x' z' y') -> one_way g' x z /\ one_way g' y z) /\
  (forall a b, one_way g' a b -> exists c, candidate g a b c \/ candidate g c b a).
Proof.
  destruct (pstep_run g W SK RD so SO KEEP_LAST fuel P) as (g' & tk & os & R & A & T & N & L). exists g', tk, (flat_map items_of os). split; [exact R|]. split; [exact A|]. split; [|apply (arrows_from g W SK RD so SO KEEP_LAST os g' T L)].
  intros x z y K H. assert (Hp : In [x; y] (LoopFacts.pairs_of g)) by (rewrite pairs_are; destruct K as (K & _); apply (in_map (fun p => [fst p; snd p])) in K; exact K).
  destruct (traced_at _ _ _ _ _ T _ Hp) as (l1 & l2 & n1 & o & n2 & El & En & T1 & C & T2). destruct (pair_at g _ _ _ El) as (k1 & x0 & y0 & k2 & Q & Ek & Ek1 & Ek2). injection Q as <- <-.
  destruct (cand_body g W SK RD so SO KEEP_LAST x z y _ o K C) as (r1 & rs & r2 & ux & uy & Eo & Ux & Uy & B). cbn zeta in B.
  set (both := [remove_directed z x (between x y z); remove_directed z y (between x y z)]) in B. assert (Er : exists pre, rs = pre ++ both) by (destruct B as [(_ & _ & ->)|[_ ->]]; [exists []; reflexivity|eexists; rewrite app_assoc; reflexivity]).
  destruct Er as (pre & ->). clear B.
  assert (Self : z <> x /\ z <> y).
  { destruct K as (_ & _ & E1 & E2 & _). apply (stored g W SK) in E1, E2. destruct E1 as (e1 & G1). destruct E2 as (e2 & G2). destruct (wf_fwd _ W _ _ _ G1) as (_ & _ & Q1 & _). destruct (wf_fwd _ W _ _ _ G2) as (_ & _ & Q2 & _). split; congruence. }
  assert (Later : forall j w, w = x \/ w = y -> In j (r2 ++ flat_map items_of n2) -> t_act j = RESTORE_EDGE_DIRECTED -> (t_u j, t_v j) <> (z, w)).
  { intros j w Hw Hj Aj Ej. injection Ej as U V. apply in_app_iff in Hj. destruct Hj as [Hj|Hj].
    - assert (Hj' : In j (items_of o)) by (rewrite Eo, !in_app_iff; auto). destruct (last_restore x y _ o j (proj1 K) C Hj' Aj) as (z2 & K2 & Hu & _). destruct Self. destruct Hu; congruence.
    - apply in_flat_map in Hj. destruct Hj as (o' & Ho & Hj). destruct (traced_from _ _ _ _ _ T2 o' Ho) as (m1 & ns & m2 & q1 & q2 & Em & _ & _ & C').
      rewrite Em in Ek2. destruct (map_split _ _ _ _ _ Ek2) as (p1 & [x' y'] & p2 & Ep & _ & E3 & _). cbn in E3. subst ns.
      assert (P' : In (x', y') (node_pairs ids)) by (rewrite Ek, Ep; apply in_app_iff; right; right; apply in_elt). destruct (last_restore x' y' _ o' j P' C' Hj Aj) as (z' & K' & Hu & Hv).
      apply (H x' z' y' K').
      + exists k1, p1, p2. rewrite Ek, Ep. reflexivity.
      + split; [destruct Hw as [Hw|Hw]; [left|right]; congruence|destruct Hu as [Hu|Hu]; [left|right]; congruence]. }
  assert (Eos : flat_map items_of os = (flat_map items_of n1 ++ r1 ++ pre) ++ both ++ r2 ++ flat_map items_of n2).
  { rewrite En, flat_map_app. cbn [flat_map]. rewrite Eo, <- !app_assoc. reflexivity. }
  assert (Gx : gone os (z, x) = true).
  { unfold gone. rewrite Eos. unfold both. cbn [app]. apply sims_last; [reflexivity|reflexivity|]. intros j [<-|Hj] Aj; [discriminate Aj|]. apply (Later j x); auto. }
  assert (Gy : gone os (z, y) = true).
  { unfold gone. rewrite Eos. unfold both. cbn [app]. match goal with |- sims _ (?a ++ ?b :: ?c :: ?d) _ = true => change (a ++ b :: c :: d) with (a ++ [b] ++ c :: d); rewrite (app_assoc a [b]) end.
    apply sims_last; [reflexivity|reflexivity|]. intros j Hj Aj. apply (Later j y); auto. }
  destruct K as (_ & _ & E1 & E2 & _). split; apply (one_ways g W SK os g'); auto.
Qed.
End Last.
