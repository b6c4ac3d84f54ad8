(* The orientation loop on any graph: it ends, and at the end no rule has anything to remove. *)
From Verif Require Import Base PyDict PyDictFacts Graph GraphSpec GraphFacts GraphInv GraphInv2 GraphInv3 GraphQ GraphMain
  GraphPaths PathSpec Actions ActionSpec ActionFacts ActionMain Generators GenSpec GenFacts Rules IndepTests Pipeline Parallel PipeFacts RuleFacts Serve Rows
  Dag SkelSpec OrientSpec.
Open Scope string_scope.
Open Scope list_scope.

Lemma remove_dir_spec g i g' r : WF g -> t_act i = REMOVE_EDGE_DIRECTED -> apply_action i g = (g', r) ->
  (edge_exists g (t_u i) (t_v i) = false /\ g' = g /\ r = Ok false) \/
  (edge_exists g (t_u i) (t_v i) = true /\ r = Ok true /\ WF g' /\ nodes g' = nodes g /\
   (forall a b, directed_edge_exists g' a b = if eqb (a, b) (t_u i, t_v i) then false else directed_edge_exists g a b) /\
   (forall a b, option_map e_meta (eget g' a b) = option_map e_meta (eget g a b)) /\
   (forall p, history g' p = history g p ++ (if mem p [(t_u i, t_v i)] then [i] else []))).
Proof.
  intros W A R. destruct (apply_action_spec g i g' r W R) as (W' & _ & Nn & S). destruct i as [u v a d]. cbn [t_u t_v t_act] in *. subst a.
  destruct r as [[]|e].
  - right. destruct S as (G & _ & F & Lg). unfold action_guard in G; cbn in G. split; [exact G|]. split; [reflexivity|]. split; [exact W'|]. split; [exact Nn|].
    destruct F as (OC & E1 & E2). destruct OC as [_ OC]. cbn [t_u t_v] in *.
    assert (Ent : forall a b, entry g' a b = if eqb (a, b) (u, v) then option_map (set_del true) (entry g a b)
        else if eqb (a, b) (v, u) && directed_edge_exists g v u then option_map (set_type TDirected) (entry g a b) else entry g a b).
    { intros a b. destruct (eqb_spec (a, b) (u, v)) as [X|X]; [injection X as -> ->; exact E1|]. destruct (eqb_spec (a, b) (v, u)) as [Y|Y].
      - injection Y as -> ->. rewrite E2. destruct (directed_edge_exists g v u); reflexivity.
      - cbn. apply OC. intros [Z|[Z|[]]]; congruence. }
    split; [|split].
    + intros a b. rewrite (dee_val g' a b W'), (dee_val g a b W), <- !entry_eget, Ent.
      destruct (eqb_spec (a, b) (u, v)); [destruct (entry g a b); reflexivity|]. destruct (eqb (a, b) (v, u) && directed_edge_exists g v u); [|reflexivity].
      destruct (entry g a b); reflexivity.
    + intros a b. rewrite <- !entry_eget, Ent. destruct (eqb (a, b) (u, v)); [destruct (entry g a b); reflexivity|].
      destruct (eqb (a, b) (v, u) && directed_edge_exists g v u); destruct (entry g a b); reflexivity.
    + intros p. exact (Lg p).
  - left. destruct S as [-> G]. auto.
  - exfalso. destruct S as (_ & NR & _). apply NR. exact I.
Qed.

(* ---- live directions only disappear ---- *)
Definition shrinks (g g' : graph) : Prop := WF g' /\ nodes g' = nodes g /\ forall a b, directed_edge_exists g' a b = true -> directed_edge_exists g a b = true.
Lemma shrinks_refl g : WF g -> shrinks g g. Proof. intros W; split; [exact W|split; auto]. Qed.
Lemma shrinks_trans g1 g2 g3 : shrinks g1 g2 -> shrinks g2 g3 -> shrinks g1 g3.
Proof. intros (A1 & A2 & A3) (B1 & B2 & B3). split; [exact B1|]. split; [congruence|]. auto. Qed.
Lemma filter_le {A} (f f' : A -> bool) l : (forall a, In a l -> f' a = true -> f a = true) -> List.length (filter f' l) <= List.length (filter f l).
Proof.
  induction l as [|a l IH]; intros H; cbn; [lia|]. assert (IH' := IH (fun b hb => H b (or_intror hb))). assert (H0 := H a (or_introl eq_refl)).
  destruct (f' a); [rewrite H0 by reflexivity; cbn; lia|]. destruct (f a); cbn; lia.
Qed.
Lemma filter_lt {A} (f f' : A -> bool) l a0 : (forall a, In a l -> f' a = true -> f a = true) -> In a0 l -> f a0 = true -> f' a0 = false ->
  List.length (filter f' l) < List.length (filter f l).
Proof.
  induction l as [|a l IH]; intros H Ha F0 F1; [destruct Ha|]. cbn. assert (LE := filter_le f f' l (fun b hb => H b (or_intror hb))).
  assert (H0 := H a (or_introl eq_refl)). destruct Ha as [->|Ha].
  - rewrite F0, F1. cbn. lia.
  - assert (IH' := IH (fun b hb => H b (or_intror hb)) Ha F0 F1). destruct (f' a); [rewrite H0 by reflexivity; cbn; lia|]. destruct (f a); cbn; lia.
Qed.
Lemma shrinks_count g g' : shrinks g g' -> live_count g' <= live_count g.
Proof. intros (_ & N & S). unfold live_count. rewrite N. apply filter_le. intros [a b] _; apply S. Qed.
Lemma shrinks_count_lt g g' u v : WF g -> shrinks g g' -> directed_edge_exists g u v = true -> directed_edge_exists g' u v = false -> live_count g' < live_count g.
Proof.
  intros W (_ & N & S) L D. unfold live_count. rewrite N. apply (filter_lt _ _ _ (u, v)); [intros [a b] _; apply S| |exact L|exact D].
  destruct (live_entry _ _ _ W L) as (e & _ & _ & Hu & Hv & _). apply dmem_In in Hu, Hv. apply in_prod; assumption.
Qed.

Definition orient_item (i : tresult) : Prop := t_act i = DO_NOTHING \/ t_act i = REMOVE_EDGE_DIRECTED.
Definition dead (i : tresult) (g : graph) : Prop := directed_edge_exists g (t_u i) (t_v i) = false.
Lemma orient_act i g g' r : WF g -> orient_item i -> apply_action i g = (g', r) ->
  shrinks g g' /\ exists b : bool, r = Ok b /\ (if b then t_act i = REMOVE_EDGE_DIRECTED /\ dead i g' else g' = g /\ (t_act i = REMOVE_EDGE_DIRECTED -> edge_exists g (t_u i) (t_v i) = false)).
Proof.
  intros W [A|A] R.
  - assert (X : apply_action i g = (g, Ok false)) by (unfold apply_action, bind, gget; rewrite A; reflexivity). rewrite X in R; injection R as <- <-.
    split; [apply shrinks_refl; exact W|]. exists false. split; [reflexivity|]. split; [reflexivity|congruence].
  - destruct (remove_dir_spec g i g' r W A R) as [(G & -> & ->)|(G & -> & W' & Nn & D & _)].
    + split; [apply shrinks_refl; exact W|]. exists false. auto.
    + split; [|exists true; split; [reflexivity|split; [exact A|]]].
      * split; [exact W'|]. split; [exact Nn|]. intros a b. rewrite D. destruct (eqb (a, b) _); [discriminate|auto].
      * unfold dead. rewrite D, eqb_refl. reflexivity.
Qed.
Lemma dead_shrinks i g g' : shrinks g g' -> dead i g -> dead i g'.
Proof. intros (_ & _ & S) D. unfold dead in *. destruct (directed_edge_exists g' (t_u i) (t_v i)) eqn:X; [|reflexivity]. apply S in X; congruence. Qed.

Lemma orient_items : forall l g g' r, WF g -> Forall orient_item l -> take_items false l g = (g', r) -> shrinks g g' /\ exists t, r = Ok t /\
  (forall i, In i t -> In i l /\ t_act i = REMOVE_EDGE_DIRECTED /\ dead i g') /\
  (t = [] -> g' = g /\ forall i, In i l -> t_act i = REMOVE_EDGE_DIRECTED -> edge_exists g (t_u i) (t_v i) = false).
Proof.
  induction l as [|i l IH]; intros g g' r W F R; cbn [take_items] in R.
  - unfold ret in R. injection R as <- <-. split; [apply shrinks_refl; exact W|]. exists []. split; [reflexivity|]. split; [intros i []|intros _; split; [reflexivity|intros i []]].
  - inversion F as [|? ? Fi Fl]; subst. unfold bind at 1 in R. destruct (apply_action i g) as [g1 r1] eqn:R1.
    destruct (orient_act i g g1 r1 W Fi R1) as (S1 & b & -> & Hb). unfold bind at 1 in R. destruct (take_items false l g1) as [g2 r2] eqn:R2.
    destruct (IH g1 g2 r2 (proj1 S1) Fl R2) as (S2 & t & -> & Ht & Hn). unfold ret in R; injection R as <- <-.
    split; [eapply shrinks_trans; eassumption|]. exists (if b then i :: t else t). split; [reflexivity|]. split.
    + intros j Hj. assert (Z : (b = true /\ j = i) \/ In j t) by (destruct b; [destruct Hj as [<-|Hj]; auto|auto]). destruct Z as [[-> ->]|Z].
      * destruct Hb as [A B]. split; [left; reflexivity|]. split; [exact A|eapply dead_shrinks; eassumption].
      * destruct (Ht j Z) as (H1 & H2 & H3). split; [right; exact H1|auto].
    + intros Z. destruct b; [discriminate|]. destruct Hb as [-> Hb]. destruct (Hn Z) as [-> Hl]. split; [reflexivity|]. intros j [<-|Hj] A; auto.
Qed.
Lemma orient_take : forall rs g g' r, WF g -> Forall (fun o => Forall orient_item (items_of o)) rs -> take_action no_hooks false rs g = (g', r) -> shrinks g g' /\ exists a, r = Ok a /\
  (forall i, In i (fst a) -> t_act i = REMOVE_EDGE_DIRECTED /\ dead i g' /\ exists o, In o rs /\ In i (items_of o)) /\
  (fst a = [] -> g' = g /\ forall o i, In o rs -> In i (items_of o) -> t_act i = REMOVE_EDGE_DIRECTED -> edge_exists g (t_u i) (t_v i) = false).
Proof.
  induction rs as [|[items|] rs IH]; intros g g' r W F R; cbn [take_action] in R.
  - unfold ret in R; injection R as <- <-. split; [apply shrinks_refl; exact W|]. exists ([], []). split; [reflexivity|]. split; [intros i []|intros _; split; [reflexivity|intros o i []]].
  - inversion F as [|? ? Fi Fr]; subst. unfold bind at 1, gget at 1 in R. cbn [run_pre_hooks no_hooks] in R.
    change (run_pre_hooks no_hooks g items) with (Ok items) in R. cbn iota in R. unfold bind at 1 in R.
    destruct (take_items false items g) as [g1 r1] eqn:R1. destruct (orient_items items g g1 r1 W Fi R1) as (S1 & t & -> & Ht & Hn).
    unfold bind at 1, gget at 1 in R. change (run_post_hooks no_hooks g1 t) with (Ok tt) in R. cbn iota in R. unfold bind at 1 in R.
    destruct (take_action no_hooks false rs g1) as [g2 r2] eqn:R2. destruct (IH g1 g2 r2 (proj1 S1) Fr R2) as (S2 & p & -> & Hp & Hq). unfold ret in R; injection R as <- <-.
    split; [eapply shrinks_trans; eassumption|]. eexists. split; [reflexivity|]. cbn [fst]. split.
    + intros i Hi. apply in_app_iff in Hi. destruct Hi as [Hi|Hi].
      * destruct (Ht i Hi) as (H1 & H2 & H3). split; [exact H2|]. split; [eapply dead_shrinks; eassumption|]. exists (Some items). split; [left; reflexivity|exact H1].
      * destruct (Hp i Hi) as (H1 & H2 & o & H3 & H4). split; [exact H1|]. split; [exact H2|]. exists o. split; [right; exact H3|exact H4].
    + intros Z. apply app_eq_nil in Z. destruct Z as [Z1 Z2]. destruct (Hn Z1) as [-> H1]. destruct (Hq Z2) as [-> H2]. split; [reflexivity|].
      intros o i [<-|Ho] Hi A; [apply H1; assumption|eapply H2; eassumption].
  - inversion F as [|? ? Fi Fr]; subst. destruct (IH g g' r W Fr R) as (S & a & -> & Ha & Hb). split; [exact S|]. exists a. split; [reflexivity|]. split.
    + intros i Hi. destruct (Ha i Hi) as (H1 & H2 & o & H3 & H4). split; [exact H1|]. split; [exact H2|]. exists o. split; [right; exact H3|exact H4].
    + intros Z. destruct (Hb Z) as [-> H2]. split; [reflexivity|]. intros o i [<-|Ho] Hi A; [destruct Hi|eapply H2; eassumption].
Qed.

(* ---- steps made of such rules ---- *)
Definition pairs_of (g : graph) : list (list id) := all_combinations (mkCS 2 2) g.
Record rule_step (s : step) : Prop := {
  rs_plain : plain_step s;
  rs_gen : s_gen s = pairs_gen;
  rs_us : s_unapplied s = false;
  rs_items : forall g ns o i, call s g ns None = Ok o -> In i (items_of o) ->
    t_act i = DO_NOTHING \/ (t_act i = REMOVE_EDGE_DIRECTED /\ directed_edge_exists g (t_u i) (t_v i) = true);
  rs_err : forall g ns e, call s g ns None = Err e -> e <> OutOfFuel }.
(* no call of the step on this graph would remove anything *)
Definition quiet (s : step) (g : graph) : Prop := forall ns, In ns (pairs_of g) -> exists o, call s g ns None = Ok o /\ forall i, In i (items_of o) -> t_act i = DO_NOTHING.

Lemma call_us s g ns us : s_unapplied s = false -> call s g ns us = call s g ns None.
Proof. intros U. unfold call. rewrite U. reflexivity. Qed.
Lemma collect_from s g : s_unapplied s = false -> forall l local, collect s g (map One l) local = rbind (rmap (fun ns => call s g ns None) l) (fun os => Ok (local ++ os)).
Proof.
  intros U. induction l as [|ns l IH]; intros local; cbn [map collect rmap as_args rbind]; [rewrite app_nil_r; reflexivity|].
  rewrite (call_us s g ns (Some local) U). destruct (call s g ns None) as [o|e]; cbn [rbind]; [|reflexivity]. rewrite IH. destruct (rmap _ l); cbn [rbind]; [|reflexivity].
  rewrite <- app_assoc. reflexivity.
Qed.
Lemma rmap_each {A B} (f : A -> res B) : forall l os, rmap f l = Ok os -> (forall a, In a l -> exists b, f a = Ok b /\ In b os) /\ (forall b, In b os -> exists a, In a l /\ f a = Ok b).
Proof.
  induction l as [|a l IH]; intros os R; cbn in R; [injection R as <-; split; [intros a []|intros b []]|].
  apply rbind_ok in R. destruct R as (b & R1 & R). apply rbind_ok in R. destruct R as (t & R2 & R). injection R as <-. destruct (IH t R2) as [H1 H2]. split.
  - intros a' [<-|Ha]; [exists b; split; [exact R1|left; reflexivity]|]. destruct (H1 a' Ha) as (b' & X & Y). exists b'. split; [exact X|right; exact Y].
  - intros b' [<-|Hb]; [exists a; split; [left; reflexivity|exact R1]|]. destruct (H2 b' Hb) as (a' & X & Y). exists a'. split; [right; exact X|exact Y].
Qed.
Lemma rmap_err {A B} (f : A -> res B) : forall l e, rmap f l = Err e -> exists a, In a l /\ f a = Err e.
Proof.
  induction l as [|a l IH]; intros e R; cbn in R; [discriminate|]. destruct (f a) as [b|e'] eqn:F; cbn in R; [|injection R as <-; exists a; split; [left; reflexivity|exact F]].
  destruct (rmap f l) as [t|e'] eqn:T; cbn in R; [discriminate|]. injection R as <-. destruct (IH e' eq_refl) as (a' & X & Y). exists a'. split; [right; exact X|exact Y].
Qed.
Lemma rule_unfold s P dry g : rule_step s -> execute_step P no_hooks s dry g = match rmap (fun ns => call s g ns None) (pairs_of g) with Err e => (g, Err e) | Ok os => take_action no_hooks dry os g end.
Proof.
  intros [Pl Gn U _ _]. assert (Gen : gen_run (s_gen s g) g = Ok (map One (pairs_of g))) by (rewrite Gn; cbn; rewrite app_nil_r; reflexivity).
  rewrite (plain_unfold dry s Pl P g _ Gen). rewrite collect_from by exact U. unfold bind. destruct (rmap _ _); reflexivity.
Qed.

Theorem rule_step_run s P g g' r : rule_step s -> WF g -> execute_step P no_hooks s false g = (g', r) -> shrinks g g' /\
  match r with
  | Err e => e <> OutOfFuel
  | Ok a => (fst a = [] -> g' = g /\ quiet s g) /\ (fst a <> [] -> live_count g' < live_count g)
  end.
Proof.
  intros RS W R. rewrite (rule_unfold s P false g RS) in R. destruct RS as [Pl Gn U It Er]. destruct (rmap _ (pairs_of g)) as [os|e] eqn:M.
  - destruct (rmap_each _ _ _ M) as [M1 M2].
    assert (F : Forall (fun o => Forall orient_item (items_of o)) os).
    { apply Forall_forall. intros o Ho. destruct (M2 o Ho) as (ns & _ & Co). apply Forall_forall. intros i Hi. destruct (It g ns o i Co Hi) as [A|[A _]]; [left|right]; exact A. }
    destruct (orient_take os g g' r W F R) as (S & a & -> & H1 & H2). split; [exact S|]. split.
    + intros Z. destruct (H2 Z) as [-> Hg]. split; [reflexivity|]. intros ns Hns. destruct (M1 ns Hns) as (o & Co & Ho). exists o. split; [exact Co|].
      intros i Hi. destruct (It g ns o i Co Hi) as [A|[A L]]; [exact A|]. specialize (Hg o i Ho Hi A). rewrite edge_exists_or, L in Hg. discriminate.
    + intros Z. destruct (fst a) as [|i t] eqn:Fa; [congruence|]. destruct (H1 i (or_introl eq_refl)) as (A & Dd & o & Ho & Hi). destruct (M2 o Ho) as (ns & _ & Co).
      destruct (It g ns o i Co Hi) as [B|[_ L]]; [congruence|]. exact (shrinks_count_lt g g' _ _ W S L Dd).
  - injection R as <- <-. split; [apply shrinks_refl; exact W|]. apply rmap_err in M. destruct M as (ns & _ & Ce). exact (Er g ns e Ce).
Qed.

Lemma inner_run P : forall l g g' r, Forall rule_step l -> WF g -> run_inner P no_hooks false l g = (g', r) -> shrinks g g' /\
  match r with
  | Err e => e <> OutOfFuel
  | Ok a => (snd a = [] -> g' = g /\ Forall (fun s => quiet s g) l) /\ (snd a <> [] -> live_count g' < live_count g)
  end.
Proof.
  induction l as [|s l IH]; intros g g' r F W R; cbn [run_inner] in R.
  - unfold ret in R; injection R as <- <-. split; [apply shrinks_refl; exact W|]. cbn. split; [auto|congruence].
  - inversion F as [|? ? Fs Fl]; subst. unfold bind at 1 in R. destruct (execute_step P no_hooks s false g) as [g1 r1] eqn:R1.
    destruct (rule_step_run s P g g1 r1 Fs W R1) as [S1 H1]. destruct r1 as [a|e]; [|injection R as <- <-; auto].
    unfold bind at 1 in R. destruct (run_inner P no_hooks false l g1) as [g2 r2] eqn:R2. destruct (IH g1 g2 r2 Fl (proj1 S1) R2) as [S2 H2].
    assert (S := shrinks_trans _ _ _ S1 S2). destruct r2 as [b|e]; [|injection R as <- <-; auto]. unfold ret in R; injection R as <- <-. split; [exact S|]. cbn [snd]. split.
    + intros Z. apply app_eq_nil in Z. destruct Z as [Z1 Z2]. destruct (proj1 H1 Z1) as [-> Q1]. destruct (proj1 H2 Z2) as [-> Q2]. split; [reflexivity|constructor; assumption].
    + intros Z. assert (C1 := shrinks_count _ _ S1). assert (C2 := shrinks_count _ _ S2). destruct (fst a) as [|i t] eqn:Fa.
      * cbn in Z. assert (X := proj2 H2 Z). lia.
      * assert (X := proj2 H1 ltac:(discriminate)). lia.
Qed.

Definition need (n : nat) (last : option (list tresult)) (g : graph) : nat :=
  live_count g + match n, last with 0, _ => 2 | _, Some [] => 1 | _, _ => 2 end.
Theorem loop_run P l : Forall rule_step l -> forall fuel n last g g' r, WF g -> (0 < n -> exists t, last = Some t /\ (t = [] -> Forall (fun s => quiet s g) l)) ->
  run_loop fuel P no_hooks exit_on_no_actions l n last g = (g', r) -> shrinks g g' /\
  match r with
  | Err e => need n last g <= fuel -> e <> OutOfFuel
  | Ok _ => Forall (fun s => quiet s g') l
  end.
Proof.
  intros F. induction fuel as [|f IH]; intros n last g g' r W Hn R; cbn [run_loop] in R.
  - unfold raise in R; injection R as <- <-. split; [apply shrinks_refl; exact W|]. unfold need. destruct n; [lia|]. destruct last as [[|]|]; lia.
  - unfold bind at 1 in R. assert (X : exists stop : bool, exit_on_no_actions n last = Ok stop /\ (stop = true -> 0 < n /\ last = Some []) /\ (stop = false -> n = 0 \/ exists i t, last = Some (i :: t))).
    { unfold exit_on_no_actions. destruct n; cbn; [exists false; split; [reflexivity|split; [discriminate|auto]]|]. destruct (Hn ltac:(lia)) as (t & -> & _).
      exists (Nat.eqb (List.length t) 0). split; [reflexivity|]. destruct t as [|i t]; cbn; (split; [|]); intros H; try discriminate; [split; [lia|reflexivity]|right; eauto]. }
    destruct X as (stop & EX & St & Sf). rewrite EX in R. cbn [liftr] in R. unfold ret at 1 in R. destruct stop.
    + destruct (St eq_refl) as [Pn EL]. destruct (Hn Pn) as (t & ET & QT). rewrite EL in ET; injection ET as <-. unfold ret in R; injection R as <- <-. split; [apply shrinks_refl; exact W|]. auto.
    + unfold bind at 1 in R. destruct (run_inner P no_hooks false l g) as [g1 r1] eqn:R1. destruct (inner_run P l g g1 r1 F W R1) as [S1 H1].
      destruct r1 as [a|e]; [|injection R as <- <-; auto]. unfold bind at 1 in R. destruct (run_loop f P no_hooks exit_on_no_actions l (S n) (Some (snd a)) g1) as [g2 r2] eqn:R2.
      assert (Hn' : 0 < S n -> exists t, Some (snd a) = Some t /\ (t = [] -> Forall (fun s => quiet s g1) l)).
      { intros _. exists (snd a). split; [reflexivity|]. intros Z. destruct (proj1 H1 Z) as [-> Q]. exact Q. }
      destruct (IH (S n) (Some (snd a)) g1 g2 r2 (proj1 S1) Hn' R2) as [S2 H2]. assert (S := shrinks_trans _ _ _ S1 S2). destruct r2 as [b|e].
      * unfold ret in R; injection R as <- <-. auto.
      * injection R as <- <-. split; [exact S|]. intros Nd. apply H2. assert (C1 := shrinks_count _ _ S1). unfold need in *.
        assert (ND : live_count g + 2 <= Datatypes.S f).
        { destruct Sf as [->|(i & t & ->)]; [reflexivity|exact Nd|]. destruct n; exact Nd. }
        destruct (snd a) as [|i t]; [lia|]. assert (C2 := proj2 H1 ltac:(discriminate)). lia.
Qed.

(* ---- the four rules ---- *)
Lemma node_at_err g ns k e : node_at g ns k = Err e -> e <> OutOfFuel.
Proof. unfold node_at. destruct (nth_error ns k); [destruct (dmem _ _)|]; intros H; try discriminate H; injection H as <-; discriminate. Qed.
Lemma row_of_err g x e : row_of g x = Err e -> e <> OutOfFuel.
Proof. unfold row_of. destruct (dget _ _); intros H; try discriminate H; injection H as <-; discriminate. Qed.
Lemma common_err so g x y e : common_keys so g x y = Err e -> e <> OutOfFuel.
Proof.
  unfold common_keys. destruct (row_of g x) as [rx|e1] eqn:R1; cbn; [|intros H; injection H as <-; exact (row_of_err _ _ _ R1)].
  destruct (row_of g y) as [ry|e1] eqn:R2; cbn; [discriminate|intros H; injection H as <-; exact (row_of_err _ _ _ R2)].
Qed.
Ltac two_nodes g ns H :=
  let x := fresh "x" in let y := fresh "y" in let Ex := fresh "Ex" in let Ey := fresh "Ey" in
  destruct (node_at g ns 0) as [x|?] eqn:Ex; cbn [rbind] in H; [|injection H as <-; exact (node_at_err _ _ _ _ Ex)];
  destruct (node_at g ns 1) as [y|?] eqn:Ey; cbn [rbind] in H; [|injection H as <-; exact (node_at_err _ _ _ _ Ey)].
Lemma und_l g u v : undirected_edge_exists g u v = true -> directed_edge_exists g u v = true.
Proof. unfold undirected_edge_exists. intros H; apply andb_true_iff in H; tauto. Qed.
Lemma und_r g u v : undirected_edge_exists g u v = true -> directed_edge_exists g v u = true.
Proof. unfold undirected_edge_exists. intros H; apply andb_true_iff in H; tauto. Qed.

Lemma nc_loop g x y : forall zs, match non_collider_loop g x y zs with
  | Ok o => forall i, In i (items_of o) -> t_act i = DO_NOTHING \/ (t_act i = REMOVE_EDGE_DIRECTED /\ directed_edge_exists g (t_u i) (t_v i) = true)
  | Err e => e <> OutOfFuel end.
Proof.
  induction zs as [|z zs IH]; cbn [non_collider_loop]; [intros i []|]. destruct (negb (dmem (nodes g) z)); [discriminate|].
  destruct (only_directed_edge_exists g x z && undirected_edge_exists g z y) eqn:B1.
  { apply andb_true_iff in B1. intros i [<-|[]]. destruct (would_collide g y z); [left; reflexivity|right]. split; [reflexivity|]. exact (und_r _ _ _ (proj2 B1)). }
  destruct (only_directed_edge_exists g y z && undirected_edge_exists g z x) eqn:B2; [|exact IH].
  apply andb_true_iff in B2. intros i [<-|[]]. destruct (would_collide g x z); [left; reflexivity|right]. split; [reflexivity|]. exact (und_r _ _ _ (proj2 B2)).
Qed.
Lemma nc_rule so : rule_step (non_collider_step so).
Proof.
  constructor; [repeat split|reflexivity|reflexivity| |].
  - intros g ns o i C Hi. unfold call in C. cbn in C. unfold non_collider_test in C. inv_ok C; [injection C as <-; destruct Hi|].
    assert (X := nc_loop g a a0 a1). rewrite C in X. exact (X i Hi).
  - intros g ns e C. unfold call in C. cbn in C. unfold non_collider_test in C. two_nodes g ns C. destruct (edge_exists g x y); [discriminate|].
    destruct (common_keys so g x y) as [zs|e1] eqn:CK; cbn [rbind] in C; [|injection C as <-; exact (common_err _ _ _ _ _ CK)].
    assert (X := nc_loop g x y zs). rewrite C in X. exact X.
Qed.
Lemma triple_rule : rule_step triple_step.
Proof.
  constructor; [repeat split|reflexivity|reflexivity| |].
  - intros g ns o i C Hi. unfold call in C. cbn in C. unfold triple_test in C. inv_ok C. injection C as <-. cbn in Hi. apply in_flat_map in Hi. destruct Hi as (z & _ & Hi).
    unfold triple_body in Hi. destruct (negb _); [destruct Hi|]. right. apply in_app_iff in Hi. destruct Hi as [Hi|Hi].
    + destruct (undirected_edge_exists g a a0) eqn:U; cbn [andb] in Hi; [|destruct Hi]. destruct (_ && _); [|destruct Hi]. destruct Hi as [<-|[]]. split; [reflexivity|exact (und_r _ _ _ U)].
    + destruct (undirected_edge_exists g a a0) eqn:U; cbn [andb] in Hi; [|destruct Hi]. destruct (_ && _); [|destruct Hi]. destruct Hi as [<-|[]]. split; [reflexivity|exact (und_l _ _ _ U)].
  - intros g ns e C. unfold call in C. cbn in C. unfold triple_test in C. two_nodes g ns C. discriminate.
Qed.
Lemma quad_rule so : rule_step (quadruple_step so).
Proof.
  constructor; [repeat split|reflexivity|reflexivity| |].
  - intros g ns o i C Hi. unfold call in C. cbn in C. unfold quadruple_test in C. inv_ok C. injection C as <-. cbn in Hi. apply in_flat_map in Hi. destruct Hi as (p & _ & Hi).
    unfold quadruple_body in Hi. destruct p as [|x [|z [|? ?]]]; try destruct Hi. right. apply in_app_iff in Hi. destruct Hi as [Hi|Hi].
    + destruct (undirected_edge_exists g x z) eqn:U; [|rewrite andb_false_r in Hi; destruct Hi]. destruct (_ && true); [|destruct Hi]. destruct Hi as [<-|[]]. split; [reflexivity|exact (und_r _ _ _ U)].
    + destruct (undirected_edge_exists g x z) eqn:U; [|rewrite andb_false_r in Hi; destruct Hi]. destruct (_ && true); [|destruct Hi]. destruct Hi as [<-|[]]. split; [reflexivity|exact (und_l _ _ _ U)].
  - intros g ns e C. unfold call in C. cbn in C. unfold quadruple_test in C. two_nodes g ns C. discriminate.
Qed.
Lemma fquad_rule so : rule_step (further_quadruple_step so).
Proof.
  constructor; [repeat split|reflexivity|reflexivity| |].
  - intros g ns o i C Hi. unfold call in C. cbn in C. unfold further_quadruple_test in C. inv_ok C. injection C as <-. cbn in Hi. apply in_flat_map in Hi. destruct Hi as (p & _ & Hi).
    unfold further_quadruple_body in Hi. destruct p as [|y [|z [|? ?]]]; try destruct Hi. right.
    repeat match type of Hi with
    | In _ (if ?b then _ else _) => let B := fresh "B" in destruct b eqn:B; [destruct Hi as [<-|[]]; split; [reflexivity|]|]
    | In _ [] => destruct Hi
    end; cbn [t_u t_v remove_directed];
    match goal with B : ?b = true |- _ => repeat (apply andb_true_iff in B; destruct B as [B ?]) end;
    first [eapply und_r; eassumption|eapply und_l; eassumption].
  - intros g ns e C. unfold call in C. cbn in C. unfold further_quadruple_test in C. two_nodes g ns C. discriminate.
Qed.
Lemma orientation_rules_ok so : Forall rule_step (orientation_steps so).
Proof. apply Forall_cons; [apply nc_rule|]. apply Forall_cons; [apply triple_rule|]. apply Forall_cons; [apply quad_rule|]. apply Forall_cons; [apply fquad_rule|]. apply Forall_nil. Qed.

(* ---- exactly which directions are live after a set of orientation proposals has been taken ---- *)
Record after (K : id -> id -> Prop) (g g' : graph) : Prop := {
  af_wf : WF g';
  af_nodes : nodes g' = nodes g;
  af_live : forall a b, directed_edge_exists g' a b = true <-> directed_edge_exists g a b = true /\ ~ K a b;
  af_meta : forall a b, directed_edge_exists g' a b = true -> option_map e_meta (eget g' a b) = option_map e_meta (eget g a b);
  af_rows : rows_le g g' }.
Lemma after_refl K g : WF g -> (forall a b, ~ K a b) -> after K g g.
Proof. intros W H. split; auto; [|apply rows_refl]. intros a b. split; [auto|tauto]. Qed.
Lemma after_trans K1 K2 g1 g2 g3 : after K1 g1 g2 -> after K2 g2 g3 -> after (fun a b => K1 a b \/ K2 a b) g1 g3.
Proof.
  intros [A1 A2 A3 A4 A5] [B1 B2 B3 B4 B5]. split; [exact B1|congruence| | |eapply rows_trans; eassumption].
  - intros a b. rewrite B3, A3. tauto.
  - intros a b L. rewrite (B4 a b L). apply A4. apply B3 in L. tauto.
Qed.
Lemma after_ext K1 K2 g g' : (forall a b, K1 a b <-> K2 a b) -> after K1 g g' -> after K2 g g'.
Proof. intros H [A1 A2 A3 A4 A5]. split; auto. intros a b. rewrite A3, H. reflexivity. Qed.
Lemma after_shrinks K g g' : after K g g' -> shrinks g g'.
Proof. intros [A1 A2 A3 _ _]. split; [exact A1|]. split; [exact A2|]. intros a b L. apply A3 in L. tauto. Qed.
Definition kills (i : tresult) (a b : id) : Prop := t_act i = REMOVE_EDGE_DIRECTED /\ t_u i = a /\ t_v i = b.
Lemma after_item i g : WF g -> orient_item i -> after (kills i) g (fst (apply_action i g)).
Proof.
  intros W O. assert (Rm := mono_action i g). destruct (apply_action i g) as [g' r] eqn:R. cbn [fst] in *. destruct O as [A|A].
  - assert (X : apply_action i g = (g, Ok false)) by (unfold apply_action, bind, gget; rewrite A; reflexivity). rewrite X in R; injection R as <- <-.
    apply after_refl; [exact W|]. intros a b (B & _); congruence.
  - destruct (remove_dir_spec g i g' r W A R) as [(G & -> & _)|(G & _ & W' & Nn & L & M & _)].
    + split; auto. intros a b. split; [|tauto]. intros L; split; [exact L|]. intros (_ & <- & <-). rewrite edge_exists_or, L in G. discriminate.
    + split; auto. intros a b. rewrite L. destruct (eqb_spec (a, b) (t_u i, t_v i)) as [X|X].
      * injection X as -> ->. split; [discriminate|]. intros [_ H]. exfalso; apply H. repeat split; auto.
      * split; [|tauto]. intros H; split; [exact H|]. intros (_ & <- & <-). congruence.
Qed.
Lemma orient_item_ok i g : WF g -> orient_item i -> exists b, snd (apply_action i g) = Ok b.
Proof. intros W O. destruct (apply_action i g) as [g' r] eqn:R. destruct (orient_act i g g' r W O R) as (_ & b & -> & _). exists b; reflexivity. Qed.
Lemma after_items : forall l g, WF g -> Forall orient_item l -> after (fun a b => exists i, In i l /\ kills i a b) g (fst (take_items false l g)).
Proof.
  induction l as [|i l IH]; intros g W F; cbn [take_items].
  - apply after_refl; [exact W|]. intros a b (i & [] & _).
  - inversion F as [|? ? Fi Fl]; subst. assert (A1 := after_item i g W Fi). destruct (orient_item_ok i g W Fi) as [b Eb]. unfold bind at 1.
    destruct (apply_action i g) as [g1 r1]. cbn [fst snd] in *. subst r1. assert (A2 := IH g1 (af_wf _ _ _ A1) Fl). unfold bind at 1.
    assert (X : forall g2 r2, (g2, r2) = take_items false l g1 -> fst (match r2 with Ok a => ret (if b then i :: a else a) g2 | Err e => (g2, Err e) end) = g2) by (intros g2 [?|?] _; reflexivity).
    destruct (take_items false l g1) as [g2 r2] eqn:R2. rewrite (X g2 r2 eq_refl). cbn [fst] in A2. eapply after_ext; [|exact (after_trans _ _ _ _ _ A1 A2)].
    intros a b'. split; [intros [H|(j & Hj & H)]; [exists i|exists j]; cbn; auto|]. intros (j & [<-|Hj] & H); [auto|right; eauto].
Qed.
Definition killed (rs : list outcome) (a b : id) : Prop := exists o i, In o rs /\ In i (items_of o) /\ kills i a b.
Theorem after_take : forall rs g, WF g -> Forall (fun o => Forall orient_item (items_of o)) rs -> after (killed rs) g (fst (take_action no_hooks false rs g)).
Proof.
  induction rs as [|[items|] rs IH]; intros g W F; cbn [take_action].
  - apply after_refl; [exact W|]. intros a b (o & i & [] & _).
  - inversion F as [|? ? Fi Fr]; subst. unfold bind at 1, gget at 1. change (run_pre_hooks no_hooks g items) with (Ok items). cbn iota. unfold bind at 1.
    assert (A1 := after_items items g W Fi). destruct (take_items false items g) as [g1 r1] eqn:R1. destruct (orient_items items g g1 r1 W Fi R1) as (S1 & t & -> & _).
    cbn [fst] in A1. unfold bind at 1, gget at 1. change (run_post_hooks no_hooks g1 t) with (Ok tt). cbn iota. unfold bind at 1.
    assert (A2 := IH g1 (af_wf _ _ _ A1) Fr). destruct (take_action no_hooks false rs g1) as [g2 r2] eqn:R2. destruct (orient_take rs g1 g2 r2 (proj1 S1) Fr R2) as (_ & p & -> & _). cbn [fst] in A2.
    cbn [fst]. eapply after_ext; [|exact (after_trans _ _ _ _ _ A1 A2)]. intros a b. split.
    + intros [(i & Hi & H)|(o & i & Ho & Hi & H)]; [exists (Some items), i; cbn; auto|exists o, i; cbn; auto].
    + intros (o & i & [<-|Ho] & Hi & H); [left; eauto|right; exists o, i; auto].
  - inversion F as [|? ? Fi Fr]; subst. eapply after_ext; [|exact (IH g W Fr)]. intros a b. split.
    + intros (o & i & Ho & Hi & H). exists o, i; cbn; auto.
    + intros (o & i & [<-|Ho] & Hi & H); [destruct Hi|exists o, i; auto].
Qed.
Lemma take_orient_ok rs g : WF g -> Forall (fun o => Forall orient_item (items_of o)) rs -> exists a, snd (take_action no_hooks false rs g) = Ok a.
Proof. intros W F. destruct (take_action no_hooks false rs g) as [g' r] eqn:R. destruct (orient_take rs g g' r W F R) as (_ & a & -> & _). exists a; reflexivity. Qed.
Lemma after_purge g : WF g -> after (fun _ _ => False) g (fst (purge_soft_deleted_edges g)) /\ snd (purge_soft_deleted_edges g) = Ok tt.
Proof.
  intros W. assert (Rm := mono_purge g). destruct (purge_ok g W) as (g' & R & W' & N & _ & _ & _ & G & _). assert (L := purge_dee g g' W R). rewrite R in *. cbn [fst snd] in *.
  split; [|reflexivity]. split; auto.
  - intros a b. rewrite L. tauto.
  - intros a b X. rewrite L in X. rewrite (dee_val g a b W) in X. rewrite G. destruct (eget g a b) as [e|]; [|discriminate]. destruct (e_del e); [discriminate|reflexivity].
Qed.
