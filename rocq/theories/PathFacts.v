(* Correctness of path and descendant enumeration. *)
From Verif Require Import Base PyDict PyDictFacts Graph GraphFacts GraphInv GraphQ GraphPaths Dag PathSpec.

(* ---------- list facts ---------- *)

Definition unseen (l vis : list id) : nat := List.length (filter (fun x => negb (mem x vis)) l).

Lemma filter_length_le {A} (f : A -> bool) l : List.length (filter f l) <= List.length l.
Proof. induction l as [|x l IH]; simpl; [lia|]; destruct (f x); simpl; lia. Qed.

Lemma filter_length_mono {A} (f h : A -> bool) l : (forall x, h x = true -> f x = true) ->
  List.length (filter h l) <= List.length (filter f l).
Proof.
  intros M; induction l as [|x l IH]; simpl; [lia|].
  destruct (h x) eqn:E; [rewrite (M x E); simpl; lia|]. destruct (f x); simpl; lia.
Qed.

Lemma filter_length_lt {A} (f h : A -> bool) l x : (forall x, h x = true -> f x = true) ->
  In x l -> f x = true -> h x = false -> List.length (filter h l) < List.length (filter f l).
Proof.
  intros M; induction l as [|y l IH]; simpl; [contradiction|].
  intros [->|Hin] Hf Hh.
  - rewrite Hf, Hh; simpl. assert (L := filter_length_mono f h l M). lia.
  - specialize (IH Hin Hf Hh). destruct (h y) eqn:E; [rewrite (M y E); simpl; lia|]. destruct (f y); simpl; lia.
Qed.

Lemma unseen_cons_lt l vis w : In w l -> ~ In w vis -> unseen l (w :: vis) < unseen l vis.
Proof.
  intros Hin Hv; unfold unseen; apply filter_length_lt with (x := w).
  - intros x; rewrite !negb_true_iff, !mem_not_In; simpl; tauto.
  - exact Hin.
  - apply negb_true_iff, mem_not_In; exact Hv.
  - apply negb_false_iff, mem_In; left; reflexivity.
Qed.

Lemma unseen_le l vis : unseen l vis <= List.length l.
Proof. apply filter_length_le. Qed.

Lemma unseen_mono l vis vis' : (forall x, In x vis -> In x vis') -> unseen l vis' <= unseen l vis.
Proof.
  intros M; apply filter_length_mono; intros x; rewrite !negb_true_iff, !mem_not_In; auto.
Qed.

Lemma edge_exists_nodes g u v : edge_exists g u v = true -> dmem (nodes g) u = true /\ dmem (nodes g) v = true.
Proof.
  unfold edge_exists; destruct (dmem (nodes g) u), (dmem (nodes g) v); simpl; auto; discriminate.
Qed.

(* ---------- simple paths that avoid a set ---------- *)

Definition avoids (vis p : list id) : Prop := forall x, In x p -> ~ In x vis.

Definition spath (R : id -> id -> Prop) (vis : list id) (u v : id) (p : list id) : Prop :=
  simple_path R u v p /\ avoids vis p.

Lemma ends_cons (x y : id) p : p <> [] -> ends y (x :: p) <-> ends y p.
Proof.
  intros N; split.
  - intros [q E]; destruct q as [|z q]; simpl in E; injection E as -> E.
    + contradiction.
    + exists q; exact E.
  - intros [q E]; exists (x :: q); rewrite E; reflexivity.
Qed.

Lemma ends_tail (x z y : id) q : ends y (x :: z :: q) <-> ends y (z :: q).
Proof. apply ends_cons; discriminate. Qed.

Lemma ends_sing (x y : id) : ends y [x] <-> x = y.
Proof.
  split.
  - intros [q E]; destruct q as [|z q]; simpl in E; [congruence|]. injection E as _ E; destruct q; discriminate.
  - intros ->; exists []; reflexivity.
Qed.

Lemma ends_In (y : id) p : ends y p -> In y p.
Proof. intros [q ->]; apply in_or_app; right; left; reflexivity. Qed.

Lemma spath_self R vis u p : ~ In u vis -> spath R vis u u p <-> p = [u].
Proof.
  intros Hv; split.
  - intros [([q ->] & He & _ & Hn) _]. destruct q as [|x q]; [reflexivity|].
    exfalso. apply (proj1 (ends_tail _ _ _ _)) in He. apply ends_In in He. inversion Hn; subst; contradiction.
  - intros ->; split; [split; [|split; [|split]]|].
    + exists []; reflexivity.
    + exists []; reflexivity.
    + constructor.
    + constructor; [simpl; tauto|constructor].
    + intros x [<-|[]]; exact Hv.
Qed.

Lemma spath_step R vis u v p : u <> v -> ~ In u vis ->
  spath R vis u v p <-> exists w q, R u w /\ p = u :: q /\ ~ In w (u :: vis) /\ spath R (u :: vis) w v q.
Proof.
  intros Hne Hv; split.
  - intros [([q ->] & He & Hc & Hn) Ha].
    destruct q as [|w q]; [apply (proj1 (ends_sing _ _)) in He; congruence|].
    inversion Hc as [| |x y l Hr Hc']; subst.
    inversion Hn as [|x l Hni Hn']; subst.
    exists w, (w :: q); split; [exact Hr|split; [reflexivity|]].
    assert (Av : avoids (u :: vis) (w :: q)).
    { intros x Hx [<-|Hx']; [contradiction|]. apply (Ha x); [right; exact Hx|exact Hx']. }
    split; [apply Av; left; reflexivity|].
    split; [split; [exists q; reflexivity|split; [|split; assumption]]|exact Av].
    apply (proj1 (ends_tail _ _ _ _)) in He; exact He.
  - intros (w & q & Hr & -> & Hw & ([q' ->] & He & Hc & Hn) & Ha).
    split; [split; [eexists; reflexivity|split; [|split]]|].
    + apply (proj2 (ends_tail _ _ _ _)); exact He.
    + constructor; assumption.
    + constructor; [|exact Hn]. intros Hin; apply (Ha u Hin); left; reflexivity.
    + intros x [<-|Hx]; [exact Hv|]. intros Hx'; apply (Ha x Hx); right; exact Hx'.
Qed.

(* ---------- all_paths ---------- *)

Lemma rflat_map_spec {A} (f : A -> res (list (list id))) (ns : list A) (P : A -> list id -> Prop) (pre : list id) :
  NoDup ns ->
  (forall w, In w ns -> exists qs, f w = Ok (map (app pre) qs) /\ NoDup qs /\ forall q, In q qs <-> P w q) ->
  (forall w w' q, P w q -> P w' q -> w = w') ->
  exists qs, rflat f ns = Ok (map (app pre) qs) /\ NoDup qs /\ forall q, In q qs <-> exists w, In w ns /\ P w q.
Proof.
  intros Hn Hf Hu; induction ns as [|w ns IH].
  - exists []; split; [reflexivity|split; [constructor|]]. intros q; split; [contradiction|intros (w & [] & _)].
  - inversion Hn as [|? ? Hni Hn']; subst.
    destruct (Hf w (or_introl eq_refl)) as (q1 & F1 & N1 & S1).
    destruct (IH Hn') as (q2 & F2 & N2 & S2); [intros w' Hw'; apply Hf; right; exact Hw'|].
    exists (q1 ++ q2); split; [|split].
    + simpl; rewrite F1; simpl; rewrite F2; simpl; rewrite map_app; reflexivity.
    + apply NoDup_app_intro; try assumption.
      intros q Hq Hq'; apply S1 in Hq; apply S2 in Hq'; destruct Hq' as (w' & Hw' & Pw').
      rewrite (Hu _ _ _ Hq Pw') in Hni; contradiction.
    + intros q; rewrite in_app_iff, S1, S2; split.
      * intros [H1|(w' & Hw' & Pw')]; [exists w; simpl; auto|exists w'; simpl; auto].
      * intros (w' & [<-|Hw'] & Pw'); [left; exact Pw'|right; eauto].
Qed.


Lemma all_paths_fuel_spec g : NoDup (dkeys (nodes g)) ->
  forall n u v vis path, ~ In u vis -> unseen (dkeys (nodes g)) (u :: vis) < n ->
  exists qs, all_paths_fuel n g u v vis path = Ok (map (app path) qs) /\ NoDup qs /\
             forall q, In q qs <-> spath (adjR g) vis u v q.
Proof.
  intros HN; induction n as [|n IH]; intros u v vis path Hu Hf; [lia|].
  cbn [all_paths_fuel]. destruct (eqb_spec u v) as [->|Hne].
  - exists [[v]]; split; [reflexivity|split; [constructor; [simpl; tauto|constructor]|]].
    intros q; rewrite spath_self by exact Hu; simpl; split; [intros [<-|[]]; reflexivity|intros ->; left; reflexivity].
  - destruct (rflat_map_spec
       (fun w => if negb (mem w (u :: vis)) && edge_exists g u w
                 then all_paths_fuel n g w v (u :: vis) (path ++ [u]) else Ok [])
       (dkeys (nodes g))
       (fun w q => adjR g u w /\ ~ In w (u :: vis) /\ spath (adjR g) (u :: vis) w v q)
       (path ++ [u]) HN) as (qs & F & N & S).
    + intros w Hw. destruct (negb (mem w (u :: vis)) && edge_exists g u w) eqn:C.
      * apply andb_true_iff in C; destruct C as [C1 C2]; apply negb_true_iff, mem_not_In in C1.
        destruct (IH w v (u :: vis) (path ++ [u]) C1) as (qs & F & N & S).
        { assert (L := unseen_cons_lt _ _ _ Hw C1). lia. }
        exists qs; split; [exact F|split; [exact N|]]. intros q; rewrite S; unfold adjR; tauto.
      * exists []; split; [reflexivity|split; [constructor|]]. intros q; split; [contradiction|].
        intros (A & B & _); unfold adjR in A; rewrite A in C. apply mem_not_In in B; rewrite B in C; discriminate.
    + intros w w' q (_ & _ & ([q1 E1] & _) & _) (_ & _ & ([q2 E2] & _) & _); congruence.
    + exists (map (cons u) qs); split; [|split].
      * rewrite F; f_equal; rewrite map_map; apply map_ext; intros q; rewrite <- app_assoc; reflexivity.
      * apply FinFun.Injective_map_NoDup; [|exact N]. intros a b [= ->]; reflexivity.
      * intros q; rewrite in_map_iff, spath_step by assumption; split.
        -- intros (q' & <- & Hq'); apply S in Hq'; destruct Hq' as (w & Hw & A & B & C); exists w, q'; auto.
        -- intros (w & q' & A & -> & B & C); exists q'; split; [reflexivity|]. apply S; exists w; split; [|auto].
           apply dmem_In; apply (edge_exists_nodes g u w); exact A.
Qed.

Lemma map_app_nil (qs : list (list id)) : map (app []) qs = qs.
Proof. exact (map_id qs). Qed.

Lemma all_paths_spec g u v fuel : NoDup (dkeys (nodes g)) -> List.length (nodes g) < fuel ->
  exists ps, all_paths fuel g u v = Ok ps /\ NoDup ps /\ forall p, In p ps <-> simple_path (adjR g) u v p.
Proof.
  intros HN Hf.
  destruct (all_paths_fuel_spec g HN fuel u v [] []) as (qs & F & N & S); [simpl; tauto| |].
  - assert (L := unseen_le (dkeys (nodes g)) [u]). unfold dkeys in L at 2; rewrite map_length in L; lia.
  - exists qs; unfold all_paths; rewrite F, map_app_nil; split; [reflexivity|split; [exact N|]].
    intros p; rewrite S; unfold spath; split; [tauto|]. intros H; split; [exact H|]. intros x _ [].
Qed.

(* ---------- descendants ---------- *)

Lemma reach_trans {V} (E : V -> V -> Prop) x y z : reach E x y -> reach E y z -> reach E x z.
Proof. induction 1; intros; [assumption|eapply reach_step; eauto]. Qed.

Lemma reach_plus_right {V} (E : V -> V -> Prop) x y z : reach E x y -> E y z -> reach E x z.
Proof. intros A B; eapply reach_trans; [exact A|]; eapply reach_step; [exact B|apply reach_refl]. Qed.

(* entry points of the row of u *)
Definition row (g : graph) (u : id) : list id := match dget (edges g) u with Some r => dkeys r | None => [] end.

Lemma oneway_row g a b : oneway g a b -> In b (row g a).
Proof.
  intros [L _]; apply dee_iff0 in L; destruct L as (_ & _ & e & E & _).
  unfold row, eget, dget2 in *; destruct (dget (edges g) a) as [r|]; [|discriminate].
  apply dmem_In; unfold dmem; rewrite E; reflexivity.
Qed.

Lemma oneway_node g a b : oneway g a b -> In b (dkeys (nodes g)).
Proof. intros [L _]; apply dee_iff0 in L; destruct L as (_ & A & _); apply dmem_In; exact A. Qed.

Definition dspec (g : graph) (u : id) (vis l vis' : list id) : Prop :=
  In u l /\ NoDup l /\
  (forall x, In x vis' <-> In x vis \/ In x l) /\
  (forall x, In x l -> ~ In x vis /\ reach (oneway g) u x) /\
  (forall x y, In x l -> oneway g x y -> In y vis').

Lemma desc_step_spec g so n u : set_order so ->
  (forall c vis, ~ In c vis -> unseen (dkeys (nodes g)) (c :: vis) < n ->
     exists l vis', descendants_fuel n so g c vis = Ok (l, vis') /\ dspec g c vis l vis') ->
  forall vis cs ds seen,
    unseen (dkeys (nodes g)) (u :: vis) < S n ->
    (forall c, oneway g u c -> In c cs \/ In c seen) ->
    (In u ds /\ (forall x, In x seen <-> In x vis \/ In x ds) /\
     (forall x, In x ds -> ~ In x vis /\ reach (oneway g) u x) /\
     (forall x y, In x ds -> x <> u -> oneway g x y -> In y seen)) ->
    exists l vis', rfold (fun s c =>
                  if directed_edge_exists g u c && negb (directed_edge_exists g c u) then
                    if negb (mem c (snd s)) then
                      rbind (descendants_fuel n so g c (snd s)) (fun r => Ok (fst s ++ fst r, snd r))
                    else Ok s
                  else Ok s) cs (ds, seen) = Ok (l, vis') /\
      In u l /\ (forall x, In x vis' <-> In x vis \/ In x l) /\
      (forall x, In x l -> ~ In x vis /\ reach (oneway g) u x) /\
      (forall x y, In x l -> oneway g x y -> In y vis').
Proof.
  intros Hso IH vis cs; induction cs as [|c cs IHc]; intros ds seen Hf Hc (Hu & Hs & Hd & Hcl).
  - exists ds, seen; split; [reflexivity|]. split; [exact Hu|split; [exact Hs|split; [exact Hd|]]].
    intros x y Hx Hy; destruct (id_dec x u) as [->|N]; [|eapply Hcl; eassumption].
    destruct (Hc y Hy) as [[]|H]; exact H.
  - cbn [rfold]. destruct (directed_edge_exists g u c && negb (directed_edge_exists g c u)) eqn:C.
    + apply andb_true_iff in C; destruct C as [C1 C2]; apply negb_true_iff in C2.
      assert (Ho : oneway g u c) by (split; assumption).
      destruct (mem c (snd (ds, seen))) eqn:M; simpl negb; cbv iota.
      * cbn [snd] in M; apply mem_In in M. cbn [rbind]. apply IHc; auto.
        intros d Hd'; destruct (Hc d Hd') as [[<-|H]|H]; auto.
      * cbn [snd] in M; apply mem_not_In in M; cbn [snd fst].
        assert (Hcn : In c (dkeys (nodes g))) by (eapply oneway_node; exact Ho).
        destruct (IH c seen M) as (l & vis' & R & Il & Nl & Sl & Dl & Cl).
        { assert (L := unseen_cons_lt _ _ _ Hcn M).
          assert (L2 : unseen (dkeys (nodes g)) seen <= unseen (dkeys (nodes g)) (u :: vis)).
          { apply unseen_mono; intros x [<-|Hx]; apply Hs; auto. }
          lia. }
        rewrite R; cbn [rbind fst snd]. apply IHc; [exact Hf| |].
        -- intros d Hd'; destruct (Hc d Hd') as [[<-|H]|H]; auto; right; apply Sl; auto.
        -- split; [apply in_or_app; left; exact Hu|]. split; [|split].
           ++ intros x; rewrite Sl, Hs, in_app_iff; tauto.
           ++ intros x Hx; apply in_app_iff in Hx; destruct Hx as [Hx|Hx]; [apply Hd; exact Hx|].
              destruct (Dl x Hx) as [A B]; split; [intros Hv; apply A, Hs; auto|].
              eapply reach_step; eassumption.
           ++ intros x y Hx Hxu Hxy; apply in_app_iff in Hx; destruct Hx as [Hx|Hx].
              ** apply Sl; left; eapply Hcl; eassumption.
              ** eapply Cl; eassumption.
    + cbn [rbind]. apply IHc; auto.
      intros d Hd'; destruct (Hc d Hd') as [[<-|H]|H]; auto.
      destruct Hd' as [A B]; rewrite A, B in C; discriminate.
Qed.

Lemma descendants_fuel_spec g so : set_order so ->
  forall n u vis, ~ In u vis -> unseen (dkeys (nodes g)) (u :: vis) < n ->
  exists l vis', descendants_fuel n so g u vis = Ok (l, vis') /\ dspec g u vis l vis'.
Proof.
  intros Hso; induction n as [|n IH]; intros u vis Hu Hf; [lia|].
  cbn [descendants_fuel]. rewrite (proj2 (mem_not_In u vis) Hu).
  destruct (dget (edges g) u) as [r|] eqn:R.
  - destruct (desc_step_spec g so n u Hso IH vis (dkeys r) [u] (u :: vis) Hf) as (l & vis' & F & A & B & C & D).
    + intros c Hc; left. apply oneway_row in Hc; unfold row in Hc; rewrite R in Hc; exact Hc.
    + split; [left; reflexivity|]. split; [|split].
      * intros x; simpl; tauto.
      * intros x [<-|[]]; split; [exact Hu|apply reach_refl].
      * intros x y [<-|[]] N; congruence.
    + exists (so l), vis'; rewrite F; cbn [rbind fst snd]; split; [reflexivity|].
      destruct (Hso l) as [S1 S2].
      split; [apply S2; exact A|]. split; [exact S1|]. split; [|split].
      * intros x; rewrite S2; apply B.
      * intros x Hx; apply C, S2; exact Hx.
      * intros x y Hx; apply D, S2; exact Hx.
  - exists [u], (u :: vis); split; [reflexivity|].
    split; [left; reflexivity|]. split; [constructor; [simpl; tauto|constructor]|]. split; [|split].
    + intros x; simpl; tauto.
    + intros x [<-|[]]; split; [exact Hu|apply reach_refl].
    + intros x y [<-|[]] Hxy; exfalso. apply oneway_row in Hxy; unfold row in Hxy; rewrite R in Hxy; exact Hxy.
Qed.

Lemma descendants_spec g so u fuel : set_order so -> List.length (nodes g) < fuel ->
  exists l, descendants_of_node fuel so g u = Ok l /\ NoDup l /\ forall x, In x l <-> reach (oneway g) u x.
Proof.
  intros Hso Hf.
  destruct (descendants_fuel_spec g so Hso fuel u []) as (l & vis' & F & A & B & C & D & E); [simpl; tauto| |].
  - assert (L := unseen_le (dkeys (nodes g)) [u]). unfold dkeys in L at 2; rewrite map_length in L; lia.
  - exists l; unfold descendants_of_node; rewrite F; split; [reflexivity|split; [exact B|]].
    intros x; split; [apply D|]. intros Hr.
    assert (G : forall a b, reach (oneway g) a b -> In a l -> In b l).
    { induction 1 as [|a b c Hab Hbc IHr]; intros Ha; [exact Ha|].
      apply IHr. specialize (E a b Ha Hab). apply C in E; destruct E as [[]|E]; exact E. }
    eapply G; eassumption.
Qed.
