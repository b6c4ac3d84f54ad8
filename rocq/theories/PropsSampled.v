(* The random sample of a generator: C100. *)
From Coq Require Import Sorted.
From Verif Require Import Base PyDict Graph GraphSpec GraphCheck Actions ActionSpec ActionMain Generators GenSpec GenFacts GraphMain PropsGen SampledSpec.
Open Scope string_scope.
Open Scope list_scope.

Lemma keep_from {A} (c : nat -> bool) : forall (l : list A) j, exists idx, StronglySorted lt idx /\ (forall k, In k idx <-> j <= k < j + List.length l /\ c k = true) /\
  Forall2 (fun k a => nth_error l (k - j) = Some a) idx (keep c j l).
Proof.
  induction l as [|a l IH]; intros j.
  - exists []. split; [constructor|]. split; [|constructor]. intros k. cbn. split; [intros []|lia].
  - destruct (IH (S j)) as (idx & S1 & I & F). assert (F' : Forall2 (fun k b => nth_error (a :: l) (k - j) = Some b) idx (keep c (S j) l)).
    { assert (B : forall k, In k idx -> S j <= k) by (intros k H; apply I in H; lia). clear - F B. induction F as [|k b idx out H F IH]; constructor.
      - replace (k - j) with (S (k - S j)) by (specialize (B k (or_introl eq_refl)); lia). exact H.
      - apply IH. intros k' H'. apply B. right; exact H'. }
    cbn [keep List.length]. destruct (c j) eqn:C.
    + exists (j :: idx). split; [constructor; [exact S1|apply Forall_forall; intros k H; apply I in H; lia]|]. split.
      * intros k. cbn [In]. rewrite I. split; [intros [<-|[H1 H2]]; split; (assumption || lia)|]. intros [H1 H2]. destruct (Nat.eq_dec j k) as [Q|Q]; [left; exact Q|right; split; [lia|exact H2]].
      * constructor; [rewrite Nat.sub_diag; reflexivity|exact F'].
    + exists idx. split; [exact S1|]. split; [|exact F']. intros k. rewrite I. split; [intros [H1 H2]; split; [lia|exact H2]|]. intros [H1 H2]. split; [|exact H2]. destruct (Nat.eq_dec j k) as [Q|Q]; [subst; congruence|lia].
Qed.
Lemma keep_picked {A} (c : nat -> bool) (l : list A) : picked c l (keep c 0 l).
Proof.
  destruct (keep_from c l 0) as (idx & S1 & I & F). exists idx. split; [exact S1|]. split; [intros j; rewrite I; split; intros [H1 H2]; split; (assumption || lia)|].
  clear - F. induction F as [|k b idx out H F IH]; constructor; [|exact IH]. rewrite Nat.sub_0_r in H. exact H.
Qed.
Lemma sample_at coin : forall l k i f', nth_error (gen_sample_from coin k l) i = Some f' ->
  exists f, nth_error l i = Some f /\ f' = (fun g => rbind (f g) (fun es => Ok (keep (coin (k + i)) 0 es))).
Proof.
  induction l as [|f l IH]; intros k i f' E; [destruct i; discriminate|]. cbn [gen_sample_from] in E. destruct i as [|i]; cbn in E.
  - injection E as <-. exists f. rewrite Nat.add_0_r. auto.
  - destruct (IH (S k) i f' E) as (f0 & H1 & H2). exists f0. split; [exact H1|]. rewrite <- Nat.add_succ_comm. exact H2.
Qed.
Lemma sample_length coin : forall l k, List.length (gen_sample_from coin k l) = List.length l.
Proof. induction l as [|f l IH]; intros k; cbn; [reflexivity|]. rewrite IH. reflexivity. Qed.
Lemma keep_subseq {A} (c : nat -> bool) : forall (l : list A) j, subseq (keep c j l) l.
Proof. induction l as [|a l IH]; intros j; cbn [keep]; [constructor|]. destruct (c j); constructor; apply IH. Qed.
Lemma subseq_app {A} (a b c d : list A) : subseq a b -> subseq c d -> subseq (a ++ c) (b ++ d).
Proof. induction 1; intros S2; cbn; [exact S2|constructor; auto|constructor; auto]. Qed.
Lemma keep_contents (c : nat -> bool) : forall (l : list emission) j, subseq (flat_map contents (keep c j l)) (flat_map contents l).
Proof.
  induction l as [|a l IH]; intros j; cbn [keep flat_map]; [constructor|]. destruct (c j); cbn [flat_map].
  - apply subseq_app; [apply subseq_refl|apply IH].
  - apply (subseq_app [] (contents a)); [apply subseq_nil_l|apply IH].
Qed.
Lemma sample_run coin g : forall l k es, gen_run l g = Ok es -> exists es', gen_run (gen_sample_from coin k l) g = Ok es' /\ subseq (flat_map contents es') (flat_map contents es).
Proof.
  unfold gen_run. induction l as [|f l IH]; intros k es E; cbn [rflat gen_sample_from] in *.
  - injection E as <-. exists []. split; [reflexivity|constructor].
  - destruct (f g) as [a|e]; [|discriminate]. cbn [rbind] in *. destruct (rflat (fun f => f g) l) as [b|e] eqn:E2; [|discriminate]. cbn [rbind] in E. injection E as <-.
    destruct (IH (S k) b eq_refl) as (b' & -> & S). cbn [rbind]. eexists. split; [reflexivity|]. rewrite !flat_map_app. apply subseq_app; [apply keep_contents|exact S].
Qed.

(* C100: block by block, the sample has exactly the emissions for which the coin came up, in the same order; errors of the
   wrapped generator are passed on *)
Theorem C100_sample : forall coin l, List.length (gen_sample coin l) = List.length l /\
  forall i f', nth_error (gen_sample coin l) i = Some f' -> exists f, nth_error l i = Some f /\
    forall g, match f g with Ok es => exists out, f' g = Ok out /\ picked (coin i) es out | Err e => f' g = Err e end.
Proof.
  intros coin l. split; [apply sample_length|]. intros i f' E. destruct (sample_at coin l 0 i f' E) as (f & H & ->). exists f. split; [exact H|]. intros g. destruct (f g) as [es|e]; cbn [rbind]; [|reflexivity].
  eexists. split; [reflexivity|]. apply keep_picked.
Qed.
Print Assumptions C100_sample.
(* so a sample never yields a combination that the generator does not yield, and none more often *)
Theorem C100_nothing_new : forall coin l g out, emitted l g out -> exists out', emitted (gen_sample coin l) g out' /\ subseq out' out.
Proof.
  intros coin l g out (es & E & ->). destruct (sample_run coin g l 0 es E) as (es' & E' & S). exists (flat_map contents es'). split; [exists es'; auto|exact S].
Qed.
Print Assumptions C100_nothing_new.
Example C100_nonvacuous : emitted (gen_all (mkCS 2 2) gg) gg [["a";"b"];["a";"c"];["a";"d"];["b";"c"];["b";"d"];["c";"d"]] /\
  emitted (gen_sample (fun _ j => Nat.eqb (Nat.modulo j 2) 1) (gen_all (mkCS 2 2) gg)) gg [["a";"c"];["b";"c"];["c";"d"]] /\ picked (fun j => Nat.eqb j 1) ["x"; "y"; "z"] ["y"].
Proof.
  split; [eexists; split; vm_compute; reflexivity|]. split; [eexists; split; vm_compute; reflexivity|]. exists [1]. split; [repeat constructor|]. split; [|repeat constructor].
  intros j. cbn. split; [intros [<-|[]]; auto|]. intros [H1 H2]. left. symmetry. apply Nat.eqb_eq. exact H2.
Qed.
