(* The correlation step on any graph in which every two nodes are connected both ways. *)
From Verif Require Import Base PyDict PyDictFacts Graph GraphSpec GraphFacts GraphInv GraphInv2 GraphInv3 GraphQ GraphMain
  GraphPaths PathSpec Actions ActionSpec ActionFacts ActionMain Generators GenSpec GenFacts Rules IndepTests Pipeline Parallel PipeFacts RuleFacts
  Construct ConstructSpec ConstructFacts Dag DagFacts DagSep SkelSpec Rows Serve SkelFacts SkelStart SkelSteps SkelMatrix SkelMain
  OrientSpec OrientGraph LoopFacts OrientMain TotalSpec TotalFacts TotalMain.
Open Scope string_scope.
Open Scope list_scope.

Section Gen.
Variable g0 : graph.
Variable N : numerics.
Hypothesis WG : WF g0.
Hypothesis AC : all_connected g0.
Notation node := (SkelFacts.node g0).
Notation ord := (ord g0).
Notation E := (fun e => exists x y, before (dkeys (nodes g0)) x y /\ n_pearson N (values_of g0 x) (values_of g0 y) = Err e).

Lemma o_asym x y : ord x y -> ord y x -> False.
Proof. intros A B. apply all_combinations_In in A, B. exact (subseq_pair _ x y (wf_nodes _ WG) (proj1 A) (proj1 B)). Qed.
Lemma o_ok x y : ord x y -> node x /\ node y /\ x <> y.
Proof. intros A. destruct (pairs_ok g0 g0 WG eq_refl _ A) as (a & b & H & Ha & Hb & Ne). injection H as -> ->. auto. Qed.

Definition oldmeta (x y : id) : meta := match eget g0 x y with Some e => match e_meta e with Some m => m | None => [] end | None => [] end.
Definition newmeta (x y : id) : meta := dset (oldmeta x y) "correlation" (MNum (num (n_pearson N (values_of g0 x) (values_of g0 y)))).
Lemma g0_edge x y : node x -> node y -> x <> y -> exists e, eget g0 x y = Some e /\ e_meta e = Some (oldmeta x y) /\ e_del e = false.
Proof.
  intros Hx Hy Ne. destruct (AC x y (proj1 (dmem_In _ _) Hx) (proj1 (dmem_In _ _) Hy) Ne) as (L & e & m & En & M). rewrite entry_eget in En.
  exists e. split; [exact En|]. unfold oldmeta. rewrite En, M. split; [reflexivity|].
  rewrite (dee_val g0 x y WG), En in L. destruct (e_del e); [discriminate|reflexivity].
Qed.

Record qstate (g : graph) : Prop := {
  qs_wf : WF g;
  qs_nodes : nodes g = nodes g0;
  qs_eget : forall u v, node u -> node v -> u <> v -> exists e m, eget g0 u v = Some e /\ eget g u v = Some (set_meta m e) }.
Definition qset (x y : id) (g : graph) : Prop :=
  eget g x y = option_map (set_meta (Some (newmeta x y))) (eget g0 x y) /\ eget g y x = option_map (set_meta (Some (newmeta x y))) (eget g0 y x).
Definition qQ (i : tresult) : Prop := exists x y, i = mkT x y UPDATE_EDGE (Some (newmeta x y)) /\ ord x y.

Lemma set_meta2 m m' e : set_meta m (set_meta m' e) = set_meta m e.
Proof. destruct e; reflexivity. Qed.
Lemma set_meta_id e : set_meta (e_meta e) e = e.
Proof. destruct e; reflexivity. Qed.
Lemma q_live g u v : qstate g -> node u -> node v -> u <> v -> directed_edge_exists g u v = true.
Proof.
  intros K Hu Hv Ne. rewrite (dee_val g u v (qs_wf _ K)). destruct (qs_eget _ K u v Hu Hv Ne) as (e & m & E0 & ->).
  destruct (g0_edge u v Hu Hv Ne) as (e' & E0' & _ & D). assert (e' = e) as -> by congruence. cbn. rewrite D. reflexivity.
Qed.
Lemma qact x y g g' r : qstate g -> ord x y -> apply_action (mkT x y UPDATE_EDGE (Some (newmeta x y))) g = (g', r) ->
  r = Ok true /\ qstate g' /\ qset x y g' /\ forall a b, a <> x \/ b <> y -> a <> y \/ b <> x -> eget g' a b = eget g a b.
Proof.
  intros K O R. destruct (o_ok x y O) as (Hx & Hy & Ne). set (i := mkT x y UPDATE_EDGE (Some (newmeta x y))) in *.
  destruct (apply_action_spec g i g' r (qs_wf _ K) R) as (W' & _ & N' & X).
  assert (EE : action_guard g i = true).
  { unfold action_guard; cbn. rewrite edge_exists_or, (q_live g x y K Hx Hy Ne). reflexivity. }
  destruct (qs_eget _ K x y Hx Hy Ne) as (e1 & m1 & Z1 & E1). destruct (qs_eget _ K y x Hy Hx (fun h => Ne (eq_sym h))) as (e2 & m2 & Z2 & E2).
  destruct r as [[|]|e].
  - destruct X as (_ & _ & EF & L). unfold action_effect in EF; cbn [i t_act t_u t_v] in EF. destruct EF as ((_ & OC) & F1 & F2).
    rewrite !entry_eget in F1, F2. rewrite E1 in F1. rewrite E2 in F2. cbn [option_map] in F1, F2. unfold new_data in F1, F2. cbn [t_data i] in F1, F2. rewrite set_meta2 in F1, F2.
    assert (OE : forall a b, a <> x \/ b <> y -> a <> y \/ b <> x -> eget g' a b = eget g a b).
    { intros a b A B. rewrite <- !entry_eget. apply OC. cbn. intros [Q|[Q|[]]]; injection Q as -> ->; tauto. }
    split; [reflexivity|]. split; [|split; [|exact OE]].
    + constructor.
      * exact W'.
      * rewrite N'; exact (qs_nodes _ K).
      * intros u v Hu Hv Huv. destruct (eqb_spec (u, v) (x, y)) as [Q|NE1]; [injection Q as -> ->; eauto|].
        destruct (eqb_spec (u, v) (y, x)) as [Q|NE2]; [injection Q as -> ->; eauto|].
        rewrite <- (entry_eget g'), OC, entry_eget; [apply (qs_eget _ K u v Hu Hv Huv)|]. cbn. intros [Q|[Q|[]]]; congruence.
    + unfold qset. rewrite Z1, Z2. split; assumption.
  - destruct X as [_ G]. congruence.
  - exfalso. destruct X as (_ & NR & _). apply NR. cbn. rewrite !entry_eget, E1, E2. split; discriminate.
Qed.
Lemma qact_I i : qQ i -> keeps qstate E (apply_action i) (fun _ _ => True).
Proof. intros (x & y & -> & O) g K. destruct (apply_action _ g) as [g' r] eqn:R. destruct (qact x y g g' r K O R) as (-> & K' & _). cbn; auto. Qed.
Lemma qact_T u v i : ord u v -> qQ i -> keeps (InvT qstate (qset u v)) E (apply_action i) (fun _ _ => True).
Proof.
  intros Ouv (x & y & -> & O) g [K T]. destruct (apply_action _ g) as [g' r] eqn:R. destruct (qact x y g g' r K O R) as (-> & K' & T' & Ot).
  cbn. split; [|exact Logic.I]. split; [exact K'|]. destruct T as [T1 T2].
  destruct (eqb_spec (u, v) (x, y)) as [Q|NE1]; [injection Q as -> ->; exact T'|].
  destruct (eqb_spec (u, v) (y, x)) as [Q|NE2]; [injection Q as -> ->; destruct (o_asym x y O Ouv)|].
  split; [rewrite Ot|rewrite Ot]; try assumption.
  + destruct (string_dec u x) as [->|?]; [right; intros ->; congruence|auto].
  + destruct (string_dec u y) as [->|?]; [right; intros ->; congruence|auto].
  + destruct (string_dec u y) as [->|?]; [left; intros ->; congruence|auto].
  + destruct (string_dec u x) as [->|?]; [left; intros ->; congruence|auto].
Qed.
Definition qwin (u v : id) (i : tresult) : Prop := i = mkT u v UPDATE_EDGE (Some (newmeta u v)).
Lemma qact_W u v i g : qQ i -> qwin u v i -> qstate g -> qset u v (fst (apply_action i g)).
Proof.
  intros (x & y & -> & O) W K. injection W as -> -> _. destruct (apply_action _ g) as [g' r] eqn:R.
  destruct (qact u v g g' r K O R) as (-> & K' & T' & _). exact T'.
Qed.
Lemma q0 : qstate g0.
Proof.
  constructor; [exact WG|reflexivity|]. intros u v Hu Hv Ne. destruct (g0_edge u v Hu Hv Ne) as (e & E0 & _). exists e, (e_meta e). rewrite set_meta_id. auto.
Qed.
Definition qordered (ns : list id) : Prop := exists x y, ns = [x; y] /\ ord x y.
Lemma o_before x y : ord x y -> before (dkeys (nodes g0)) x y.
Proof. exact (ord_before g0 x y). Qed.

Lemma qcall x y us : ord x y -> (exists e, n_pearson N (values_of g0 x) (values_of g0 y) = Err e /\ call (calculate_pearson N) g0 [x; y] us = Err e) \/
  (exists z, n_pearson N (values_of g0 x) (values_of g0 y) = Ok z /\ call (calculate_pearson N) g0 [x; y] us = Ok (Some [mkT x y UPDATE_EDGE (Some (newmeta x y))])).
Proof.
  intros O. destruct (o_ok x y O) as (Hx & Hy & Ne). unfold call. cbn [calculate_pearson s_proc s_unapplied]. unfold pearson_process, node_at. cbn [nth_error].
  assert (Hx' := Hx). assert (Hy' := Hy). unfold SkelFacts.node in Hx', Hy'. rewrite Hx', Hy'. cbn [rbind].
  unfold edge_value. rewrite edge_exists_or, (q_live g0 x y q0 Hx Hy Ne). cbn [orb negb].
  destruct (g0_edge x y Hx Hy Ne) as (e & G & M & _). unfold eget in G. rewrite G. cbn [rbind]. rewrite M. unfold newmeta.
  destruct (n_pearson N _ _) as [z|ex]; cbn; [right; exists z; split; reflexivity|left; exists ex; split; reflexivity].
Qed.

Lemma pearson_any P : tri qstate E (execute_step P no_hooks (calculate_pearson N) false) g0
  (fun _ g => forall x y, ord x y -> qset x y g /\ exists z, n_pearson N (values_of g0 x) (values_of g0 y) = Ok z).
Proof.
  assert (Gen : gen_run (s_gen (calculate_pearson N) g0) g0 = Ok (map Generators.One (all_combinations (mkCS 2 2) g0) ++ [])) by reflexivity.
  assert (GE : Forall (good_em E qordered false) (map Generators.One (all_combinations (mkCS 2 2) g0) ++ [])).
  { rewrite app_nil_r. apply Forall_forall. intros e H. apply in_map_iff in H. destruct H as (ns & <- & H). cbn.
    destruct (pairs_ok g0 g0 WG eq_refl ns H) as (x & y & -> & _). exists x, y. auto. }
  assert (C : good_calls (fun g' => g' = g0) E qQ qordered (calculate_pearson N)).
  { intros g ns us -> (x & y & -> & O) _. destruct (qcall x y us O) as [(e & Ee & ->)|(z & _ & ->)].
    - exists x, y. split; [apply o_before; exact O|exact Ee].
    - constructor; [|constructor]. exists x, y. auto. }
  assert (HI : false = false -> forall i, qQ i -> keeps qstate E (apply_action i) (fun _ _ => True)) by (intros _ i Hi; apply (qact_I i Hi)).
  assert (Pl : plain_step (calculate_pearson N)) by (repeat split).
  assert (ST := collect_tri qstate E qQ false qordered HI (calculate_pearson N) Pl P g0 _ Gen GE C q0).
  assert (SV : forall u v, ord u v -> tri qstate E (execute_step P no_hooks (calculate_pearson N) false) g0
    (fun _ g => qset u v g /\ exists z, n_pearson N (values_of g0 u) (values_of g0 v) = Ok z)).
  { intros u v O. destruct (qcall u v None O) as [(e & Ee & Ce)|(z & Eo & _)].
    - split; [exact (proj1 ST)|]. destruct ST as [_ ST]. destruct (snd (execute_step P no_hooks (calculate_pearson N) false g0)) as [a|e'] eqn:R; [|exact ST]. exfalso.
      rewrite (plain_unfold false (calculate_pearson N) Pl P g0 _ Gen) in R. unfold bind in R.
      destruct (collect (calculate_pearson N) g0 (map Generators.One (all_combinations (mkCS 2 2) g0) ++ []) []) as [rs|e'] eqn:Co; [|discriminate].
      destruct (collect_In _ g0 _ [] rs (Generators.One [u; v]) [u; v] Co) as (us & o & Cu & _); [apply in_app_iff; left; apply in_map; exact O|reflexivity|].
      destruct (qcall u v (Some us) O) as [(e2 & _ & C2)|(z & Eo & _)]; congruence.
    - apply tri_and; [|split; [exact (proj1 ST)|destruct ST as [_ ST]; destruct (snd (execute_step P no_hooks (calculate_pearson N) false g0)); [exists z; exact Eo|exact ST]]].
      eapply tri_weaken; [apply (collect_serve qstate (qset u v) E qQ (qwin u v) false qordered HI (calculate_pearson N) Pl P g0 _ Gen GE C q0
        (fun _ i Hi => qact_T u v i O Hi) (fun _ => qact_W u v) (Generators.One [u; v]) [u; v])|].
      + apply in_app_iff; left. apply in_map; exact O.
      + reflexivity.
      + intros us o Co. destruct (qcall u v us O) as [(e2 & _ & C2)|(z2 & _ & C2)]; [congruence|]. rewrite C2 in Co. injection Co as <-. eexists; split; [left; reflexivity|reflexivity].
      + intros a g _ [[T|(F & _)] _]; [exact T|discriminate]. }
  assert (X := tri_all (K := id * id) qstate E (execute_step P no_hooks (calculate_pearson N) false) g0
    (fun p => ord (fst p) (snd p)) (fun p _ g => qset (fst p) (snd p) g /\ exists z, n_pearson N (values_of g0 (fst p)) (values_of g0 (snd p)) = Ok z)).
  destruct X as [X1 X2]; [eapply tri_weaken; [exact ST|auto]|intros [x y] O; apply SV; exact O|].
  split; [exact X1|]. destruct (snd _); [|exact X2]. intros x y O. exact (X2 (x, y) O).
Qed.
End Gen.

Lemma before_ord g x y : before (dkeys (nodes g)) x y -> ord g x y.
Proof.
  intros (a & b & c & El). apply all_combinations_In. split.
  2: { assert (L : List.length (dkeys (nodes g)) = List.length (nodes g)) by (unfold dkeys; apply map_length). rewrite El, !app_length in L. cbn in L. rewrite app_length in L. cbn in L.
       unfold size_in; cbn. lia. }
  rewrite El. clear El.
  induction a as [|z a IH]; cbn [app]; [|apply sub_drop; exact IH]. constructor.
  induction b as [|z b IH]; cbn [app]; [|apply sub_drop; exact IH]. constructor. induction c as [|w c IH]; [constructor|apply sub_drop; exact IH].
Qed.
Lemma dset_with z m : with_correlation z m (dset m "correlation" (MNum z)).
Proof. split; [apply dget_dset_same|]. intros k Nk. apply dget_dset_other. exact Nk. Qed.
