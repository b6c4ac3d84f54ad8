(* What `causy eject` writes: C114. *)
From Verif Require Import Base PyDict PyDictFacts PyStr Json Variables VariableSpec VariableFacts Config ConfigClasses Eject EjectSpec.
Open Scope string_scope.
Open Scope list_scope.

Section Resolve.
Variable vs : list variable.
Notation D := (resolve_variables vs []).
Lemma value_declared n s : dget D n = Some s -> exists x, declared vs n x /\ s = v_value x.
Proof.
  intros H. destruct (in_dec string_dec n (map v_name vs)) as [I|I].
  - apply declared_In in I. rename I into E.
    destruct E as (x & Dx). exists x. split; [exact Dx|]. rewrite (resolve_declared _ _ _ _ Dx) in H. cbn in H. congruence.
  - rewrite (resolve_undeclared _ _ _ I) in H. discriminate.
Qed.
Lemma named_value n : (exists x, declared vs n x) -> dget D n <> None.
Proof. intros (x & Dx). rewrite (resolve_declared _ _ _ _ Dx). discriminate. Qed.

(* references are replaced by values, or an undeclared one raises *)
Definition done {A} (r : res A) (ins : list string) (outs : A -> list string) : Prop :=
  match r with Ok a => (forall n, In n ins -> exists x, declared vs n x) /\ outs a = [] | Err e => e = ValueError /\ exists n, In n ins /\ ~ exists x, declared vs n x end.
Lemma done_bind {A B} (r : res A) (k : A -> res B) i1 i2 o1 o2 : done r i1 o1 -> (forall a, o1 a = [] -> done (k a) i2 o2) -> done (rbind r k) (i1 ++ i2) o2.
Proof.
  intros H K. destruct r as [a|e]; cbn [rbind].
  - destruct H as [H O]. specialize (K a O). destruct (k a) as [b|e]; cbn in *.
    + destruct K as [K1 K2]. split; [|exact K2]. intros n Hn. apply in_app_or in Hn. destruct Hn; auto.
    + destruct K as (E & n & Hn & Hx). split; [exact E|]. exists n. split; [apply in_or_app; auto|exact Hx].
  - destruct H as (E & n & Hn & Hx). split; [exact E|]. exists n. split; [apply in_or_app; auto|exact Hx].
Qed.
Lemma done_ok {A} (a : A) o : o a = [] -> done (Ok a) [] o.
Proof. intros H. split; [intros n []|exact H]. Qed.
Lemma done_last {A B} (r : res A) (k : A -> B) i o1 o2 : done r i o1 -> (forall a, o1 a = [] -> o2 (k a) = []) -> done (rbind r (fun a => Ok (k a))) i o2.
Proof. intros H K. rewrite <- (app_nil_r i). apply (done_bind r _ i [] o1 o2 H). intros a Ha. apply done_ok. exact (K a Ha). Qed.
Lemma pv_done p : done (resolve_pv D p) (names_in p) names_in.
Proof.
  destruct p; cbn [resolve_pv]; try (apply done_ok; reflexivity). destruct (dget D name) as [s|] eqn:E; cbn [done].
  - destruct (value_declared _ _ E) as (x & Dx & ->). split; [|destruct (v_value x); reflexivity]. intros n [<-|[]]. eauto.
  - split; [reflexivity|]. exists name. split; [left; reflexivity|]. intros H. apply (named_value name H E).
Qed.
Definition opt_names {A} (f : A -> list string) (o : option A) : list string := match o with Some a => f a | None => [] end.
Lemma option_done o : done (resolve_option D o) (opt_names names_in o) (opt_names names_in).
Proof. destruct o as [p|]; cbn [resolve_option opt_names]; [|apply done_ok; reflexivity]. apply (done_last _ Some _ names_in (opt_names names_in) (pv_done p)). auto. Qed.
Definition set_names (c : settings) : list string := names_in (se_min c) ++ names_in (se_max c).
Lemma settings_done o : done (resolve_settings D o) (opt_names set_names o) (opt_names set_names).
Proof.
  destruct o as [c|]; cbn [resolve_settings opt_names]; [|apply done_ok; reflexivity]. unfold set_names at 1. eapply done_bind; [apply pv_done|]. intros a Ha.
  eapply done_last; [apply pv_done|]. intros b Hb. cbn [opt_names]. unfold set_names. cbn [se_min se_max]. rewrite Ha, Hb. reflexivity.
Qed.
Fixpoint gen_done (g : gen) : done (resolve_gen D g) (gen_names g) gen_names.
Proof.
  destruct g as [c cs ch ev sh sz i]. cbn [resolve_gen gen_names]. eapply done_bind; [apply (settings_done cs)|]. intros cs' H1. eapply done_bind; [apply pv_done|]. intros ch' H2.
  eapply done_bind; [apply pv_done|]. intros ev' H3. eapply done_bind; [apply pv_done|]. intros sh' H4. eapply done_bind; [apply (option_done sz)|]. intros sz' H5.
  apply (done_last _ _ _ (fun j => match j with ObjGen h => gen_names h | _ => [] end)).
  - destruct i as [|h|j]; [apply done_ok; reflexivity| |apply done_ok; reflexivity]. apply (done_last _ ObjGen _ gen_names); [apply gen_done|auto].
  - intros j H6. cbn [gen_names]. unfold opt_names, set_names in *. rewrite H1, H2, H3, H4, H5, H6. reflexivity.
Qed.
Lemma all_done {A B} (f : A -> res B) i o l : (forall a, In a l -> done (f a) (i a) o) -> done (all_res f l) (flat_map i l) (flat_map o).
Proof.
  induction l as [|a l IH]; intros H; [apply done_ok; reflexivity|]. cbn [all_res flat_map]. eapply done_bind; [apply H; left; reflexivity|]. intros b Hb. eapply done_last; [apply IH; intros x Hx; apply H; right; exact Hx|].
  intros bs Hbs. cbn [flat_map]. rewrite Hb, Hbs. reflexivity.
Qed.
Lemma step_done s : done (resolve_one D s) (step_names s) step_names.
Proof.
  unfold resolve_one, step_names at 1. eapply (done_bind _ _ _ _ (opt_names gen_names)).
  { destruct (s_gen s) as [g|]; [|apply done_ok; reflexivity]. apply (done_last _ Some _ gen_names); [apply gen_done|auto]. }
  intros g H1. do 6 (eapply done_bind; [apply pv_done|]; intros ? ?).
  eapply done_last; [apply (all_done _ (fun p => names_in (snd p)) (fun p => names_in (snd p)))|].
  - intros p _. unfold resolve_extra. eapply done_last; [apply pv_done|]. auto.
  - intros e H8. unfold step_names. cbn [s_gen s_threshold s_chunk s_parallel s_display s_needs s_sync s_extra]. unfold opt_names in H1. rewrite H1, H8. repeat match goal with H : names_in _ = [] |- _ => rewrite H; clear H end. reflexivity.
Qed.
Fixpoint item_done (i : item) : done (resolve_item D i) (item_names i) item_names.
Proof.
  destruct i as [s|c l e d]; cbn [resolve_item item_names]; [eapply done_last; [apply step_done|auto]|]. eapply done_bind; [apply pv_done|]. intros d' Hd.
  apply (done_last _ (fun l => ILogic c l e d') _ (flat_map item_names)).
  - induction l as [|x l IH]; [apply done_ok; reflexivity|]. cbn [all_res flat_map]. eapply done_bind; [apply item_done|]. intros b Hb. eapply done_last; [exact IH|]. intros bs Hbs. cbn [flat_map]. rewrite Hb, Hbs. reflexivity.
  - intros l' Hl. cbn [item_names]. rewrite Hd, Hl. reflexivity.
Qed.

(* and nothing else changes in what is written *)
Notation rp := (replaced vs).
Lemma pv_rp p q : resolve_pv D p = Ok q -> rp (to_json p) (to_json q).
Proof.
  destruct p; cbn [resolve_pv]; try (intros E; injection E as <-; apply rp_same). destruct (dget D name) as [s|] eqn:E; [|discriminate]. intros H. injection H as <-.
  destruct (value_declared _ _ E) as (x & Dx & ->). replace (to_json (scalar_pv (v_value x))) with (scalar_json (v_value x)) by (destruct (v_value x); reflexivity). apply rp_value. exact Dx.
Qed.
Lemma rbind_ok {A B} (r : res A) (k : A -> res B) b : rbind r k = Ok b -> exists a, r = Ok a /\ k a = Ok b.
Proof. destruct r as [a|]; [eauto|discriminate]. Qed.
Lemma field k (a b : jv) l m : rp a b -> Forall2 (fun p q : string * jv => fst p = fst q /\ rp (snd p) (snd q)) l m -> Forall2 (fun p q : string * jv => fst p = fst q /\ rp (snd p) (snd q)) ((k, a) :: l) ((k, b) :: m).
Proof. intros H F. constructor; [split; [reflexivity|exact H]|exact F]. Qed.
Ltac peel H := apply rbind_ok in H; let a := fresh "a" in let E := fresh "E" in destruct H as (a & E & H).
Fixpoint gen_rp (g : gen) : forall h, resolve_gen D g = Ok h -> rp (dump_gen g) (dump_gen h).
Proof.
  destruct g as [c cs ch ev sh sz i]. intros h H. cbn [resolve_gen] in H. peel H. peel H. peel H. peel H. peel H. peel H. injection H as <-. cbn [dump_gen]. apply rp_dict.
  apply field. { destruct cs as [s|]; cbn [resolve_settings] in E; [|injection E as <-; apply rp_same]. peel E. peel E. injection E as <-. apply rp_dict. repeat (apply field; [first [apply rp_same|apply pv_rp; assumption]|]). constructor. }
  apply field; [apply pv_rp; assumption|]. apply field; [apply pv_rp; assumption|].
  apply field. { destruct i as [|g|j]; [injection E4 as <-; apply rp_same| |injection E4 as <-; apply rp_same]. peel E4. injection E4 as <-. apply gen_rp. assumption. }
  apply field; [apply pv_rp; assumption|]. apply field; [apply rp_same|]. constructor.
Qed.
Lemma step_rp s t : resolve_one D s = Ok t -> rp (dump_step s) (dump_step t).
Proof.
  intros H. unfold resolve_one in H. do 8 peel H. injection H as <-. unfold dump_step. cbn [s_class s_gen s_threshold s_chunk s_parallel s_display s_needs s_sync s_extra]. apply rp_dict. cbn [app].
  apply field. { destruct (s_gen s) as [g|]; [|injection E as <-; apply rp_same]. peel E. injection E as <-. apply gen_rp. assumption. }
  do 6 (apply field; [apply pv_rp; assumption|]). revert E6. generalize a6. induction (s_extra s) as [|p l IH]; intros m H; cbn [all_res] in H.
  - injection H as <-. cbn. apply field; [apply rp_same|constructor].
  - peel H. peel H. injection H as <-. unfold resolve_extra in E6. peel E6. injection E6 as <-. cbn [map app fst snd]. apply field; [apply pv_rp; assumption|]. apply IH. assumption.
Qed.
Fixpoint item_rp (i : item) : forall j, resolve_item D i = Ok j -> rp (dump_item i) (dump_item j).
Proof.
  destruct i as [s|c l e d]; intros j H; cbn [resolve_item] in H.
  - peel H. injection H as <-. apply step_rp. exact E.
  - peel H. peel H. injection H as <-. cbn [dump_item]. apply rp_dict. apply field; [|apply field; [apply rp_same|apply field; [apply pv_rp; assumption|apply field; [apply rp_same|constructor]]]].
    apply rp_list. revert a0 E0. induction l as [|x l IH]; intros m H; cbn [all_res] in H; [injection H as <-; constructor|]. peel H. peel H. injection H as <-. cbn [map]. constructor; [apply item_rp; assumption|apply IH; assumption].
Qed.
End Resolve.
Lemma some_variable vs : vs <> [] -> resolve_variables vs [] <> [].
Proof.
  intros Ne E. destruct vs as [|x l]; [congruence|]. assert (Dx : exists y, declared (x :: l) (v_name x) y).
  { apply declared_In. left; reflexivity. }
  destruct Dx as (y & Dy). assert (R := resolve_declared _ [] _ _ Dy). rewrite E in R. discriminate.
Qed.

(* an algorithm with variables is instantiated if every reference names one of them; then no reference is left, and what is
   written of it differs in the values of the references only.  Otherwise a ValueError is raised. *)
Theorem C114_resolved : forall a, sp_vars a <> [] ->
  match factory_steps a with
  | Ok b => (forall n, In n (references a) -> exists x, declared (sp_vars a) n x) /\ references b = [] /\ replaced (sp_vars a) (dump_spec a) (dump_spec b)
  | Err e => e = ValueError /\ exists n, In n (references a) /\ ~ exists x, declared (sp_vars a) n x
  end.
Proof.
  intros a Ne. unfold factory_steps. assert (Nv := some_variable _ Ne). destruct (resolve_variables (sp_vars a) []) as [|v0 vl] eqn:Ev; [contradiction|]. rewrite <- Ev.
  assert (H := all_done (sp_vars a) (resolve_item (resolve_variables (sp_vars a) [])) item_names item_names (sp_steps a) (fun i _ => item_done (sp_vars a) i)).
  destruct (all_res (resolve_item (resolve_variables (sp_vars a) [])) (sp_steps a)) as [l|e] eqn:R; [|exact H]. cbn [rbind]. destruct H as [H1 H2]. split; [exact H1|]. split; [exact H2|].
  unfold dump_spec. cbn [sp_name sp_steps sp_types sp_vars]. apply rp_dict. apply field; [apply rp_same|]. apply field.
  - apply rp_list. clear H1 H2. revert l R. induction (sp_steps a) as [|i m IH]; intros l R; cbn [all_res] in R; [injection R as <-; constructor|].
    apply rbind_ok in R. destruct R as (j & E1 & R). apply rbind_ok in R. destruct R as (k & E2 & R). injection R as <-. constructor; [apply item_rp; exact E1|apply IH; exact E2].
  - repeat (apply field; [apply rp_same|]). constructor.
Qed.
Print Assumptions C114_resolved.
(* what is ejected is the named algorithm with the values of its variables, under its name and with its edge types *)
Theorem C114_ejected : forall name v, eject name = Ok v ->
  exists a b, available name = Ok a /\ sp_name a = name /\ references a <> [] /\ v = dump_spec b /\ references b = [] /\ replaced (sp_vars a) (dump_spec a) v /\
    In (EObj "DIRECTED" true "-->") (sp_types b) /\ In (EObj "UNDIRECTED" false "---") (sp_types b).
Proof.
  intros name v H. unfold eject in H. destruct (available name) as [a|] eqn:A; [|discriminate]. cbn [rbind] in H. destruct (factory_steps a) as [b|] eqn:B; [|discriminate]. cbn [rbind] in H. injection H as <-.
  assert (Q : sp_name a = name /\ references a <> [] /\ sp_vars a <> [] /\ In (EObj "DIRECTED" true "-->") (sp_types a) /\ In (EObj "UNDIRECTED" false "---") (sp_types a)).
  { unfold available in A. destruct (eqb_spec name "PC") as [->|]; [vm_compute in A; injection A as <-; vm_compute; repeat split; try discriminate; auto|].
    destruct (eqb_spec name "ParallelPC") as [->|]; [vm_compute in A; injection A as <-; vm_compute; repeat split; try discriminate; auto|discriminate A]. }
  destruct Q as (Q1 & Q2 & Q3 & Q4 & Q5). assert (T := C114_resolved a Q3). rewrite B in T. destruct T as (T1 & T2 & T3).
  assert (Bn : sp_name b = name /\ sp_types b = sp_types a).
  { unfold factory_steps in B. destruct (resolve_variables (sp_vars a) []); [injection B as <-; auto|]. destruct (all_res _ _) in B; [|discriminate B]. injection B as <-. auto. }
  destruct Bn as [B1 B2]. exists a, b. split; [reflexivity|]. split; [exact Q1|]. split; [exact Q2|]. assert (Db : dump_spec (mkSpec name (sp_steps b) (sp_types b) (sp_vars b)) = dump_spec b) by (rewrite <- B1; destruct b; reflexivity).
  rewrite Db, B2. auto 10.
Qed.
Print Assumptions C114_ejected.
Example C114_ejected_nonvacuous : (exists v, eject "ParallelPC" = Ok v) /\ exists a, parallel_spec = Ok a /\ In "every_nth_sample" (references a) /\ sp_vars a <> [] /\
  factory_steps (mkSpec "ParallelPC" (sp_steps a) (sp_types a) (firstn 1 (sp_vars a))) = Err ValueError.
Proof. split; [eexists; vm_compute; reflexivity|]. eexists. split; [vm_compute; reflexivity|]. split; [vm_compute; tauto|]. split; [discriminate|]. vm_compute. reflexivity. Qed.
