(* Proofs about variables and references. *)
From Coq Require Import QArith.
From Verif Require Import Base PyDict PyDictFacts Variables VariableSpec.
Close Scope Q_scope.
Open Scope string_scope.
Open Scope list_scope.

Lemma py_eq_iff a b : py_eq a b = true <-> same_value a b.
Proof.
  split.
  - destruct a as [s|z|f|x], b as [s'|z'|f'|x']; cbn; intros H; try discriminate.
    + apply eqb_true in H. subst. constructor.
    + apply Qeq_bool_iff in H. eapply sv_num; [constructor|constructor|exact H].
    + destruct f'; cbn in H; try discriminate. apply Qeq_bool_iff in H. eapply sv_num; [constructor|constructor|exact H].
    + apply Qeq_bool_iff in H. destruct x'; eapply sv_num; try constructor; exact H.
    + destruct f; cbn in H; try discriminate. apply Qeq_bool_iff in H. eapply sv_num; [constructor|constructor|exact H].
    + destruct f, f'; cbn in H; try discriminate; [apply Qeq_bool_iff in H; eapply sv_num; [constructor|constructor|exact H]|].
      apply eqb_prop in H. subst. constructor.
    + destruct f; cbn in H; try discriminate. apply Qeq_bool_iff in H. destruct x'; eapply sv_num; try constructor; exact H.
    + apply Qeq_bool_iff in H. destruct x; eapply sv_num; try constructor; exact H.
    + destruct f'; cbn in H; try discriminate. apply Qeq_bool_iff in H. destruct x; eapply sv_num; try constructor; exact H.
    + apply Qeq_bool_iff in H. destruct x, x'; eapply sv_num; try constructor; exact H.
  - intros [s|a' b' p q Na Nb E|s]; cbn; [apply eqb_refl| |destruct s; reflexivity].
    apply Qeq_bool_iff in E. inversion Na; subst; inversion Nb; subst; cbn; exact E.
Qed.
Lemma isinstance_of t v : isinstance t v = true <-> of_type t v \/ (t = TyInteger /\ exists b, v = SBool b).
Proof.
  split.
  - destruct t, v; cbn; intros H; try discriminate; try (left; constructor). right. split; [reflexivity|eauto].
  - intros [H|[-> [b ->]]]; [destruct H; reflexivity|reflexivity].
Qed.
Lemma base_validate_ok x v : base_validate x v = Ok tt <-> isinstance (v_type x) v = true /\ allowed (v_choices x) v.
Proof.
  unfold base_validate. destruct (isinstance (v_type x) v); cbn [negb]; [|split; [discriminate|intros [? _]; discriminate]].
  destruct (v_choices x) as [[|c cs]|]; cbn [allowed].
  - split; [intros _; split; [reflexivity|left; reflexivity]|reflexivity].
  - destruct (existsb (py_eq v) (c :: cs)) eqn:E.
    + split; [intros _; split; [reflexivity|right]|reflexivity]. apply existsb_exists in E. destruct E as (d & Hd & E). exists d. split; [exact Hd|apply py_eq_iff; exact E].
    + split; [discriminate|]. intros [_ [H|(d & Hd & E')]]; [discriminate|]. apply py_eq_iff in E'. assert (existsb (py_eq v) (c :: cs) = true) by (apply existsb_exists; eauto). congruence.
  - split; [intros _; split; [reflexivity|exact I]|reflexivity].
Qed.
Lemma base_validate_res x v : base_validate x v = Ok tt \/ base_validate x v = Err ValueError.
Proof. unfold base_validate. destruct (negb _); [auto|]. destruct (v_choices x) as [[|c cs]|]; auto. destruct (existsb _ _); auto. Qed.
Lemma validate_ok x v : validate_value x v = Ok tt <-> accepts x v.
Proof.
  assert (G : ~ (v_type x = TyInteger /\ exists b, v = SBool b) -> (base_validate x v = Ok tt <-> accepts x v)).
  { intros N. unfold accepts. rewrite base_validate_ok, isinstance_of. tauto. }
  unfold validate_value. destruct (v_type x) eqn:T; destruct v as [s|z|f|b]; try (apply G; intros [E [b0 E']]; discriminate).
  split; [discriminate|]. unfold accepts. rewrite T. intros [H _]. inversion H.
Qed.
Lemma validate_res x v : validate_value x v = Ok tt \/ validate_value x v = Err ValueError.
Proof. unfold validate_value. destruct (v_type x), v; try apply base_validate_res. auto. Qed.

(* the dictionary of variables *)
Lemma by_name_gen : forall vars d n, dget (fold_left (fun d x => dset d (v_name x) x) vars d) n =
  match find (fun x => eqb (v_name x) n) (rev vars) with Some x => Some x | None => dget d n end.
Proof.
  induction vars as [|x vars IH]; intros d n; cbn [fold_left]; [reflexivity|]. rewrite IH. cbn [rev].
  assert (FA : forall l (m : list variable), find (fun x => eqb (v_name x) n) (l ++ m) = match find (fun x => eqb (v_name x) n) l with Some y => Some y | None => find (fun x => eqb (v_name x) n) m end).
  { induction l as [|a l IHl]; intros m; cbn; [reflexivity|]. destruct (eqb (v_name a) n); [reflexivity|apply IHl]. }
  rewrite FA. destruct (find _ (rev vars)); [reflexivity|]. cbn [find]. rewrite dget_dset. rewrite eqb_sym. destruct (eqb (v_name x) n); reflexivity.
Qed.
Lemma find_rev_declared vars n x : find (fun x => eqb (v_name x) n) (rev vars) = Some x <-> declared vars n x.
Proof.
  split.
  - intros H.
    assert (G : forall l, find (fun x => eqb (v_name x) n) l = Some x -> exists p q, l = p ++ x :: q /\ v_name x = n /\ forall y, In y p -> v_name y <> n).
    { induction l as [|a l IH]; cbn; intros E; [discriminate|]. destruct (eqb_spec (v_name a) n) as [Ea|Na].
      - injection E as ->. exists [], l. split; [reflexivity|]. split; [exact Ea|intros y []].
      - destruct (IH E) as (p & q & -> & Ex & Hp). exists (a :: p), q. split; [reflexivity|]. split; [exact Ex|]. intros y [<-|Hy]; [exact Na|apply Hp; exact Hy]. }
    destruct (G _ H) as (p & q & E & Ex & Hp). exists (rev q), (rev p). split; [|split; [exact Ex|intros y Hy; apply Hp; apply in_rev; exact Hy]].
    rewrite <- (rev_involutive vars), E, rev_app_distr. cbn. rewrite <- app_assoc. reflexivity.
  - intros (p & q & -> & Ex & Hq). rewrite rev_app_distr. cbn. rewrite <- app_assoc. cbn.
    assert (G : forall l m, (forall y, In y l -> v_name y <> n) -> find (fun x => eqb (v_name x) n) (l ++ m) = find (fun x => eqb (v_name x) n) m).
    { induction l as [|a l IH]; intros m H; cbn; [reflexivity|]. rewrite eqb_neq by (apply H; left; reflexivity). apply IH. intros y Hy; apply H; right; exact Hy. }
    rewrite G; [|intros y Hy; apply Hq; apply in_rev in Hy; exact Hy]. cbn. rewrite Ex, eqb_refl. reflexivity.
Qed.
Lemma by_name_iff vars n x : dget (by_name vars) n = Some x <-> declared vars n x.
Proof. unfold by_name. rewrite by_name_gen. rewrite <- find_rev_declared. destruct (find _ _); cbn; [reflexivity|]. split; discriminate. Qed.
Lemma by_name_none vars n : dget (by_name vars) n = None <-> ~ In n (map v_name vars).
Proof.
  unfold by_name. rewrite by_name_gen. destruct (find _ _) as [x|] eqn:F.
  - split; [discriminate|]. intros H. exfalso. apply H. apply find_some in F. destruct F as [I E]. apply eqb_true in E. apply in_map_iff. exists x. split; [exact E|apply in_rev; exact I].
  - cbn. split; [intros _ H|reflexivity]. apply in_map_iff in H. destruct H as (x & E & I). apply in_rev in I. assert (N := find_none _ _ F x I). cbn in N. rewrite E, eqb_refl in N. discriminate.
Qed.
Lemma validate_items_ok d l : validate_items d l = Ok tt <-> forall n v, In (n, v) l -> exists x, dget d n = Some x /\ accepts x v.
Proof.
  induction l as [|[n v] l IH]; cbn [validate_items]; [split; [intros _ n v []|reflexivity]|].
  destruct (dget d n) as [x|] eqn:E.
  - destruct (validate_res x v) as [V|V]; rewrite V; cbn [rbind].
    + rewrite IH. apply validate_ok in V. split.
      * intros H m w [Q|Q]; [injection Q as <- <-; eauto|apply H; exact Q].
      * intros H m w Hm. apply H. right; exact Hm.
    + split; [discriminate|]. intros H. destruct (H n v (or_introl eq_refl)) as (y & E' & A). rewrite E in E'. injection E' as <-. apply validate_ok in A. congruence.
  - split; [discriminate|]. intros H. destruct (H n v (or_introl eq_refl)) as (y & E' & A). congruence.
Qed.
Lemma validate_items_res d l : validate_items d l = Ok tt \/ validate_items d l = Err ValueError.
Proof.
  induction l as [|[n v] l IH]; cbn [validate_items]; [auto|]. destruct (dget d n) as [x|]; [|auto]. destruct (validate_res x v) as [V|V]; rewrite V; cbn [rbind]; auto.
Qed.
Lemma resolve_gen values : forall vars d n, dget (fold_left (fun d x => dset d (v_name x) (match dget values (v_name x) with Some v => v | None => v_value x end)) vars d) n =
  match find (fun x => eqb (v_name x) n) (rev vars) with Some x => Some (match dget values n with Some v => v | None => v_value x end) | None => dget d n end.
Proof.
  induction vars as [|x vars IH]; intros d n; cbn [fold_left]; [reflexivity|]. rewrite IH. cbn [rev].
  assert (FA : forall l (m : list variable), find (fun x => eqb (v_name x) n) (l ++ m) = match find (fun x => eqb (v_name x) n) l with Some y => Some y | None => find (fun x => eqb (v_name x) n) m end).
  { induction l as [|a l IHl]; intros m; cbn; [reflexivity|]. destruct (eqb (v_name a) n); [reflexivity|apply IHl]. }
  rewrite FA. destruct (find _ (rev vars)); [reflexivity|]. cbn [find]. rewrite dget_dset. rewrite eqb_sym. destruct (eqb_spec (v_name x) n) as [<-|N]; reflexivity.
Qed.
Lemma resolve_declared vars values n x : declared vars n x -> dget (resolve_variables vars values) n = Some (match dget values n with Some v => v | None => v_value x end).
Proof. intros H. unfold resolve_variables. rewrite resolve_gen. apply find_rev_declared in H. rewrite H. reflexivity. Qed.
Lemma resolve_undeclared vars values n : ~ In n (map v_name vars) -> dget (resolve_variables vars values) n = None.
Proof.
  intros H. unfold resolve_variables. rewrite resolve_gen. apply by_name_none in H. unfold by_name in H. rewrite by_name_gen in H. destruct (find _ _); [discriminate|reflexivity].
Qed.
Lemma declared_In vars n : In n (map v_name vars) <-> exists x, declared vars n x.
Proof.
  split.
  - intros H. destruct (dget (by_name vars) n) as [x|] eqn:E; [exists x; apply by_name_iff; exact E|]. apply by_name_none in E. contradiction.
  - intros (x & p & q & -> & <- & _). apply in_map, in_or_app. right; left; reflexivity.
Qed.

(* induction over values with nested lists *)
Section ValInd.
Variable P : val -> Prop.
Hypothesis HN : P VNone.
Hypothesis HS : forall s, P (VScal s).
Hypothesis HR : forall n, P (VRef n).
Hypothesis HL : forall l, (forall x, In x l -> P x) -> P (VList l).
Hypothesis HD : forall l, (forall k x, In (k, x) l -> P x) -> P (VDict l).
Hypothesis HO : forall hv l, (forall k x, In (k, x) l -> P x) -> P (VObj hv l).
Fixpoint val_rect' (v : val) : P v :=
  match v with
  | VNone => HN | VScal s => HS s | VRef n => HR n
  | VList l => HL l ((fix go (l : list val) : forall x, In x l -> P x :=
      match l with [] => fun x H => match H with end | a :: r => fun x H => match H with or_introl E => eq_ind a P (val_rect' a) x E | or_intror H' => go r x H' end end) l)
  | VDict l => HD l ((fix go (l : list (string * val)) : forall k x, In (k, x) l -> P x :=
      match l with [] => fun k x H => match H with end
      | a :: r => fun k x H => match H with or_introl E => eq_ind (snd a) P (val_rect' (snd a)) x (f_equal snd E) | or_intror H' => go r k x H' end end) l)
  | VObj hv l => HO hv l ((fix go (l : list (string * val)) : forall k x, In (k, x) l -> P x :=
      match l with [] => fun k x H => match H with end
      | a :: r => fun k x H => match H with or_introl E => eq_ind (snd a) P (val_rect' (snd a)) x (f_equal snd E) | or_intror H' => go r k x H' end end) l)
  end.
End ValInd.

(* the loops as separate functions *)
Definition resolve_attr (vars : dict string scalar) (x : val) : res val :=
  match x with
  | VRef n => match dget vars n with Some s => Ok (VScal s) | None => Err ValueError end
  | VObj h a => if has_value h a then Ok x else resolve_object vars x
  | _ => Ok x
  end.
Fixpoint resolve_attrs (vars : dict string scalar) (l : list (string * val)) : res (list (string * val)) :=
  match l with [] => Ok [] | (k, x) :: r => rbind (resolve_attr vars x) (fun y => rbind (resolve_attrs vars r) (fun t => Ok ((k, y) :: t))) end.
Lemma resolve_object_obj vars hv attrs : resolve_object vars (VObj hv attrs) = rbind (resolve_attrs vars attrs) (fun a => Ok (VObj hv a)).
Proof.
  cbn [resolve_object]. f_equal. induction attrs as [|[k x] r IH]; [reflexivity|]. cbn [resolve_attrs]. rewrite IH. destruct x; reflexivity.
Qed.
Lemma resolve_step_obj vars hv attrs : resolve_step vars (VObj hv attrs) = rbind (resolve_attrs vars attrs) (fun a =>
  match dget attrs "pipeline_steps" with
  | None => Ok (VObj hv a)
  | Some (VList ss) => rbind (resolve_steps vars ss) (fun l => Ok (VObj hv (dset a "pipeline_steps" (VList l))))
  | Some _ => Err TypeError
  end).
Proof.
  transitivity (rbind (resolve_object vars (VObj hv attrs)) (fun o1 => match o1 with VObj h a =>
     match dget attrs "pipeline_steps" with
     | None => Ok (VObj h a)
     | Some (VList ss) => rbind (resolve_steps vars ss) (fun l => Ok (VObj h (dset a "pipeline_steps" (VList l))))
     | Some _ => Err TypeError
     end | _ => Ok o1 end)).
  2:{ rewrite resolve_object_obj. destruct (resolve_attrs vars attrs); reflexivity. }
  cbn [resolve_step]. fold resolve_step. destruct (resolve_object vars (VObj hv attrs)) as [o1|e]; [|reflexivity]. cbn [rbind].
  destruct o1 as [| | | | |h a]; try reflexivity.
  induction attrs as [|[k x] r IH]; [reflexivity|]. cbn [dget]. rewrite (eqb_sym "pipeline_steps" k). destruct (eqb k "pipeline_steps"); [|exact IH].
  destruct x; try reflexivity. f_equal. induction l as [|s t IHl]; [reflexivity|]. cbn [resolve_steps]. rewrite IHl. reflexivity.
Qed.

Lemma resolve_attrs_keys vars : forall l l', resolve_attrs vars l = Ok l' -> dkeys l' = dkeys l.
Proof.
  induction l as [|[k x] l IH]; intros l' H; cbn [resolve_attrs] in H; [injection H as <-; reflexivity|].
  destruct (resolve_attr vars x); [|discriminate]. cbn [rbind] in H. destruct (resolve_attrs vars l) as [t|]; [|discriminate]. injection H as <-. cbn. f_equal. apply IH; reflexivity.
Qed.
Lemma resolve_attrs_In vars : forall l l' k x', resolve_attrs vars l = Ok l' -> In (k, x') l' -> exists x, In (k, x) l /\ resolve_attr vars x = Ok x'.
Proof.
  induction l as [|[k0 x0] l IH]; intros l' k x' H I; cbn [resolve_attrs] in H; [injection H as <-; destruct I|].
  destruct (resolve_attr vars x0) as [y|] eqn:E; [|discriminate]. cbn [rbind] in H. destruct (resolve_attrs vars l) as [t|]; [|discriminate]. injection H as <-.
  destruct I as [I|I]; [injection I as <- <-; exists x0; split; [left; reflexivity|exact E]|]. destruct (IH t k x' eq_refl I) as (x & Hx & Ex). exists x. split; [right; exact Hx|exact Ex].
Qed.
Lemma resolve_attrs_get vars : forall l l' k, resolve_attrs vars l = Ok l' ->
  match dget l k with None => dget l' k = None | Some x => exists x', dget l' k = Some x' /\ resolve_attr vars x = Ok x' end.
Proof.
  induction l as [|[k0 x0] l IH]; intros l' k H; cbn [resolve_attrs] in H; [injection H as <-; reflexivity|].
  destruct (resolve_attr vars x0) as [y|] eqn:E; [|discriminate]. cbn [rbind] in H. destruct (resolve_attrs vars l) as [t|]; [|discriminate]. injection H as <-.
  cbn [dget]. destruct (eqb k k0); [eauto|]. apply IH; reflexivity.
Qed.
Lemma has_value_keys h a a' : dkeys a' = dkeys a -> has_value h a' = has_value h a.
Proof.
  intros K. unfold has_value. f_equal. apply eq_true_iff_eq. rewrite !dmem_In, K. reflexivity.
Qed.
Lemma resolve_object_shape vars h a o' : resolve_object vars (VObj h a) = Ok o' -> exists a', o' = VObj h a' /\ resolve_attrs vars a = Ok a' /\ dkeys a' = dkeys a.
Proof.
  rewrite resolve_object_obj. destruct (resolve_attrs vars a) as [a'|] eqn:E; [|discriminate]. cbn [rbind]. intros H. injection H as <-. exists a'. split; [reflexivity|]. split; [reflexivity|].
  eapply resolve_attrs_keys; exact E.
Qed.
Lemma refers_inv hv attrs n : refers (VObj hv attrs) n ->
  (exists k, In (k, VRef n) attrs) \/ (exists k h a, In (k, VObj h a) attrs /\ has_value h a = false /\ refers (VObj h a) n).
Proof. intros R. inversion R; subst; [left|right]; eauto 6. Qed.
Lemma resolve_object_clean vars : forall o o' n, resolve_object vars o = Ok o' -> ~ refers o' n.
Proof.
  apply (val_rect' (fun o => forall o' n, resolve_object vars o = Ok o' -> ~ refers o' n)); try (intros; cbn in *; discriminate).
  - intros m o' n H R. cbn in H. injection H as <-. inversion R.
  - intros hv l IH o' n H R. apply resolve_object_shape in H. destruct H as (a' & -> & E & K). apply refers_inv in R. destruct R as [[k H0]|(k & h & a & H0 & H1 & H2)].
    + destruct (resolve_attrs_In _ _ _ _ _ E H0) as (x & Hx & Ex). destruct x as [|s|m|ss|d|h a]; cbn [resolve_attr] in Ex; try discriminate.
      * destruct (dget vars m); discriminate.
      * destruct (has_value h a); [discriminate|]. apply resolve_object_shape in Ex. destruct Ex as (? & Q & _). discriminate.
    + destruct (resolve_attrs_In _ _ _ _ _ E H0) as (x & Hx & Ex). destruct x as [|s|m|ss|d|h' b]; cbn [resolve_attr] in Ex; try discriminate.
      * destruct (dget vars m); discriminate.
      * destruct (has_value h' b) eqn:HV; [injection Ex as <- <-; congruence|]. exact (IH k _ Hx _ n Ex H2).
Qed.
Lemma dset_In_list (a : list (string * val)) k y k' x : In (k', x) (dset a k y) -> In (k', x) a \/ x = y.
Proof.
  induction a as [|[k0 x0] a IH]; cbn [dset]; [intros [H|[]]; injection H; auto|]. destruct (eqb k k0).
  - intros [H|H]; [injection H; auto|left; right; exact H].
  - intros [H|H]; [left; left; exact H|]. destruct (IH H); [left; right; assumption|auto].
Qed.
Lemma refers_dset hv a l n : refers (VObj hv (dset a "pipeline_steps" (VList l))) n -> refers (VObj hv a) n.
Proof.
  intros R. apply refers_inv in R. destruct R as [[k H]|(k & h & b & H & H1 & H2)].
  - destruct (dset_In_list _ _ _ _ _ H) as [H'|H']; [econstructor; exact H'|discriminate].
  - destruct (dset_In_list _ _ _ _ _ H) as [H'|H']; [eapply rf_deep; eassumption|discriminate].
Qed.
Lemma resolve_steps_In vars : forall l l' s', resolve_steps vars l = Ok l' -> In s' l' -> exists s, In s l /\ resolve_step vars s = Ok s'.
Proof.
  induction l as [|s l IH]; intros l' s' H I; cbn [resolve_steps] in H; [injection H as <-; destruct I|].
  destruct (resolve_step vars s) as [y|] eqn:E; [|discriminate]. cbn [rbind] in H. destruct (resolve_steps vars l) as [t|]; [|discriminate]. injection H as <-.
  destruct I as [<-|I]; [exists s; split; [left; reflexivity|exact E]|]. destruct (IH t s' eq_refl I) as (x & Hx & Ex). exists x. split; [right; exact Hx|exact Ex].
Qed.
(* induction over steps: the sub-steps of an object *)
Lemma step_ind (P : val -> Prop) : (forall o, (forall hv a, o <> VObj hv a) -> P o) ->
  (forall hv a, (forall ss s, dget a "pipeline_steps" = Some (VList ss) -> In s ss -> P s) -> P (VObj hv a)) -> forall o, P o.
Proof.
  intros HA HB. assert (G : forall o, P o /\ forall ss, o = VList ss -> forall s, In s ss -> P s).
  { apply (val_rect' (fun o => P o /\ forall ss, o = VList ss -> forall s, In s ss -> P s)); try (intros; split; [apply HA; discriminate|discriminate]).
    - intros l IH. split; [apply HA; discriminate|]. intros ss E s Hs. injection E as ->. apply (IH s Hs).
    - intros hv l IH. split; [|discriminate]. apply HB. intros ss s E Hs. apply dget_In in E. destruct (IH _ _ E) as [_ H]. exact (H ss eq_refl s Hs). }
  intros o. apply G.
Qed.
Lemma resolve_step_other vars o : (forall hv a, o <> VObj hv a) -> resolve_step vars o = match o with VRef _ => Ok o | _ => Err AttributeError end.
Proof. intros H. destruct o; try reflexivity. exfalso. eapply H; reflexivity. Qed.
Lemma step_refers_inv hv a n : step_refers (VObj hv a) n -> refers (VObj hv a) n \/ exists ss s, dget a "pipeline_steps" = Some (VList ss) /\ In s ss /\ step_refers s n.
Proof. intros H. inversion H; subst; [left; assumption|right; eauto]. Qed.
Lemma resolve_step_shape vars hv a o' : resolve_step vars (VObj hv a) = Ok o' -> exists a1 a2, resolve_attrs vars a = Ok a1 /\ o' = VObj hv a2 /\
  ((dget a "pipeline_steps" = None /\ a2 = a1) \/ exists ss ss', dget a "pipeline_steps" = Some (VList ss) /\ resolve_steps vars ss = Ok ss' /\ a2 = dset a1 "pipeline_steps" (VList ss')).
Proof.
  rewrite resolve_step_obj. destruct (resolve_attrs vars a) as [a1|]; [|discriminate]. cbn [rbind]. destruct (dget a "pipeline_steps") as [x|]; [destruct x as [|s|m|ss|d|h b]; try discriminate|].
  - destruct (resolve_steps vars ss) as [ss'|] eqn:E; [|discriminate]. cbn [rbind]. intros H. injection H as <-. exists a1, (dset a1 "pipeline_steps" (VList ss')). split; [reflexivity|]. split; [reflexivity|right]. eauto.
  - intros H. injection H as <-. exists a1, a1. auto.
Qed.
Lemma resolve_step_clean vars : forall o o' n, resolve_step vars o = Ok o' -> ~ step_refers o' n.
Proof.
  apply (step_ind (fun o => forall o' n, resolve_step vars o = Ok o' -> ~ step_refers o' n)).
  - intros o H o' n E R. rewrite resolve_step_other in E by exact H. destruct o; try discriminate. injection E as <-. inversion R; subst. inversion H0.
  - intros hv a IH o' n E R. apply resolve_step_shape in E. destruct E as (a1 & a2 & E1 & -> & D).
    assert (C : ~ refers (VObj hv a1) n). { apply (resolve_object_clean vars (VObj hv a)). rewrite resolve_object_obj, E1. reflexivity. }
    apply step_refers_inv in R. destruct D as [[D ->]|(ss & ss' & D & E2 & ->)].
    + destruct R as [R|(ss & s & R & _)]; [contradiction|]. assert (G := resolve_attrs_get _ _ _ "pipeline_steps" E1). rewrite D in G. congruence.
    + destruct R as [R|(ss2 & s & R & Hs & Rs)]; [apply C; eapply refers_dset; exact R|]. rewrite dget_dset, eqb_refl in R. injection R as <-.
      destruct (resolve_steps_In _ _ _ _ E2 Hs) as (s0 & Hs0 & Es). exact (IH ss s0 D Hs0 s n Es Rs).
Qed.

(* when it succeeds *)
Lemma resolve_object_ok vars : forall o hv a, o = VObj hv a ->
  (resolve_object vars o = Err ValueError /\ exists n, refers o n /\ dmem vars n = false) \/ (exists o', resolve_object vars o = Ok o').
Proof.
  apply (val_rect' (fun o => forall hv a, o = VObj hv a -> (resolve_object vars o = Err ValueError /\ exists n, refers o n /\ dmem vars n = false) \/ (exists o', resolve_object vars o = Ok o'))); try (intros; discriminate).
  intros hv l IH hv' a' E. injection E as <- <-. rewrite resolve_object_obj.
  assert (G : (resolve_attrs vars l = Err ValueError /\ exists n, refers (VObj hv l) n /\ dmem vars n = false) \/ exists l', resolve_attrs vars l = Ok l').
  { induction l as [|[k x] r IHl]; [right; exists []; reflexivity|]. cbn [resolve_attrs].
    assert (GX : (resolve_attr vars x = Err ValueError /\ exists n, refers (VObj hv ((k, x) :: r)) n /\ dmem vars n = false) \/ exists y, resolve_attr vars x = Ok y).
    { destruct x as [|s|m|ss|d|h b]; cbn [resolve_attr]; try (right; eexists; reflexivity).
      - destruct (dget vars m) as [s|] eqn:M; [right; eauto|left]. split; [reflexivity|]. exists m. split; [econstructor; left; reflexivity|]. unfold dmem. rewrite M. reflexivity.
      - destruct (has_value h b) eqn:HV; [right; eauto|]. destruct (IH k _ (or_introl eq_refl) h b eq_refl) as [[E (n & R & M)]|[o' E]].
        + left. split; [exact E|]. exists n. split; [eapply rf_deep; [left; reflexivity|exact HV|exact R]|exact M].
        + right; eauto. }
    destruct GX as [[E (n & R & M)]|[y E]]; rewrite E; cbn [rbind]; [left; split; [reflexivity|eauto]|].
    destruct IHl as [[E2 (n & R & M)]|[l' E2]].
    - intros k0 x0 H0. apply (IH k0). right; exact H0.
    - left. rewrite E2. cbn [rbind]. split; [reflexivity|]. exists n. split; [|exact M]. apply refers_inv in R. destruct R as [[k0 R]|(k0 & h & b & R & R1 & R2)]; [econstructor; right; exact R|eapply rf_deep; [right; exact R|exact R1|exact R2]].
    - right. rewrite E2. cbn [rbind]. eauto. }
  destruct G as [[G R]|[l' G]]; rewrite G; cbn [rbind]; [left; split; [reflexivity|exact R]|right; eauto].
Qed.
Lemma resolve_attrs_total vars l : forall l', resolve_attrs vars l = Ok l' -> forall hv n, refers (VObj hv l) n -> dmem vars n = true.
Proof.
  intros l' E hv n R. remember (VObj hv l) as o eqn:Eo. revert hv l l' E Eo. induction R as [h attrs k n I|h attrs k h1 a1 n I HV R IH]; intros hv l l' E Eo; injection Eo as -> ->.
  - assert (G : forall l l', resolve_attrs vars l = Ok l' -> forall k x, In (k, x) l -> exists y, resolve_attr vars x = Ok y).
    { clear. induction l as [|[k0 x0] l IH]; intros l' E k x I; [destruct I|]. cbn [resolve_attrs] in E. destruct (resolve_attr vars x0) as [y|] eqn:Ex; [|discriminate]. cbn [rbind] in E.
      destruct (resolve_attrs vars l) as [t|] eqn:Et; [|discriminate]. destruct I as [I|I]; [injection I as <- <-; eauto|eapply IH; [reflexivity|exact I]]. }
    destruct (G _ _ E _ _ I) as [y Ey]. cbn in Ey. unfold dmem. destruct (dget vars n); [reflexivity|discriminate].
  - assert (G : forall l l', resolve_attrs vars l = Ok l' -> forall k x, In (k, x) l -> exists y, resolve_attr vars x = Ok y).
    { clear. induction l as [|[k0 x0] l IH]; intros l' E k x I; [destruct I|]. cbn [resolve_attrs] in E. destruct (resolve_attr vars x0) as [y|] eqn:Ex; [|discriminate]. cbn [rbind] in E.
      destruct (resolve_attrs vars l) as [t|] eqn:Et; [|discriminate]. destruct I as [I|I]; [injection I as <- <-; eauto|eapply IH; [reflexivity|exact I]]. }
    destruct (G _ _ E _ _ I) as [y Ey]. cbn [resolve_attr] in Ey. rewrite HV in Ey. apply resolve_object_shape in Ey. destruct Ey as (a' & -> & E' & _). eapply IH; [exact E'|reflexivity].
Qed.
Lemma step_like_inv hv a : step_like (VObj hv a) -> forall x, dget a "pipeline_steps" = Some x -> exists ss, x = VList ss /\ forall s, In s ss -> step_like s.
Proof. intros H. inversion H; subst. assumption. Qed.
Lemma resolve_steps_ok vars l : (forall s, In s l -> (resolve_step vars s = Err ValueError /\ exists n, step_refers s n /\ dmem vars n = false) \/ (exists o', resolve_step vars s = Ok o')) ->
  (resolve_steps vars l = Err ValueError /\ exists s n, In s l /\ step_refers s n /\ dmem vars n = false) \/ exists l', resolve_steps vars l = Ok l'.
Proof.
  induction l as [|s l IH]; intros H; [right; exists []; reflexivity|]. cbn [resolve_steps]. destruct (H s (or_introl eq_refl)) as [[E (n & R & M)]|[o' E]]; rewrite E; cbn [rbind].
  - left. split; [reflexivity|]. exists s, n. split; [left; reflexivity|auto].
  - destruct IH as [[E2 (s2 & n & I & R & M)]|[l' E2]]; [intros s' Hs'; apply H; right; exact Hs'|left|right]; rewrite E2; cbn [rbind]; [|eauto].
    split; [reflexivity|]. exists s2, n. split; [right; exact I|auto].
Qed.
Lemma resolve_step_ok vars : forall o, step_like o ->
  (resolve_step vars o = Err ValueError /\ exists n, step_refers o n /\ dmem vars n = false) \/ (exists o', resolve_step vars o = Ok o').
Proof.
  apply (step_ind (fun o => step_like o -> (resolve_step vars o = Err ValueError /\ exists n, step_refers o n /\ dmem vars n = false) \/ (exists o', resolve_step vars o = Ok o'))).
  - intros o H S. inversion S; subst. exfalso. eapply H; reflexivity.
  - intros hv a IH S. assert (SI := step_like_inv _ _ S). rewrite resolve_step_obj.
    destruct (resolve_object_ok vars (VObj hv a) hv a eq_refl) as [[E (n & R & M)]|[o' E]]; rewrite resolve_object_obj in E.
    + destruct (resolve_attrs vars a) as [a'|e]; [discriminate|]. cbn [rbind] in *. injection E as ->. left. split; [reflexivity|]. exists n. split; [constructor; exact R|exact M].
    + destruct (resolve_attrs vars a) as [a'|e]; [|discriminate]. cbn [rbind]. destruct (dget a "pipeline_steps") as [x|] eqn:D; [|right; eauto].
      destruct (SI x eq_refl) as (ss & -> & SS). destruct (resolve_steps_ok vars ss) as [[E2 (s & n & I & R & M)]|[l' E2]].
      * intros s Hs. apply (IH ss s eq_refl Hs). apply SS; exact Hs.
      * left. rewrite E2. cbn [rbind]. split; [reflexivity|]. exists n. split; [eapply sr_sub; eassumption|exact M].
      * right. rewrite E2. cbn [rbind]. eauto.
Qed.
Lemma resolve_steps_get vars : forall l l', resolve_steps vars l = Ok l' -> forall i, match nth_error l i with None => nth_error l' i = None | Some s => exists s', nth_error l' i = Some s' /\ resolve_step vars s = Ok s' end.
Proof.
  induction l as [|s l IH]; intros l' H i; cbn [resolve_steps] in H; [injection H as <-; destruct i; reflexivity|].
  destruct (resolve_step vars s) as [y|] eqn:E; [|discriminate]. cbn [rbind] in H. destruct (resolve_steps vars l) as [t|]; [|discriminate]. injection H as <-. destruct i as [|i]; cbn [nth_error]; [eauto|apply IH; reflexivity].
Qed.
Lemma resolve_step_total vars : forall o n, step_refers o n -> forall o', resolve_step vars o = Ok o' -> dmem vars n = true.
Proof.
  intros o n R. induction R as [o n R|hv a ss s n D I R IH]; intros o' E.
  - destruct o as [| | | | |hv a]; try (inversion R; fail). apply resolve_step_shape in E. destruct E as (a1 & a2 & E1 & _). eapply resolve_attrs_total; [exact E1|exact R].
  - apply resolve_step_shape in E. destruct E as (a1 & a2 & E1 & _ & [[D' _]|(ss1 & ss' & D' & E2 & _)]); [congruence|]. rewrite D in D'. injection D' as <-.
    apply In_nth_error in I. destruct I as [i Hi]. assert (G := resolve_steps_get _ _ _ E2 i). rewrite Hi in G. destruct G as (s' & _ & Es). eapply IH; exact Es.
Qed.

(* nothing to resolve: nothing changes *)
Lemma dset_id (d : list (string * val)) k v : dget d k = Some v -> dset d k v = d.
Proof.
  induction d as [|[k0 v0] d IH]; cbn [dget dset]; [discriminate|]. destruct (eqb_spec k k0) as [->|N]; [intros H; injection H as ->; reflexivity|]. intros H. rewrite IH by exact H. reflexivity.
Qed.
Lemma resolve_object_same vars : forall o, (forall n, ~ refers o n) -> forall hv a, o = VObj hv a -> resolve_attrs vars a = Ok a.
Proof.
  apply (val_rect' (fun o => (forall n, ~ refers o n) -> forall hv a, o = VObj hv a -> resolve_attrs vars a = Ok a)); try (intros; discriminate).
  intros hv l IH N hv' a' E. injection E as <- <-. induction l as [|[k x] r IHl]; [reflexivity|]. cbn [resolve_attrs].
  assert (EX : resolve_attr vars x = Ok x).
  { destruct x as [|s|m|ss|d|h b]; try reflexivity; cbn [resolve_attr]; [exfalso; apply (N m); econstructor; left; reflexivity|]. destruct (has_value h b) eqn:HV; [reflexivity|].
    rewrite resolve_object_obj, (IH k _ (or_introl eq_refl)) with (hv := h) (a := b); [reflexivity| |reflexivity]. intros n R. apply (N n). eapply rf_deep; [left; reflexivity|exact HV|exact R]. }
  rewrite EX. cbn [rbind]. rewrite IHl; [reflexivity| |].
  - intros k0 x0 H0. apply (IH k0). right; exact H0.
  - intros n R. apply (N n). apply refers_inv in R. destruct R as [[k0 R]|(k0 & h & b & R & R1 & R2)]; [econstructor; right; exact R|eapply rf_deep; [right; exact R|exact R1|exact R2]].
Qed.
Lemma resolve_step_same vars : forall o, step_like o -> (forall n, ~ step_refers o n) -> resolve_step vars o = Ok o.
Proof.
  apply (step_ind (fun o => step_like o -> (forall n, ~ step_refers o n) -> resolve_step vars o = Ok o)).
  - intros o H S. inversion S; subst. exfalso. eapply H; reflexivity.
  - intros hv a IH S N. assert (SI := step_like_inv _ _ S). rewrite resolve_step_obj, (resolve_object_same vars (VObj hv a)) with (hv := hv); [|intros n R; apply (N n); constructor; exact R|reflexivity].
    cbn [rbind]. destruct (dget a "pipeline_steps") as [x|] eqn:D; [|reflexivity]. destruct (SI x eq_refl) as (ss & -> & SS).
    assert (E : resolve_steps vars ss = Ok ss).
    { assert (G : forall t, (forall s, In s t -> In s ss) -> resolve_steps vars t = Ok t).
      { induction t as [|s t IHt]; intros Ht; [reflexivity|]. cbn [resolve_steps]. rewrite (IH ss s eq_refl); [cbn [rbind]; rewrite IHt; [reflexivity|intros s' Hs'; apply Ht; right; exact Hs']|apply Ht; left; reflexivity|apply SS, Ht; left; reflexivity|].
        intros n R. apply (N n). eapply sr_sub; [exact D|apply Ht; left; reflexivity|exact R]. }
      apply G; auto. }
    rewrite E. cbn [rbind]. rewrite dset_id by exact D. reflexivity.
Qed.
Lemma resolve_steps_same vars l : (forall s, In s l -> step_like s) -> (forall s n, In s l -> ~ step_refers s n) -> resolve_steps vars l = Ok l.
Proof.
  induction l as [|s l IH]; intros S N; [reflexivity|]. cbn [resolve_steps]. rewrite resolve_step_same; [|apply S; left; reflexivity|intros n; apply N; left; reflexivity]. cbn [rbind].
  rewrite IH; [reflexivity|intros s' H; apply S; right; exact H|intros s' n H; apply N; right; exact H].
Qed.

(* what is found at a place *)
Lemma resolve_attr_to vars x x' : resolve_attr vars x = Ok x' -> resolved_to vars x x'.
Proof.
  destruct x as [|s|m|ss|d|h b]; cbn [resolve_attr resolved_to]; try congruence.
  - destruct (dget vars m) as [s|]; [|discriminate]. intros H. injection H as <-. eauto.
  - destruct (has_value h b) eqn:HV; [congruence|]. intros H. apply resolve_object_shape in H. destruct H as (a' & -> & _ & K). eauto.
Qed.
Lemma attr_at_resolved vars : forall p k hv a a' x, resolve_attrs vars a = Ok a' -> attr_at (VObj hv a) (k :: p) = Some x ->
  exists x', attr_at (VObj hv a') (k :: p) = Some x' /\ resolved_to vars x x'.
Proof.
  induction p as [|k2 p IH]; intros k hv a a' x E H; cbn [attr_at] in H |- *; assert (G := resolve_attrs_get _ _ _ k E); destruct (dget a k) as [y|]; try discriminate;
    destruct G as (y' & G & Ey); rewrite G.
  - injection H as <-. exists y'. split; [reflexivity|]. apply resolve_attr_to; exact Ey.
  - destruct y as [|s|m|ss|d|h b]; try discriminate. destruct (has_value h b) eqn:HV; [discriminate|]. cbn [resolve_attr] in Ey. rewrite HV in Ey. apply resolve_object_shape in Ey.
    destruct Ey as (b' & -> & Eb & K). rewrite (has_value_keys h b b' K), HV. exact (IH k2 h b b' x Eb H).
Qed.
Lemma attr_at_dset hv a k y k2 p : k2 <> k -> attr_at (VObj hv (dset a k y)) (k2 :: p) = attr_at (VObj hv a) (k2 :: p).
Proof. intros N. cbn [attr_at]. rewrite dget_dset, eqb_neq by exact N. reflexivity. Qed.
Lemma attr_at_step vars : forall s s' p x, resolve_step vars s = Ok s' -> p <> [] -> p <> ["pipeline_steps"] -> attr_at s p = Some x ->
  exists x', attr_at s' p = Some x' /\ resolved_to vars x x'.
Proof.
  intros s s' [|k p] x E NP N2 H; [contradiction|]. destruct s as [| | | | |hv a]; try discriminate. apply resolve_step_shape in E. destruct E as (a1 & a2 & E1 & -> & D).
  destruct (attr_at_resolved vars p k hv a a1 x E1 H) as (x' & H' & R). exists x'. split; [|exact R]. destruct D as [[_ ->]|(ss & ss' & D & _ & ->)]; [exact H'|].
  rewrite attr_at_dset; [exact H'|]. intros ->. cbn [attr_at] in H. rewrite D in H. destruct p; [apply N2; reflexivity|discriminate].
Qed.
Lemma sub_at_resolved vars : forall is l l' s, resolve_steps vars l = Ok l' -> sub_at l is = Some s -> exists s', sub_at l' is = Some s' /\ resolve_step vars s = Ok s'.
Proof.
  induction is as [|i is IH]; intros l l' s E H; cbn [sub_at] in H |- *; [discriminate|]. assert (G := resolve_steps_get _ _ _ E i). destruct (nth_error l i) as [o|]; [|discriminate].
  destruct G as (o' & G & Eo). rewrite G. destruct is as [|j is]; [injection H as <-; eauto|]. destruct o as [| | | | |hv a]; try discriminate. destruct (dget a "pipeline_steps") as [y|] eqn:D; [|discriminate].
  destruct y as [| | |ss| |]; try discriminate. apply resolve_step_shape in Eo. destruct Eo as (a1 & a2 & E1 & -> & D'). destruct D' as [[D' _]|(ss1 & ss' & D' & E2 & ->)]; [congruence|].
  rewrite D in D'. injection D' as <-. rewrite dget_dset, eqb_refl. exact (IH ss ss' s E2 H).
Qed.
Lemma sub_at_back vars : forall is l l', resolve_steps vars l = Ok l' -> sub_at l is = None -> sub_at l' is = None.
Proof.
  induction is as [|i is IH]; intros l l' E H; cbn [sub_at] in H |- *; [reflexivity|]. assert (G := resolve_steps_get _ _ _ E i). destruct (nth_error l i) as [o|]; [|rewrite G; reflexivity].
  destruct G as (o' & G & Eo). rewrite G. destruct is as [|j is]; [discriminate|]. destruct o as [|s|m|ss|d|hv a]; try (cbn in Eo; discriminate); [cbn in Eo; injection Eo as <-; reflexivity|].
  apply resolve_step_shape in Eo. destruct Eo as (a1 & a2 & E1 & -> & D). destruct D as [[D ->]|(ss & ss' & D & E2 & ->)].
  - assert (Q := resolve_attrs_get _ _ _ "pipeline_steps" E1). rewrite D in Q. rewrite Q. reflexivity.
  - rewrite D in H. rewrite dget_dset, eqb_refl. exact (IH ss ss' E2 H).
Qed.

Lemma resolve_step_like vars : forall o o', step_like o -> resolve_step vars o = Ok o' -> step_like o'.
Proof.
  apply (step_ind (fun o => forall o', step_like o -> resolve_step vars o = Ok o' -> step_like o')).
  - intros o H o' S. inversion S; subst. exfalso. eapply H; reflexivity.
  - intros hv a IH o' S E. assert (SI := step_like_inv _ _ S). apply resolve_step_shape in E. destruct E as (a1 & a2 & E1 & -> & D). constructor. intros x Hx.
    destruct D as [[D ->]|(ss & ss' & D & E2 & ->)].
    + assert (G := resolve_attrs_get _ _ _ "pipeline_steps" E1). rewrite D in G. congruence.
    + rewrite dget_dset, eqb_refl in Hx. injection Hx as <-. exists ss'. split; [reflexivity|]. intros s' Hs'. destruct (resolve_steps_In _ _ _ _ E2 Hs') as (s & Hs & Es).
      destruct (SI _ D) as (ss1 & Q & SS). injection Q as <-. exact (IH ss s D Hs s' (SS s Hs) Es).
Qed.

(* loading dumped references *)
Definition deser_attr (k : string) (x : val) : val :=
  match as_reference x with
  | Some n => VRef n
  | None => match x with VObj _ _ => deserialize_references x | VList ss => if eqb k "pipeline_steps" then VList (map deserialize_references ss) else x | _ => x end
  end.
Definition dump_attr (k : string) (x : val) : val :=
  match x with
  | VRef n => VDict [("name", VScal (SStr n)); ("type", VScal (SStr "reference"))]
  | VObj _ _ => dumped x
  | VList ss => if eqb k "pipeline_steps" then VList (map dumped ss) else x
  | _ => x
  end.
Lemma deser_obj hv a : deserialize_references (VObj hv a) = VObj hv (map (fun p => (fst p, deser_attr (fst p) (snd p))) a).
Proof.
  cbn [deserialize_references]. f_equal. induction a as [|[k x] a IH]; [reflexivity|]. cbn [map fst snd]. rewrite <- IH. reflexivity.
Qed.
Lemma dumped_obj hv a : dumped (VObj hv a) = VObj hv (map (fun p => (fst p, dump_attr (fst p) (snd p))) a).
Proof.
  cbn [dumped]. f_equal. induction a as [|[k x] a IH]; [reflexivity|]. cbn [map fst snd]. rewrite <- IH. reflexivity.
Qed.
Lemma unambiguous_inv hv attrs : unambiguous (VObj hv attrs) ->
  (forall k l, In (k, VDict l) attrs -> forall n, ~ (dget l "type" = Some (VScal (SStr "reference")) /\ dget l "name" = Some (VScal (SStr n)))) /\
  (forall k h a, In (k, VObj h a) attrs -> unambiguous (VObj h a)) /\ (forall ss s, In ("pipeline_steps", VList ss) attrs -> In s ss -> unambiguous s).
Proof. intros H. inversion H; subst; [exfalso; eapply H0; reflexivity|auto]. Qed.
Lemma load_dumped : forall o, unambiguous o -> deserialize_references (dumped o) = o.
Proof.
  assert (G : forall o, (unambiguous o -> deserialize_references (dumped o) = o) /\ forall ss, o = VList ss -> forall s, In s ss -> unambiguous s -> deserialize_references (dumped s) = s).
  { apply (val_rect' (fun o => (unambiguous o -> deserialize_references (dumped o) = o) /\ forall ss, o = VList ss -> forall s, In s ss -> unambiguous s -> deserialize_references (dumped s) = s));
      try (intros; split; [reflexivity|discriminate]).
    - intros l IH. split; [reflexivity|]. intros ss E s Hs. injection E as <-. apply (IH s Hs).
    - intros hv l IH. split; [|discriminate]. intros U. apply unambiguous_inv in U. destruct U as (U1 & U2 & U3). rewrite dumped_obj, deser_obj, map_map. f_equal.
      rewrite <- (map_id l) at 2. apply map_ext_in. intros [k x] I. cbn [fst snd]. f_equal. destruct x as [|s|m|ss|d|h b]; cbn [dump_attr].
      + reflexivity.
      + reflexivity.
      + reflexivity.
      + destruct (eqb_spec k "pipeline_steps") as [->|N]; unfold deser_attr; cbn [as_reference].
        * rewrite eqb_refl. f_equal. rewrite map_map. rewrite <- (map_id ss) at 2. apply map_ext_in. intros s Hs. apply (proj2 (IH _ _ I) ss eq_refl s Hs). eapply U3; eassumption.
        * rewrite eqb_neq by exact N. reflexivity.
      + unfold deser_attr. destruct (as_reference (VDict d)) as [n|] eqn:A; [|reflexivity]. exfalso. cbn in A. apply (U1 _ _ I n).
        destruct (dget d "type") as [[|[t|z|f|b]| | | |]|]; try discriminate. destruct (dget d "name") as [[|[t'|z|f|b]| | | |]|]; try discriminate. destruct (eqb_spec t "reference") as [->|]; [|discriminate].
        injection A as ->. auto.
      + assert (Ed : deserialize_references (dumped (VObj h b)) = VObj h b) by (apply (proj1 (IH _ _ I)); eapply U2; exact I).
        assert (Es : exists b', dumped (VObj h b) = VObj h b') by (rewrite dumped_obj; eauto). destruct Es as [b' Eb]. rewrite Eb in *. unfold deser_attr. cbn [as_reference]. exact Ed. }
  intros o. apply G.
Qed.
