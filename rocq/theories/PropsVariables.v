(* Property theorems about variables and references (causy/variables.py). *)
From Coq Require Import QArith.
From Verif Require Import Base PyDict PyDictFacts Variables VariableSpec VariableFacts.
Close Scope Q_scope.
Open Scope string_scope.
Open Scope list_scope.

(* C47: a value is accepted iff it has the declared type and is among the choices; everything else raises
   ValueError *)
Theorem C47_accepts_iff : forall x v, (validate_value x v = Ok tt <-> accepts x v) /\ (validate_value x v = Ok tt \/ validate_value x v = Err ValueError).
Proof. intros x v. split; [apply validate_ok|apply validate_res]. Qed.
Print Assumptions C47_accepts_iff.
(* the constructor returns only variables that accept their own value, whatever pydantic made of the input *)
Theorem C47_constructed_valid : forall coerce n t v ch x, make_variable coerce n t v ch = Ok x -> v_name x = n /\ v_type x = t /\ v_choices x = ch /\ accepts x (v_value x).
Proof.
  intros coerce n t v ch x. unfold make_variable. destruct (coerce t v) as [w|]; [|discriminate]. cbn [rbind]. destruct (validate_value (mkVar n t w ch) w) as [[]|] eqn:E; [|discriminate]. cbn [rbind].
  intros H. injection H as <-. apply validate_ok in E. repeat (split; [reflexivity|]). exact E.
Qed.
Print Assumptions C47_constructed_valid.
(* user values are accepted iff each names a declared variable that accepts it *)
Theorem C47_validate_values : forall vars values,
  (validate_variable_values vars values = Ok tt <-> forall n v, In (n, v) values -> exists x, declared vars n x /\ accepts x v) /\
  (validate_variable_values vars values = Ok tt \/ validate_variable_values vars values = Err ValueError).
Proof.
  intros vars values. unfold validate_variable_values. split; [|apply validate_items_res]. rewrite validate_items_ok. split; intros H n v I; destruct (H n v I) as (x & D & A); exists x; (split; [apply by_name_iff; exact D|exact A]).
Qed.
Print Assumptions C47_validate_values.
(* resolving keeps the defaults except for the named variables, and names no other variable *)
Theorem C47_resolve : forall vars values n,
  (forall x, declared vars n x -> dget (resolve_variables vars values) n = Some (match dget values n with Some v => v | None => v_value x end)) /\
  (~ In n (map v_name vars) -> dget (resolve_variables vars values) n = None).
Proof. intros vars values n. split; [intros x; apply resolve_declared|apply resolve_undeclared]. Qed.
Print Assumptions C47_resolve.
(* so every resolved value is one that its variable accepts *)
Theorem C47_resolved_valid : forall vars values n v, (forall x, In x vars -> accepts x (v_value x)) -> validate_variable_values vars values = Ok tt ->
  dget (resolve_variables vars values) n = Some v -> exists x, declared vars n x /\ accepts x v.
Proof.
  intros vars values n v D V H. destruct (in_dec string_dec n (map v_name vars)) as [I|I]; [|rewrite resolve_undeclared in H by exact I; discriminate].
  apply declared_In in I. destruct I as [x Hx]. rewrite (resolve_declared _ _ _ _ Hx) in H. injection H as <-. exists x. split; [exact Hx|].
  destruct (dget values n) as [w|] eqn:E.
  - apply dget_In in E. destruct (proj1 (proj1 (C47_validate_values vars values)) V n w E) as (y & Hy & A). apply by_name_iff in Hx, Hy. congruence.
  - apply D. destruct Hx as (p & q & -> & _). apply in_or_app. right; left; reflexivity.
Qed.
Print Assumptions C47_resolved_valid.
(* a stored variable is loaded with the type it names, or rejected *)
Theorem C47_load : forall coerce ty n v ch, 
  (forall s t x, ty = Some s -> named s t -> coerce t v = Ok v -> accepts (mkVar n t v ch) v -> deserialize_variable coerce ty n v ch = Ok x -> x = mkVar n t v ch) /\
  (forall s t, ty = Some s -> named s t -> coerce t v = Ok v -> accepts (mkVar n t v ch) v -> exists x, deserialize_variable coerce ty n v ch = Ok x) /\
  (forall x, deserialize_variable coerce ty n v ch = Ok x -> exists s, ty = Some s /\ named s (v_type x) /\ v_name x = n /\ v_choices x = ch /\ accepts x (v_value x)) /\
  ((forall s t, ty = Some s -> ~ named s t) -> deserialize_variable coerce ty n v ch = Err ValueError).
Proof.
  intros coerce ty n v ch.
  assert (K : forall s t, named s t -> type_named s = Some t) by (intros s t []; reflexivity).
  assert (K' : forall s t, type_named s = Some t -> named s t).
  { intros s t. unfold type_named. destruct (eqb_spec s "string") as [->|_]; [intros H; injection H as <-; constructor|]. destruct (eqb_spec s "integer") as [->|_]; [intros H; injection H as <-; constructor|].
    destruct (eqb_spec s "float") as [->|_]; [intros H; injection H as <-; constructor|]. destruct (eqb_spec s "bool") as [->|_]; [intros H; injection H as <-; constructor|discriminate]. }
  assert (M : forall t, coerce t v = Ok v -> accepts (mkVar n t v ch) v -> make_variable coerce n t v ch = Ok (mkVar n t v ch)).
  { intros t C A. unfold make_variable. rewrite C. cbn [rbind]. apply validate_ok in A. rewrite A. reflexivity. }
  split; [|split; [|split]].
  - intros s t x -> N C A. unfold deserialize_variable. rewrite (K s t N), (M t C A). intros H. injection H as <-. reflexivity.
  - intros s t -> N C A. exists (mkVar n t v ch). unfold deserialize_variable. rewrite (K s t N). exact (M t C A).
  - intros x. unfold deserialize_variable. destruct ty as [s|]; [|discriminate]. destruct (type_named s) as [t|] eqn:T; [|discriminate]. intros H. destruct (C47_constructed_valid _ _ _ _ _ _ H) as (A & B & C & D).
    exists s. split; [reflexivity|]. rewrite B. auto using K'.
  - intros H. unfold deserialize_variable. destruct ty as [s|]; [|reflexivity]. destruct (type_named s) as [t|] eqn:T; [|reflexivity]. destruct (H s t eq_refl (K' s t T)).
Qed.
Print Assumptions C47_load.
Example C47_load_nonvacuous : deserialize_variable (fun _ v => Ok v) (Some "integer") "n" (SInt 3) (Some [SInt 3]) = Ok (mkVar "n" TyInteger (SInt 3) (Some [SInt 3])) /\
  deserialize_variable (fun _ v => Ok v) (Some "float") "n" (SInt 3) None = Err ValueError /\ deserialize_variable (fun _ v => Ok v) (Some "list") "n" (SInt 3) None = Err ValueError.
Proof. repeat split; vm_compute; reflexivity. Qed.
Definition v_thr := mkVar "threshold" TyFloat (SFloat (FNum (1 # 20))) None.
Definition v_nth := mkVar "every_nth" TyInteger (SInt 200) (Some [SInt 100; SInt 200]).
Example C47_nonvacuous : accepts v_nth (SInt 100) /\ ~ accepts v_nth (SInt 7) /\ ~ accepts (mkVar "n" TyInteger (SInt 1) None) (SBool true) /\ ~ accepts v_thr (SInt 1) /\
  validate_variable_values [v_thr; v_nth] [("every_nth", SInt 100)] = Ok tt /\ validate_variable_values [v_thr; v_nth] [("every_nth", SBool true)] = Err ValueError /\
  validate_variable_values [v_thr; v_nth] [("alpha", SInt 1)] = Err ValueError /\
  resolve_variables [v_thr; v_nth] [("every_nth", SInt 100)] = [("threshold", SFloat (FNum (1 # 20))); ("every_nth", SInt 100)].
Proof.
  split; [apply validate_ok; vm_compute; reflexivity|]. split; [rewrite <- validate_ok; vm_compute; discriminate|]. split; [rewrite <- validate_ok; vm_compute; discriminate|].
  split; [rewrite <- validate_ok; vm_compute; discriminate|]. repeat (split; [vm_compute; reflexivity|]). vm_compute; reflexivity.
Qed.

(* C48: a resolved pipeline has no reference in an attribute of a step, of a nested object or of a sub-step *)
Theorem C48_no_references_partial : forall vars l l', resolve_steps vars l = Ok l' -> forall s n, In s l' -> ~ step_refers s n.
Proof.
  intros vars l l' E s n I. destruct (resolve_steps_In _ _ _ _ E I) as (s0 & _ & E0). eapply resolve_step_clean; exact E0.
Qed.
Print Assumptions C48_no_references_partial.
(* resolution succeeds iff every such reference names a variable, and raises ValueError otherwise *)
Theorem C48_unknown_raises : forall vars l, (forall s, In s l -> step_like s) ->
  ((exists l', resolve_steps vars l = Ok l') <-> (forall s n, In s l -> step_refers s n -> dmem vars n = true)) /\
  ((exists l', resolve_steps vars l = Ok l') \/ resolve_steps vars l = Err ValueError).
Proof.
  intros vars l S. assert (G := resolve_steps_ok vars l (fun s I => resolve_step_ok vars s (S s I))). split.
  - split.
    + intros [l' E] s n I R. apply In_nth_error in I. destruct I as [i Hi]. assert (Q := resolve_steps_get _ _ _ E i). rewrite Hi in Q. destruct Q as (s' & _ & Es). eapply resolve_step_total; eassumption.
    + intros H. destruct G as [[_ (s & n & I & R & M)]|G]; [|exact G]. rewrite (H s n I R) in M. discriminate.
  - destruct G as [[E _]|G]; auto.
Qed.
Print Assumptions C48_unknown_raises.
(* without references nothing changes *)
Theorem C48_unchanged : forall vars l, (forall s, In s l -> step_like s) -> (forall s n, In s l -> ~ step_refers s n) -> resolve_steps vars l = Ok l.
Proof. exact resolve_steps_same. Qed.
Print Assumptions C48_unchanged.
(* every place holds what it held before, except that references hold the value of their variable *)
Theorem C48_values : forall vars l l', resolve_steps vars l = Ok l' -> forall is,
  (sub_at l is = None -> sub_at l' is = None) /\
  forall s, sub_at l is = Some s -> exists s', sub_at l' is = Some s' /\
    forall p x, p <> [] -> p <> ["pipeline_steps"] -> attr_at s p = Some x -> exists x', attr_at s' p = Some x' /\ resolved_to vars x x'.
Proof.
  intros vars l l' E is. split; [apply (sub_at_back vars is l l' E)|]. intros s H. destruct (sub_at_resolved vars is l l' s E H) as (s' & H' & Es). exists s'. split; [exact H'|].
  intros p x N1 N2 A. exact (attr_at_step vars s s' p x Es N1 N2 A).
Qed.
Print Assumptions C48_values.
(* resolving twice, even with other variables, is the same as resolving once *)
Theorem C48_first_wins : forall vars vars2 l l', (forall s, In s l -> step_like s) -> resolve_steps vars l = Ok l' -> resolve_steps vars2 l' = Ok l'.
Proof. intros vars vars2 l l' S E. apply resolve_steps_same; [|exact (C48_no_references_partial vars l l' E)].
  intros s' I. destruct (resolve_steps_In _ _ _ _ E I) as (s & Hs & Es). eapply resolve_step_like; [apply S; exact Hs|exact Es]. Qed.
Print Assumptions C48_first_wins.
(* a model built without values uses the value of each variable of the algorithm *)
Theorem C48_defaults : forall a vs a', a_variables a = Some vs -> graph_model_factory a None = Ok a' -> forall is s p n x,
  sub_at (a_steps a) is = Some s -> p <> [] -> p <> ["pipeline_steps"] -> attr_at s p = Some (VRef n) -> declared vs n x ->
  exists s', sub_at (a_steps a') is = Some s' /\ attr_at s' p = Some (VScal (v_value x)).
Proof.
  intros a vs a' Ev F is s p n x Hs N1 N2 A Dx. assert (G : dget (resolve_variables vs []) n = Some (v_value x)) by (rewrite (resolve_declared _ _ _ _ Dx); reflexivity).
  unfold graph_model_factory, factory_variables in F. rewrite Ev in F. remember (resolve_variables vs []) as vars eqn:Evars. destruct vars as [|v0 vars]; [discriminate|].
  destruct (resolve_steps (v0 :: vars) (a_steps a)) as [l'|] eqn:E; [|discriminate]. cbn [rbind] in F. injection F as <-. cbn [a_steps].
  destruct (C48_values _ _ _ E is) as [_ C]. destruct (C s Hs) as (s' & Hs' & P). exists s'. split; [exact Hs'|]. destruct (P p (VRef n) N1 N2 A) as (x' & A' & sv & S1 & S2). rewrite A', S2. congruence.
Qed.
Print Assumptions C48_defaults.
(* references survive dumping a step and loading it again *)
Theorem C48_dump_load : forall o, unambiguous o -> deserialize_references (dumped o) = o.
Proof. exact load_dumped. Qed.
Print Assumptions C48_dump_load.
(* The full claim is false: a reference inside a list is kept, and nothing is resolved or rejected when there are
   no variables at all. *)
Theorem C48_nested_refuted : exists vars l l' s n, (forall s, In s l -> step_like s) /\ resolve_steps vars l = Ok l' /\ In s l' /\ mentions s n /\ dmem vars n = true.
Proof.
  exists [("t", SInt 1)], [VObj false [("levels", VList [VRef "t"])]]. do 3 eexists. split; [|split; [vm_compute; reflexivity|split; [left; reflexivity|split]]].
  - intros s [<-|[]]. constructor. intros x H. discriminate.
  - econstructor; [left; reflexivity|]. econstructor; [left; reflexivity|]. constructor.
  - reflexivity.
Qed.
Print Assumptions C48_nested_refuted.
Theorem C48_no_variables_refuted : exists a a' s n, (forall s, In s (a_steps a) -> step_like s) /\ graph_model_factory a (Some []) = Ok a' /\ In s (a_steps a') /\ step_refers s n.
Proof.
  exists (mkAlgo [VObj false [("threshold", VRef "threshold")]] (Some [v_thr])). do 3 eexists. split; [|split; [vm_compute; reflexivity|split; [left; reflexivity|]]].
  - intros s [<-|[]]. constructor. intros x H. discriminate.
  - constructor. econstructor. left; reflexivity.
Qed.
Print Assumptions C48_no_variables_refuted.
Definition a_demo : list val :=
  [VObj false [("threshold", VRef "threshold"); ("generator", VObj false [("every_nth", VRef "every_nth"); ("chunked", VScal (SBool false))])];
   VObj false [("pipeline_steps", VList [VObj false [("threshold", VRef "threshold")]]); ("display_name", VNone)]].
Example C48_nonvacuous : (forall s, In s a_demo -> step_like s) /\
  resolve_steps (resolve_variables [v_thr; v_nth] [("every_nth", SInt 100)]) a_demo =
   Ok [VObj false [("threshold", VScal (SFloat (FNum (1 # 20)))); ("generator", VObj false [("every_nth", VScal (SInt 100)); ("chunked", VScal (SBool false))])];
       VObj false [("pipeline_steps", VList [VObj false [("threshold", VScal (SFloat (FNum (1 # 20))))]]); ("display_name", VNone)]] /\
  resolve_steps [("every_nth", SInt 100)] a_demo = Err ValueError.
Proof.
  split; [|split; vm_compute; reflexivity]. intros s [<-|[<-|[]]]; constructor; intros x H; [discriminate|]. injection H as <-. eexists. split; [reflexivity|].
  intros s [<-|[]]. constructor. intros x H. discriminate.
Qed.
Example C48_defaults_nonvacuous : exists a', graph_model_factory (mkAlgo a_demo (Some [v_thr; v_nth])) None = Ok a' /\
  exists s, sub_at a_demo [1; 0] = Some s /\ attr_at s ["threshold"] = Some (VRef "threshold") /\ declared [v_thr; v_nth] "threshold" v_thr.
Proof.
  eexists. split; [vm_compute; reflexivity|]. eexists. split; [reflexivity|]. split; [reflexivity|]. exists [], [v_nth]. split; [reflexivity|]. split; [reflexivity|]. intros y [<-|[]]. discriminate.
Qed.
Example C48_dump_nonvacuous : exists o, unambiguous o /\ step_refers o "threshold" /\ dumped o <> o.
Proof.
  exists (VObj false [("threshold", VRef "threshold"); ("o", VDict [("type", VScal (SStr "x"))])]). split; [|split; [constructor; econstructor; left; reflexivity|discriminate]].
  apply un_obj.
  - intros k l [H|[H|[]]]; [discriminate|]. injection H as <- <-. intros n [H _]. discriminate.
  - intros k h a [H|[H|[]]]; discriminate.
  - intros ss s [H|[H|[]]]; discriminate.
Qed.
