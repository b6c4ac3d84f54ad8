(* More of C70 and C71: the defaults of the classes, the pipeline of PC, definitions without a name, and edge types. *)
From Coq Require Import QArith.
From Verif Require Import Base PyDict PyDictFacts PyStr Json Variables Config ConfigSpec ConfigClasses.
Open Scope string_scope.
Open Scope list_scope.
Open Scope Z_scope.

(* a step class of causy called without options: the threshold is 0.01, results are not applied at once, there is no display
   name, it does not use the process pool unless it is the placeholder, and only ColliderTest looks at the actions that were
   not applied *)
Theorem C70_defaults : forall cls s, init_step causy_classes cls no_args = Ok s ->
  s_threshold s = PFloat (FNum (1 # 100)) /\ s_sync s = PBool false /\ s_display s = PNone /\ s_parallel s = PBool (eqb cls m_placeholder) /\ s_needs s = PBool (eqb cls m_collider) /\
  s_chunk s = PInt (if eqb cls m_matrix || eqb cls m_regression then 1000 else 1).
Proof.
  intros cls s H. unfold init_step, causy_classes in H. destruct (dget causy_table cls) as [k|] eqn:E; [|discriminate]. apply dget_In in E. unfold causy_table, pairs in E.
  repeat (destruct E as [E|E]; [injection E as <- <-; first [discriminate H|injection H as <-; vm_compute; repeat split]|]). destruct E.
Qed.
Print Assumptions C70_defaults.
Example C70_defaults_nonvacuous : exists s, init_step causy_classes m_matrix no_args = Ok s /\ s_chunk s = PInt 1000.
Proof. eexists. split; reflexivity. Qed.

(* the classes of an entry of a pipeline, those of the steps of a logic step after its own *)
Fixpoint classes_of (i : item) : list string := match i with IStep s => [s_class s] | ILogic c l _ _ => c :: flat_map classes_of l end.
(* PC as it is defined (algorithms/pc.py:40-52, 63-90): its steps in their order, the rules inside the loop, and where
   the threshold is a variable *)
Theorem C71_pc_shape : exists a, pc_spec = Ok a /\ sp_name a = "PC" /\
  flat_map classes_of (sp_steps a) = [m_pearson; m_coefficient; m_partial; m_matrix; m_collider; m_loop; m_noncollider; m_triple; m_quadruple; m_further; m_effects] /\
  (forall s, In (IStep s) (sp_steps a) -> s_threshold s = PRef "threshold" <-> In (s_class s) [m_coefficient; m_partial; m_matrix]) /\
  (forall e, In e (sp_types a) <-> e = EObj "DIRECTED" true "-->" \/ e = EObj "UNDIRECTED" false "---").
Proof.
  destruct pc_spec as [a|] eqn:E; [|vm_compute in E; discriminate]. exists a. split; [reflexivity|]. vm_compute in E. injection E as <-. split; [reflexivity|]. split; [reflexivity|]. split.
  - intros s J. cbn [sp_steps In] in J. repeat (destruct J as [J|J]; [first [discriminate J|injection J as <-; vm_compute; split; [intros Q; first [discriminate Q|auto 6]|intros Q; first [reflexivity|intuition discriminate]]]|]). destruct J.
  - intros e. cbn [sp_types In]. split; intros [<-|[<-|[]]] || intros [->| ->]; auto.
Qed.
Print Assumptions C71_pc_shape.

(* a definition whose name is no string, or that has none, is refused, whatever the classes are *)
Theorem C71_nameless : forall lookup l, (dget l "name" = None -> load_item lookup (JDict l) = Err KeyError /\ load_gen lookup (JDict l) = Err KeyError) /\
  (forall j, dget l "name" = Some j -> (forall n, j <> JStr n) -> load_item lookup (JDict l) = Err AttributeError /\ load_gen lookup (JDict l) = Err AttributeError).
Proof.
  intros lookup l. split; [intros H|intros j H N]; cbn [load_item load_gen]; unfold class_name; rewrite H; [split; reflexivity|]. destruct j; try (split; reflexivity). exfalso. exact (N s eq_refl).
Qed.
Print Assumptions C71_nameless.
Example C71_nameless_nonvacuous : dget [("display_name", JStr "x" : jv)] "name" = None /\ dget [("name", JInt 3 : jv)] "name" = Some (JInt 3).
Proof. split; reflexivity. Qed.

(* what is written about an edge type *)
Definition type_shown (n : string) (directed : bool) (s : string) (j : jv) : Prop :=
  exists l, j = JDict l /\ NoDup (map fst l) /\ forall k v, In (k, v) l <-> (k = "name" /\ v = JStr n) \/ (k = "IS_DIRECTED" /\ v = JBool directed) \/ (k = "STR_REPRESENTATION" /\ v = JStr s).
Theorem C71_types_written : forall a, exists l ts, dump_spec a = JDict l /\ dget l "edge_types" = Some (JList ts) /\ List.length ts = List.length (sp_types a) /\
  forall i n d s, nth_error (sp_types a) i = Some (EObj n d s) -> exists j, nth_error ts i = Some j /\ type_shown n d s j.
Proof.
  intros a. unfold dump_spec. eexists. eexists. split; [reflexivity|]. split; [reflexivity|]. split; [apply map_length|]. intros i n d s H. exists (dump_type (EObj n d s)). split; [rewrite nth_error_map, H; reflexivity|].
  eexists. split; [reflexivity|]. split; [repeat constructor; cbn; intuition discriminate|]. intros k v. cbn [In]. split.
  - intros [H1|[H1|[H1|[]]]]; injection H1 as <- <-; auto.
  - intros [[-> ->]|[[-> ->]|[-> ->]]]; auto.
Qed.
Print Assumptions C71_types_written.
Example C71_types_written_nonvacuous : exists a, pc_spec = Ok a /\ nth_error (sp_types a) 1 = Some (EObj "UNDIRECTED" false "---").
Proof. eexists. split; vm_compute; reflexivity. Qed.
(* a model can be made exactly if all edge types are objects, and it has them in the order in which they are given *)
Theorem C71_types_order : forall a, (forall ns, factory_types a = Ok ns <-> Forall2 (fun e n => exists d s, e = EObj n d s) (sp_types a) ns) /\ (forall x, factory_types a = Err x <-> x = AttributeError /\ exists j, In (ERaw j) (sp_types a)).
Proof.
  intros a. assert (G : forall es acc, fold_left (fun r e => rbind r (fun l => match e with EObj n _ _ => Ok (l ++ [n]) | ERaw _ => Err AttributeError end)) es (Ok acc) =
    match Config.all_res (fun e => match e with EObj n _ _ => Ok n | ERaw _ => Err AttributeError end) es with Ok l => Ok (acc ++ l) | Err x => Err x end).
  { assert (B : forall es, fold_left (fun r e => rbind r (fun l : list string => match e with EObj n _ _ => Ok (l ++ [n]) | ERaw _ => Err AttributeError end)) es (Err AttributeError) = Err AttributeError) by (induction es as [|e es IH]; [reflexivity|exact IH]).
    induction es as [|[n d s|j] es IH]; intros acc; cbn [fold_left Config.all_res rbind]; [rewrite app_nil_r; reflexivity| |apply B]. rewrite IH. destruct (Config.all_res _ es) as [l|x]; [|reflexivity]. cbn [rbind]. rewrite <- app_assoc. reflexivity. }
  unfold factory_types. rewrite G. cbn [app]. generalize (sp_types a) as es. clear. intros es. induction es as [|[n d s|j] es [IH1 IH2]]; cbn [Config.all_res rbind].
  - split; [intros ns; split; [intros H; injection H as <-; constructor|intros H; inversion H; reflexivity]|]. intros x. split; [discriminate|]. intros (_ & j & []).
  - destruct (Config.all_res _ es) as [l|y]; cbn [rbind]; split.
    + intros ns. split; [intros H; injection H as <-; constructor; [exists d, s; reflexivity|apply IH1; reflexivity]|]. intros H. inversion H as [|? m ? ns' (d' & s' & Q) F]; subst. injection Q as -> <- <-. apply IH1 in F. injection F as ->. reflexivity.
    + intros x. split; [discriminate|]. intros (-> & j & [H|H]); [discriminate H|]. assert (Z : @Ok (list string) l = Err AttributeError) by (apply IH2; eauto). discriminate Z.
    + intros ns. split; [discriminate|]. intros H. inversion H as [|? m ? ns' _ F]; subst. apply IH1 in F. discriminate F.
    + intros x. split; [intros H; injection H as <-; destruct (proj1 (IH2 y) eq_refl) as (-> & j & I); split; [reflexivity|exists j; right; exact I]|]. intros (-> & j & [H|H]); [discriminate H|]. apply IH2. eauto.
  - split; [intros ns; split; [discriminate|]; intros H; inversion H as [|? m ? ns' (d' & s' & Q) F]; discriminate Q|]. intros x. split; [intros H; injection H as <-; split; [reflexivity|exists j; left; reflexivity]|]. intros (-> & _). reflexivity.
Qed.
Print Assumptions C71_types_order.
Example C71_types_order_nonvacuous : exists a, pc_spec = Ok a /\ factory_types a = Ok ["DIRECTED"; "UNDIRECTED"].
Proof. eexists. split; vm_compute; reflexivity. Qed.
