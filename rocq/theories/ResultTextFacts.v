(* Facts about saved results. *)
From Coq Require Import Ascii.
From Verif Require Import Base PyDict PyDictFacts JsonText JsonTextSpec JsonTextFacts JsonTextMain ResultText ResultTextSpec.
From Verif Require Graph.
Open Scope string_scope.
Open Scope list_scope.

Section Facts.
Context {F : Type}.
Variables (float_text : F -> ustr) (read_float : ustr -> F).
Variable is_date : ustr -> bool.

(* the JSON value that is written for a result *)
Definition jopt {A} (f : A -> jval F) (o : option A) : jval F := match o with Some a => f a | None => JNull end.
Definition jnode (n : rnode) : jval F := JDict [(lit "name", JStr (rn_name n)); (lit "id", JStr (rn_id n))].
Definition jetype (t : retype) : jval F := JDict [(lit "name", JStr (ry_name t)); (lit "IS_DIRECTED", JBool (ry_directed t)); (lit "STR_REPRESENTATION", JStr (ry_repr t))].
Definition jedge (e : redge (jval F)) : jval F := JDict [(lit "u", jnode (re_u e)); (lit "v", jnode (re_v e)); (lit "edge_type", jetype (re_type e)); (lit "metadata", jopt JDict (re_meta e))].
Definition jtrial (t : rtrial (jval F)) : jval F := JDict [(lit "u", jnode (rt_u t)); (lit "v", jnode (rt_v t)); (lit "action", JStr (action_text (rt_action t))); (lit "data", jopt JDict (rt_data t))].
Fixpoint jstep (s : rstep F (jval F)) : jval F :=
  match s with RStep n d a p ss => JDict [(lit "name", JStr n); (lit "duration", jopt JFloat d); (lit "actions", JList (map jtrial a)); (lit "all_proposed_actions", JList (map jtrial p)); (lit "steps", JList (map jstep ss))] end.
Definition jresult (r : rresult F (jval F)) : jval F :=
  JDict [(lit "algorithm", JDict [(lit "reference", JStr (rr_reference r)); (lit "type", JStr (reftype_text (rr_reftype r)))]);
         (lit "created_at", JStr (rr_created r));
         (lit "nodes", JDict (map (fun p => (fst p, jnode (snd p))) (rr_nodes r)));
         (lit "edges", JList (map jedge (rr_edges r)));
         (lit "action_history", JList (map jstep (rr_history r)));
         (lit "variables", jopt JDict (rr_variables r));
         (lit "data_loader_hash", jopt JStr (rr_data_hash r)); (lit "algorithm_hash", jopt JStr (rr_alg_hash r)); (lit "variables_hash", jopt JStr (rr_vars_hash r))].

Lemma step_ind' {V} (P : rstep F V -> Prop) : (forall n d a p s, Forall P s -> P (RStep n d a p s)) -> forall s, P s.
Proof. intros H. fix IH 1. intros [n d a p s]. apply H. induction s as [|x s IHs]; constructor; [apply IH|exact IHs]. Qed.

(* ---- writing ---- *)
Lemma node_w n : written (dump_node n) (jnode n).
Proof. repeat constructor. Qed.
Lemma opt_w l m : data_written l m -> written (opt PDict l) (jopt JDict m).
Proof. destruct l, m; cbn; try tauto; intros H; constructor. exact H. Qed.
Lemma optstr_w (o : option ustr) : written (opt PStr o) (jopt JStr o : jval F).
Proof. destruct o; constructor. Qed.
Lemma edge_w e e' : edge_written e e' -> written (dump_edge e) (jedge e').
Proof.
  unfold dump_edge, jedge. intros (-> & -> & -> & M). constructor. repeat apply Forall2_cons; try apply Forall2_nil; cbn [fst snd]; (split; [reflexivity|]); [apply node_w|apply node_w|repeat constructor|apply opt_w; exact M].
Qed.
Lemma trial_w e e' : trial_written e e' -> written (dump_trial e) (jtrial e').
Proof.
  unfold dump_trial, jtrial. intros (-> & -> & -> & M). constructor. repeat apply Forall2_cons; try apply Forall2_nil; cbn [fst snd]; (split; [reflexivity|]); [apply node_w|apply node_w|constructor|apply opt_w; exact M].
Qed.
Lemma map_w {A B} (f : A -> pval F) (g : B -> jval F) (R : A -> B -> Prop) l m : (forall a b, R a b -> written (f a) (g b)) -> Forall2 R l m -> written (PList (map f l)) (JList (map g m)).
Proof. intros H X. constructor. induction X; constructor; auto. Qed.
Lemma step_w : forall s s', step_written s s' -> written (dump_step s) (jstep s').
Proof.
  refine (step_ind' _ _). intros n d a p s IH s' W. inversion W as [? ? ? a' ? p' ? q Ha Hp Hs]; subst. cbn [dump_step jstep]. constructor. repeat apply Forall2_cons; try apply Forall2_nil; cbn [fst snd]; (split; [reflexivity|]).
  - constructor.
  - destruct d; constructor.
  - exact (map_w _ _ _ _ _ trial_w Ha).
  - exact (map_w _ _ _ _ _ trial_w Hp).
  - constructor. clear W. induction Hs as [|x y s q Hx Hs IHs]; [constructor|]. inversion_clear IH as [|? ? I1 I2]. constructor; [exact (I1 _ Hx)|exact (IHs I2)].
Qed.
Lemma result_w r r' : result_written r r' -> written (dump_result r) (jresult r').
Proof.
  unfold dump_result, jresult. intros (-> & -> & -> & -> & E & S & V & -> & -> & ->). constructor. repeat apply Forall2_cons; try apply Forall2_nil; cbn [fst snd]; (split; [reflexivity|]).
  - repeat constructor.
  - constructor.
  - constructor. induction (rr_nodes r') as [|x l IH]; constructor; [split; [reflexivity|apply node_w]|exact IH].
  - exact (map_w _ _ _ _ _ edge_w E).
  - exact (map_w _ _ _ _ _ step_w S).
  - apply opt_w; exact V.
  - apply optstr_w.
  - apply optstr_w.
  - apply optstr_w.
Qed.

(* ---- soundness ---- *)
Lemma lit_sound_b s : forallb (fun a => (nat_of_ascii a <? 128)%nat) (list_ascii_of_string s) = true -> sound_string (lit s).
Proof.
  intros H. apply sound_b_ok. unfold lit. induction (list_ascii_of_string s) as [|a l IH]; [reflexivity|]. cbn [forallb] in H. apply andb_prop in H. destruct H as [Ha H]. specialize (IH H). apply Nat.ltb_lt in Ha.
  cbn [map sound_b]. rewrite IH. replace (high (Z.of_nat (nat_of_ascii a))) with false by (unfold high; lia). cbn. lia.
Qed.
Ltac keys := repeat (apply NoDup_cons; [cbn; intuition discriminate|]); apply NoDup_nil.
Ltac litkeys := repeat (apply Forall_cons; [cbn [fst]; apply lit_sound_b; vm_compute; reflexivity|]); apply Forall_nil.
Ltac each := repeat apply Forall_cons; try apply Forall_nil; cbn [snd].
Notation sound := (sound float_text read_float).
Lemma node_s n : sound_node n -> sound (jnode n).
Proof. intros (A & B). constructor; [keys|litkeys|each; constructor; assumption]. Qed.
Lemma opt_s o : sound_data float_text read_float o -> sound (jopt JDict o).
Proof.
  destruct o as [l|]; [|constructor]. intros (N & H). constructor; [exact N|..]; revert H; apply Forall_impl; tauto.
Qed.
Lemma optstr_s o : sound_opt o -> sound (jopt JStr o).
Proof. destruct o as [s|]; intros H; constructor. exact (H s eq_refl). Qed.
Lemma edge_s e : sound_edge float_text read_float e -> sound (jedge e).
Proof.
  intros (A & B & C & D & M). constructor; [keys|litkeys|each]; [apply node_s, A|apply node_s, B| |apply opt_s, M]. constructor; [keys|litkeys|each; constructor; assumption].
Qed.
Lemma trial_s e : sound_trial float_text read_float e -> sound (jtrial e).
Proof.
  intros (A & B & M). constructor; [keys|litkeys|each]; [apply node_s, A|apply node_s, B| |apply opt_s, M]. constructor. destruct (rt_action e); apply lit_sound_b; vm_compute; reflexivity.
Qed.
Lemma list_s {A} (f : A -> jval F) (P : A -> Prop) l : (forall a, P a -> sound (f a)) -> Forall P l -> sound (JList (map f l)).
Proof. intros H X. constructor. induction X; constructor; auto. Qed.
Lemma step_s : forall s, sound_step float_text read_float s -> sound (jstep s).
Proof.
  refine (step_ind' _ _). intros n d a p s IH W. inversion W as [? ? ? ? ? Hn Hd Ha Hp Hs]; subst. cbn [jstep]. constructor; [keys|litkeys|each].
  - constructor; exact Hn.
  - destruct d as [f|]; constructor. exact (Hd f eq_refl).
  - exact (list_s _ _ _ trial_s Ha).
  - exact (list_s _ _ _ trial_s Hp).
  - constructor. clear W. induction Hs as [|x s Hx Hs IHs]; [constructor|]. inversion_clear IH as [|? ? I1 I2]. constructor; [exact (I1 Hx)|exact (IHs I2)].
Qed.
Lemma result_s r : sound_result float_text read_float r -> sound (jresult r).
Proof.
  intros (A & B & N & C & E & S & V & D1 & D2 & D3). constructor; [keys|litkeys|each].
  - constructor; [keys|litkeys|each; constructor; [exact A|]]. destruct (rr_reftype r); apply lit_sound_b; vm_compute; reflexivity.
  - constructor; exact B.
  - constructor.
    + rewrite map_map. exact N.
    + induction C as [|x l (C1 & _) C IH]; [constructor|]. inversion_clear N as [|? ? _ N']. constructor; [exact C1|exact (IH N')].
    + induction C as [|x l (_ & C2) C IH]; [constructor|]. inversion_clear N as [|? ? _ N']. constructor; [exact (node_s _ C2)|exact (IH N')].
  - exact (list_s _ _ _ edge_s E).
  - exact (list_s _ _ _ step_s S).
  - apply opt_s, V.
  - apply optstr_s, D1.
  - apply optstr_s, D2.
  - apply optstr_s, D3.
Qed.

(* ---- loading ---- *)
Lemma node_l n : load_node (jnode n) = Ok n.
Proof. destruct n. reflexivity. Qed.
Lemma data_l o : as_opt as_dict (jopt JDict o) = Ok o.
Proof. destruct o; reflexivity. Qed.
Lemma str_l o : as_opt as_str (jopt JStr o : jval F) = Ok o.
Proof. destruct o; reflexivity. Qed.
Lemma action_l a : as_action (JStr (action_text a) : jval F) = Ok a.
Proof. destruct a; reflexivity. Qed.
Lemma reftype_l a : as_reftype (JStr (reftype_text a) : jval F) = Ok a.
Proof. destruct a; reflexivity. Qed.
Lemma trial_l t : load_trial (jtrial t) = Ok t.
Proof. destruct t as [u v a d]. unfold load_trial, jtrial. lazy -[rbind as_str as_dict as_float as_list load_node as_action as_opt jnode jopt action_text]. cbn [rbind as_str as_dict as_list]. rewrite !node_l. cbn [rbind]. rewrite action_l. cbn [rbind]. rewrite data_l. reflexivity. Qed.
Lemma list_l {A B} (f : A -> B) (g : B -> res A) l : (forall a, In a l -> g (f a) = Ok a) -> all_of g (map f l) = Ok l.
Proof. induction l as [|x l IH]; intros H; [reflexivity|]. cbn [map all_of]. rewrite (H x (or_introl eq_refl)). cbn [rbind]. rewrite IH; [reflexivity|]. intros a Ha. apply H. right. exact Ha. Qed.
Definition step_dict (n : ustr) (d : option F) (a p : list (rtrial (jval F))) (ss : list (rstep F (jval F))) : list (ustr * jval F) :=
  [(lit "name", JStr n); (lit "duration", jopt JFloat d); (lit "actions", JList (map jtrial a)); (lit "all_proposed_actions", JList (map jtrial p)); (lit "steps", JList (map jstep ss))].
Lemma load_step_eq l : @load_step F (JDict l) =
  rbind (field (JDict l) (lit "name")) (fun a => rbind (as_str a) (fun n => rbind (field (JDict l) (lit "duration")) (fun b => rbind (as_opt as_float b) (fun d =>
  rbind (field (JDict l) (lit "actions")) (fun c => rbind (as_list load_trial c) (fun acts => rbind (field (JDict l) (lit "all_proposed_actions")) (fun e => rbind (as_list load_trial e) (fun props =>
  rbind (match dget (map (fun p => match p with (k, x) => (k, match x with JList xs => all_of load_step xs | _ => Err ValueError end) end) l) (lit "steps") with Some s => s | None => Err ValueError end) (fun ss => Ok (RStep n d acts props ss)))))))))).
Proof. reflexivity. Qed.
Lemma step_l : forall s, load_step (jstep s) = Ok s.
Proof.
  refine (step_ind' _ _). intros n d a p s IH. change (jstep (RStep n d a p s)) with (JDict (step_dict n d a p s)). rewrite load_step_eq.
  assert (E1 : field (JDict (step_dict n d a p s)) (lit "name") = Ok (JStr n)) by reflexivity. assert (E2 : field (JDict (step_dict n d a p s)) (lit "duration") = Ok (jopt JFloat d)) by reflexivity.
  assert (E3 : field (JDict (step_dict n d a p s)) (lit "actions") = Ok (JList (map jtrial a))) by reflexivity. assert (E4 : field (JDict (step_dict n d a p s)) (lit "all_proposed_actions") = Ok (JList (map jtrial p))) by reflexivity.
  match goal with |- context [dget ?m (lit "steps")] => assert (E5 : dget m (lit "steps") = Some (all_of load_step (map jstep s))) by reflexivity; rewrite E5 end.
  rewrite E1. cbn [rbind as_str]. rewrite E2. cbn [rbind]. assert (D : as_opt as_float (jopt JFloat d : jval F) = Ok d) by (destruct d; reflexivity). rewrite D. cbn [rbind]. rewrite E3. cbn [rbind as_list].
  rewrite (list_l jtrial load_trial a) by (intros; apply trial_l). cbn [rbind]. rewrite E4. cbn [rbind as_list]. rewrite (list_l jtrial load_trial p) by (intros; apply trial_l). cbn [rbind].
  rewrite (list_l jstep load_step s) by (intros x Hx; rewrite Forall_forall in IH; exact (IH x Hx)). reflexivity.
Qed.
Lemma basic_b j : @meta_base F j = true <-> basic j.
Proof. destruct j; cbn; split; intros H; try discriminate; try constructor; inversion H. Qed.
Lemma meta_b j : @meta_value F j = true <-> meta_like j.
Proof.
  destruct j as [|b|z|f|s|l|l]; cbn; try (split; [intros H; try discriminate H; repeat constructor|reflexivity || (intros H; inversion H as [? B| |]; inversion B)]).
  - rewrite forallb_forall. split; [intros H; apply ml_list, Forall_forall; intros x Hx; apply basic_b, H, Hx|]. intros H x Hx. apply basic_b. inversion H as [? B|? B|]; subst; [inversion B|]. rewrite Forall_forall in B. exact (B x Hx).
  - rewrite forallb_forall. split; [intros H; apply ml_dict, Forall_forall; intros x Hx; apply basic_b, H, Hx|]. intros H x Hx. apply basic_b. inversion H as [? B| |? B]; subst; [inversion B|]. rewrite Forall_forall in B. exact (B x Hx).
Qed.
Lemma metas_b l : forallb (fun p : ustr * jval F => meta_value (snd p)) l = true <-> Forall (fun p => meta_like (snd p)) l.
Proof. rewrite forallb_forall, Forall_forall. split; intros H x Hx; apply meta_b, H, Hx. Qed.
Lemma names_b s : existsb (eqb s) edge_type_names = true <-> In s [lit "DIRECTED"; lit "UNDIRECTED"; lit "BIDIRECTED"].
Proof.
  unfold edge_type_names. rewrite existsb_exists. split; [intros (x & Hx & E); destruct (eqb_spec s x); [subst; exact Hx|discriminate]|]. intros H. exists s. split; [exact H|apply eqb_refl].
Qed.
Lemma etype_l e : load_etype (jedge e) = if existsb (eqb (ry_name (re_type e))) edge_type_names then Ok (re_type e) else Err KeyError.
Proof. destruct e as [u v [n d r] m]. unfold load_etype, jedge. lazy -[rbind as_str as_dict as_float as_list existsb edge_type_names jnode jopt]. cbn [rbind as_str as_dict as_list]. destruct (existsb _ _); reflexivity. Qed.
Lemma edge_l e t : load_edge (jedge e, t) = match re_meta e with Some l => if forallb (fun p => meta_value (snd p)) l then Ok (mkREdge (re_u e) (re_v e) t (Some l)) else Err ValueError | None => Err ValueError end.
Proof.
  unfold load_edge. cbn [fst snd]. assert (E1 : field (jedge e) (lit "u") = Ok (jnode (re_u e))) by reflexivity. assert (E2 : field (jedge e) (lit "v") = Ok (jnode (re_v e))) by reflexivity. assert (E3 : field (jedge e) (lit "metadata") = Ok (jopt JDict (re_meta e))) by reflexivity.
  rewrite E1, E2, E3. cbn [rbind]. rewrite !node_l. cbn [rbind]. destruct (re_meta e) as [l|]; [|reflexivity]. unfold as_meta. cbn [jopt as_dict rbind]. destruct (forallb _ l); reflexivity.
Qed.
Lemma types_l es : Forall shipped_type es -> all_of (fun e => rbind (load_etype e) (fun t => Ok (e, t))) (map jedge es) = Ok (map (fun e => (jedge e, re_type e)) es).
Proof.
  induction 1 as [|e es H _ IH]; [reflexivity|]. cbn [map all_of]. rewrite etype_l. replace (existsb (eqb (ry_name (re_type e))) edge_type_names) with true by (symmetry; apply names_b; exact H). cbn [rbind]. rewrite IH. reflexivity.
Qed.
Lemma types_bad es : (exists e, In e es /\ ~ shipped_type e) -> all_of (fun e => rbind (load_etype e) (fun t => Ok (e, t))) (map jedge es) = Err KeyError.
Proof.
  intros (e & H & N). induction es as [|x es IH]; [destruct H|]. cbn [map all_of]. rewrite etype_l. destruct (existsb (eqb (ry_name (re_type x))) edge_type_names) eqn:E; [|reflexivity]. cbn [rbind]. destruct H as [->|H]; [apply names_b in E; contradiction|]. rewrite (IH H). reflexivity.
Qed.
Lemma edges_l es : Forall has_metadata es -> all_of load_edge (map (fun e => (jedge e, re_type e)) es) = Ok es.
Proof.
  induction 1 as [|e es H _ IH]; [reflexivity|]. cbn [map all_of]. rewrite edge_l. destruct H as (l & M & H). rewrite M. rewrite (proj2 (metas_b l) H). cbn [rbind]. rewrite IH. cbn [rbind]. destruct e; cbn in *; subst; reflexivity.
Qed.
Lemma edges_bad es : (exists e, In e es /\ ~ has_metadata e) -> all_of load_edge (map (fun e => (jedge e, re_type e)) es) = Err ValueError.
Proof.
  intros (e & H & N). induction es as [|x es IH]; [destruct H|]. cbn [map all_of]. rewrite edge_l. destruct (re_meta x) as [l|] eqn:M; [|reflexivity]. destruct (forallb _ l) eqn:E; [|reflexivity]. cbn [rbind].
  destruct H as [->|H]; [destruct N; exists l; split; [exact M|apply metas_b; exact E]|]. rewrite (IH H). reflexivity.
Qed.
(* loading is the loading of its edges *)
Lemma result_l r : is_date (rr_created r) = true -> load_result is_date (jresult r) =
  rbind (all_of (fun e => rbind (load_etype e) (fun t => Ok (e, t))) (map jedge (rr_edges r))) (fun ts => rbind (all_of load_edge ts) (fun es =>
  Ok (mkRResult (rr_reference r) (rr_reftype r) (rr_created r) (rr_nodes r) es (rr_history r) (rr_variables r) (rr_data_hash r) (rr_alg_hash r) (rr_vars_hash r)))).
Proof.
  intros H. unfold load_result.
  assert (E1 : item (jresult r) (lit "algorithm") = Ok (JDict [(lit "reference", JStr (rr_reference r)); (lit "type", JStr (reftype_text (rr_reftype r)))])) by reflexivity.
  assert (E2 : item (jresult r) (lit "edges") = Ok (JList (map jedge (rr_edges r)))) by reflexivity.
  assert (E3 : field (jresult r) (lit "created_at") = Ok (JStr (rr_created r))) by reflexivity.
  assert (E4 : field (jresult r) (lit "nodes") = Ok (JDict (map (fun p => (fst p, jnode (snd p))) (rr_nodes r)))) by reflexivity.
  assert (E5 : field (jresult r) (lit "action_history") = Ok (JList (map jstep (rr_history r)))) by reflexivity.
  assert (E6 : field (jresult r) (lit "variables") = Ok (jopt JDict (rr_variables r))) by reflexivity.
  assert (E7 : field (jresult r) (lit "data_loader_hash") = Ok (jopt JStr (rr_data_hash r))) by reflexivity.
  assert (E8 : field (jresult r) (lit "algorithm_hash") = Ok (jopt JStr (rr_alg_hash r))) by reflexivity.
  assert (E9 : field (jresult r) (lit "variables_hash") = Ok (jopt JStr (rr_vars_hash r))) by reflexivity.
  assert (E10 : field (JDict [(lit "reference", JStr (rr_reference r)); (lit "type", JStr (reftype_text (rr_reftype r)))] : jval F) (lit "reference") = Ok (JStr (rr_reference r))) by reflexivity.
  assert (E11 : field (JDict [(lit "reference", JStr (rr_reference r)); (lit "type", JStr (reftype_text (rr_reftype r)))] : jval F) (lit "type") = Ok (JStr (reftype_text (rr_reftype r)))) by reflexivity.
  rewrite E1. cbn [rbind]. rewrite E10. cbn [rbind as_str]. rewrite E11. cbn [rbind]. rewrite reftype_l. cbn [rbind]. rewrite E2. cbn [rbind].
  match goal with |- context [rbind (all_of ?g (map jedge (rr_edges r)))] => destruct (all_of g (map jedge (rr_edges r))) as [ts|x]; [|reflexivity] end. cbn [rbind]. rewrite E3. cbn [rbind as_str]. rewrite H. cbn [rbind]. rewrite E4. cbn [rbind as_dict].
  assert (X : all_of load_entry (map (fun p => (fst p, jnode (snd p))) (rr_nodes r)) = Ok (rr_nodes r)) by (apply list_l; intros [k n] _; unfold load_entry; cbn [fst snd]; rewrite node_l; reflexivity). rewrite X. cbn [rbind].
  destruct (all_of load_edge ts) as [es'|x]; [|reflexivity]. cbn [rbind]. rewrite E5. cbn [rbind as_list]. rewrite (list_l jstep load_step (rr_history r)) by (intros; apply step_l). cbn [rbind]. rewrite E6. cbn [rbind]. rewrite data_l. cbn [rbind].
  rewrite E7. cbn [rbind]. rewrite str_l. cbn [rbind]. rewrite E8. cbn [rbind]. rewrite str_l. cbn [rbind]. rewrite E9. cbn [rbind]. rewrite str_l. reflexivity.
Qed.
End Facts.
