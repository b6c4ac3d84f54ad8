(* Facts about workspaces. *)
From Coq Require Import Ascii Sorting.Sorted Sorting.Permutation.
From Verif Require Import Base PyDict PyDictFacts PyStr PyStrFacts Variables VariableSpec VariableFacts Workspace WorkspaceSpec.
Open Scope string_scope.
Open Scope list_scope.

(* ---- names of result files ---- *)
Lemma json_clean a t : a = us \/ a = slash -> ~ In a (chars (str_Z t ++ ".json")%string).
Proof.
  intros H. rewrite chars_app, in_app_iff. intros [I|I].
  - revert I. apply numeral_no. destruct H; subst; reflexivity.
  - cbn in I. destruct H; subst; repeat (destruct I as [I|I]; [discriminate|]); destruct I.
Qed.
Lemma version_split n t : version_file n t = (n ++ String us (str_Z t ++ ".json"))%string.
Proof. reflexivity. Qed.
Lemma version_last n t : last_seg (split us (version_file n t)) = (str_Z t ++ ".json")%string /\ join "_" (removelast (split us (version_file n t))) = n.
Proof. rewrite version_split. apply (split_last us n (str_Z t ++ ".json")%string). apply json_clean. left; reflexivity. Qed.
Lemma version_stamp t : py_int (hd "" (split dot (str_Z t ++ ".json")%string)) = Some t.
Proof.
  change (str_Z t ++ ".json")%string with (str_Z t ++ String dot "json")%string. rewrite split_app, (split_clean dot (str_Z t)); [cbn [hd app]; apply py_int_str|]. apply numeral_no. reflexivity.
Qed.
Lemma version_inj n t n' t' : version_file n t = version_file n' t' -> n = n' /\ t = t'.
Proof.
  intros H. destruct (version_last n t) as [A B], (version_last n' t') as [A' B']. rewrite H in A, B. split; [congruence|].
  assert (E := version_stamp t). assert (E' := version_stamp t'). rewrite <- A in E. rewrite <- A' in E'. congruence.
Qed.
Lemma version_start n t : startswith (version_file n t) (n ++ "_")%string = true.
Proof. apply startswith_iff. exists (str_Z t ++ ".json")%string. rewrite app_assoc_s. reflexivity. Qed.
Lemma version_end n t : endswith (version_file n t) ".json" = true.
Proof. apply endswith_iff. exists (n ++ "_" ++ str_Z t)%string. unfold version_file. rewrite !app_assoc_s. reflexivity. Qed.
Lemma result_of_iff f n t : result_of f n t <-> f = version_file n t.
Proof. reflexivity. Qed.

(* ---- scanning ---- *)
Fixpoint stamps (ls : list string) (n : string) : list Z :=
  match ls with
  | [] => []
  | f :: r => if startswith f (n ++ "_")%string && endswith f ".json" then
                match py_int (hd "" (split dot (last_seg (split us f)))) with
                | Some t => if eqb (join "_" (removelast (split us f))) n then t :: stamps r n else stamps r n
                | None => stamps r n
                end
              else stamps r n
  end.
Lemma stray_not f n : ~ stray f n -> startswith f (n ++ "_")%string && endswith f ".json" = true -> exists m t, f = version_file m t.
Proof.
  intros S H. apply andb_true_iff in H. destruct H as [A B]. apply startswith_iff in A. apply endswith_iff in B. destruct (option_map (fun t => version_file (join "_" (removelast (split us f))) t) (py_int (hd "" (split dot (last_seg (split us f)))))) as [g|] eqn:E.
  - destruct (string_dec f g) as [->|N].
    + destruct (py_int (hd "" (split dot (last_seg (split us g))))) as [t|]; [|discriminate]. cbn in E. injection E as E. exists (join "_" (removelast (split us g))), t. symmetry; exact E.
    + exfalso. apply S. split; [destruct A as [x ->]; exists x; apply app_assoc_s|]. split; [exact B|]. intros (m & t & H). change (f = version_file m t) in H. destruct (version_last m t) as [V1 V2]. rewrite H, V1, V2, version_stamp in E. cbn in E. injection E as <-. contradiction.
  - exfalso. apply S. split; [destruct A as [x ->]; exists x; apply app_assoc_s|]. split; [exact B|]. intros (m & t & H). change (f = version_file m t) in H. destruct (version_last m t) as [V1 V2]. rewrite H, V1, V2, version_stamp in E. discriminate.
Qed.
Lemma scan_ok ls n : (forall f, In f ls -> ~ stray f n) -> scan_versions ls n = Ok (stamps ls n) /\ (forall t, In t (stamps ls n) <-> In (version_file n t) ls) /\ (NoDup ls -> NoDup (stamps ls n)).
Proof.
  induction ls as [|f r IH]; intros S; [split; [reflexivity|]; split; [intros t; tauto|constructor]|].
  destruct IH as (E & M & N); [intros g G; apply S; right; exact G|]. cbn [scan_versions stamps]. destruct (startswith f (n ++ "_")%string && endswith f ".json") eqn:F.
  - destruct (stray_not f n (S f (or_introl eq_refl)) F) as (m & t & ->). destruct (version_last m t) as [V1 V2]. rewrite V1, V2, version_stamp. destruct (eqb_spec m n) as [->|Nm].
    + rewrite E. cbn [rbind]. split; [reflexivity|]. split.
      * intros u. cbn [In]. rewrite M. split; intros [H|H]; auto; [subst; auto|]. apply version_inj in H. left. apply H.
      * intros ND. inversion ND; subst. constructor; [rewrite M; assumption|auto].
    + rewrite E. split; [reflexivity|]. split.
      * intros u. cbn [In]. rewrite M. split; [auto|]. intros [H|H]; [|exact H]. apply version_inj in H. destruct H; contradiction.
      * intros ND. inversion ND; subst. auto.
  - rewrite E. split; [reflexivity|]. split.
    + intros u. cbn [In]. rewrite M. split; [auto|]. intros [H|H]; [|exact H]. subst f. rewrite version_start, version_end in F. discriminate.
    + intros ND. inversion ND; subst. auto.
Qed.
Lemma insert_desc_perm x l : Permutation (insert_desc x l) (x :: l).
Proof. induction l as [|y l IH]; cbn; [reflexivity|]. destruct (Z.leb y x); [reflexivity|]. rewrite IH. apply perm_swap. Qed.
Lemma sort_desc_perm l : Permutation (sort_desc l) l.
Proof. induction l as [|x l IH]; cbn; [reflexivity|]. rewrite insert_desc_perm, IH. reflexivity. Qed.
Lemma insert_desc_sorted x l : StronglySorted Z.ge l -> StronglySorted Z.ge (insert_desc x l).
Proof.
  induction l as [|y l IH]; cbn; intros S; [repeat constructor|]. inversion S as [|? ? S' F]; subst. destruct (Z.leb_spec y x) as [L|L].
  - constructor; [exact S|]. constructor; [lia|]. revert F. apply Forall_impl. intros a Ha. lia.
  - constructor; [auto|]. eapply Permutation_Forall; [symmetry; apply insert_desc_perm|]. constructor; [lia|exact F].
Qed.
Lemma sort_desc_sorted l : StronglySorted Z.ge (sort_desc l).
Proof. induction l as [|x l IH]; cbn; [constructor|]. apply insert_desc_sorted. exact IH. Qed.
Lemma sorted_strict l : StronglySorted Z.ge l -> NoDup l -> newest_first l.
Proof.
  induction l as [|x l IH]; intros S N; [constructor|]. inversion S; subst. inversion N; subst. constructor; [apply IH; assumption|]. apply Forall_forall. intros y Hy. rewrite Forall_forall in H2. specialize (H2 y Hy). assert (x <> y) by (intros ->; contradiction). lia.
Qed.
Lemma load_versions_ok ls n : NoDup ls -> (forall f, In f ls -> ~ stray f n) -> exists vs, load_versions ls n = Ok vs /\ newest_first vs /\ forall t, In t vs <-> In (version_file n t) ls.
Proof.
  intros N S. destruct (scan_ok ls n S) as (E & M & D). unfold load_versions. rewrite E. cbn [rbind]. eexists. split; [reflexivity|]. split.
  - apply sorted_strict; [apply sort_desc_sorted|]. eapply Permutation_NoDup; [symmetry; apply sort_desc_perm|auto].
  - intros t. rewrite <- M. split; apply Permutation_in; [apply sort_desc_perm|symmetry; apply sort_desc_perm].
Qed.

(* ---- saving ---- *)
Section Save.
Context {C : Type}.
Implicit Types (d : dir C) (h : list (string * Z * C)).
Lemma saved_nodup h d : NoDup (dkeys d) -> NoDup (dkeys (saved h d)).
Proof. revert d. induction h as [|x h IH]; intros d N; [exact N|]. apply IH. apply NoDup_dset. exact N. Qed.
Lemma saved_keys h d f : In f (dkeys (saved h d)) <-> In f (dkeys d) \/ exists n t c, In (n, t, c) h /\ f = version_file n t.
Proof.
  revert d. induction h as [|[[n t] c] h IH]; intros d; cbn [saved fold_left fst snd].
  - split; [auto|]. intros [H|(n & t & c & [] & _)]. exact H.
  - fold (saved h (save_result d n t c)). rewrite IH. unfold save_result. rewrite In_dkeys_dset. split.
    + intros [[->|H]|(n' & t' & c' & I & ->)]; [right; exists n, t, c; split; [left; reflexivity|reflexivity]|left; exact H|right; exists n', t', c'; split; [right; exact I|reflexivity]].
    + intros [H|(n' & t' & c' & [I|I] & ->)]; [left; right; exact H| |right; exists n', t', c'; auto]. injection I as -> -> ->. left; left; reflexivity.
Qed.
Lemma saved_get_other h d f : (forall n t c, In (n, t, c) h -> f <> version_file n t) -> dget (saved h d) f = dget d f.
Proof.
  revert d. induction h as [|[[n t] c] h IH]; intros d N; [reflexivity|]. cbn [saved fold_left fst snd]. fold (saved h (save_result d n t c)). rewrite IH; [|intros; eapply N; right; eassumption].
  unfold save_result. apply dget_dset_other. apply (N n t c). left; reflexivity.
Qed.
Lemma saved_app p q d : saved (p ++ q) d = saved q (saved p d).
Proof. apply fold_left_app. Qed.
Lemma saved_last h d n t c : last_saved h n t c -> dget (saved h d) (version_file n t) = Some c.
Proof.
  intros (p & q & -> & N). rewrite saved_app. cbn [saved fold_left fst snd]. fold (saved q (save_result (saved p d) n t c)). rewrite saved_get_other.
  - unfold save_result. apply dget_dset_same.
  - intros n' t' c' I E. apply version_inj in E. destruct E as [<- <-]. exact (N c' I).
Qed.
Lemma last_saved_ex h n t c : In (n, t, c) h -> exists c', last_saved h n t c'.
Proof.
  revert c. induction h as [|x h IH]; intros c I; [destruct I|].
  assert (D : {In (n, t) (map fst h)} + {~ In (n, t) (map fst h)}). { apply in_dec. decide equality; [apply Z.eq_dec|apply string_dec]. }
  destruct D as [D|D].
  - apply in_map_iff in D. destruct D as ([k c'] & E & I'). cbn in E. subst k. destruct (IH c' I') as (c2 & p & q & -> & N). exists c2, (x :: p), q. split; [reflexivity|exact N].
  - destruct I as [->|I]; [|exfalso; apply D; apply (in_map fst) in I; exact I]. exists c, [], h. split; [reflexivity|]. intros c' I. apply D. apply (in_map fst) in I. exact I.
Qed.
Lemma last_saved_In h n t c : last_saved h n t c -> In (n, t, c) h.
Proof. intros (p & q & -> & _). apply in_or_app. right; left; reflexivity. Qed.

(* ---- clearing ---- *)
Lemma remove_versions_spec n : forall vs d, NoDup (dkeys d) -> NoDup vs -> (forall t, In t vs -> In (version_file n t) (dkeys d)) ->
  snd (remove_versions d n vs) = List.length vs /\
  (forall f, dget (fst (remove_versions d n vs)) f = if existsb (fun t => eqb f (version_file n t)) vs then None else dget d f).
Proof.
  induction vs as [|t vs IH]; intros d N NV M; [split; reflexivity|]. cbn [remove_versions]. inversion NV; subst.
  assert (K : dmem d (version_file n t) = true) by (apply dmem_In, M; left; reflexivity). rewrite K.
  destruct (IH (ddel d (version_file n t))) as [A B]; [apply NoDup_ddel; exact N|assumption| |].
  - intros u Hu. apply dmem_In. unfold dmem. rewrite dget_ddel by exact N. destruct (eqb_spec (version_file n u) (version_file n t)) as [E|E]; [apply version_inj in E; destruct E as [_ ->]; contradiction|].
    specialize (M u (or_intror Hu)). apply dmem_In in M. exact M.
  - destruct (remove_versions (ddel d (version_file n t)) n vs) as [d' k] eqn:R. cbn [fst snd] in *. split; [cbn; rewrite A; reflexivity|]. intros f. rewrite B, dget_ddel by exact N. cbn [existsb].
    destruct (existsb (fun t0 => eqb f (version_file n t0)) vs); [rewrite orb_true_r; reflexivity|]. rewrite orb_false_r. destruct (eqb f (version_file n t)); reflexivity.
Qed.
End Save.

(* ---- paths ---- *)
Lemma split_In_sub c s x : In x (split c s) -> exists a b, s = (a ++ x ++ b)%string.
Proof.
  revert x. induction s as [|y s IH]; intros x I; cbn [split] in I.
  - destruct I as [<-|[]]. exists "", "". reflexivity.
  - destruct (Ascii.eqb y c).
    + destruct I as [<-|I]; [exists "", (String y s); reflexivity|]. destruct (IH x I) as (a & b & ->). exists (String y a), b. reflexivity.
    + assert (Z : exists t z, split c s = z :: t /\ exists b, s = (z ++ b)%string).
      { clear. induction s as [|u s IH]; cbn [split]; [exists [], ""; split; [reflexivity|exists ""; reflexivity]|]. destruct (Ascii.eqb u c).
        - exists (split c s), "". split; [reflexivity|]. exists (String u s). reflexivity.
        - destruct IH as (t & z & -> & b & ->). exists t, (String u z). split; [reflexivity|]. exists b. reflexivity. }
      destruct Z as (t & z & Z & b & Zb). rewrite Z in I. destruct I as [<-|I].
      * exists "", b. rewrite Zb. reflexivity.
      * destruct (IH x) as (a & b' & E); [rewrite Z; right; exact I|]. exists (String y a), b'. rewrite E. reflexivity.
Qed.
Lemma contains_sub x a b : contains x (a ++ x ++ b)%string = true.
Proof.
  induction a as [|y a IH]; cbn [append].
  - assert (P : String.prefix x (x ++ b) = true) by (apply prefix_iff; exists b; reflexivity). destruct (x ++ b)%string; cbn [contains]; rewrite P; reflexivity.
  - cbn [contains]. rewrite IH. apply orb_true_r.
Qed.
Lemma concat_app sep a b : a <> [] -> b <> [] -> String.concat sep (a ++ b) = (String.concat sep a ++ sep ++ String.concat sep b)%string.
Proof.
  intros A B. induction a as [|x a IH]; [contradiction|]. destruct a as [|y a].
  - destruct b as [|z b]; [contradiction|]. reflexivity.
  - rewrite <- app_comm_cons, <- app_comm_cons, !concat_cons, app_comm_cons, IH by discriminate. rewrite !app_assoc_s. reflexivity.
Qed.
Lemma abs_path_app a b : a <> [] -> inside (abs_path a) (abs_path (a ++ b)).
Proof.
  intros A. destruct b as [|x b]; [left; rewrite app_nil_r; reflexivity|]. right. exists (join "/" (x :: b)). unfold abs_path, join. rewrite concat_app by (assumption || discriminate). reflexivity.
Qed.
Lemma path_steps_grow l : (forall c, In c l -> c <> "..") -> forall cur, exists r, fold_left path_step l cur = cur ++ r.
Proof.
  induction l as [|c l IH]; intros N cur; [exists []; rewrite app_nil_r; reflexivity|]. cbn [fold_left]. destruct (IH (fun c' I => N c' (or_intror I)) (path_step cur c)) as [r E]. rewrite E. unfold path_step.
  destruct (eqb c "" || eqb c "."); [exists r; reflexivity|]. destruct (eqb_spec c "..") as [->|_]; [destruct (N ".." (or_introl eq_refl) eq_refl)|]. exists ([c] ++ r). rewrite app_assoc. reflexivity.
Qed.

(* ---- resolving with dictionaries that agree on the names that are referred to ---- *)
Lemma resolve_attrs_agree v1 v2 : forall o, (forall n, refers o n -> dget v1 n = dget v2 n) -> forall hv a, o = VObj hv a -> resolve_attrs v1 a = resolve_attrs v2 a.
Proof.
  apply (val_rect' (fun o => (forall n, refers o n -> dget v1 n = dget v2 n) -> forall hv a, o = VObj hv a -> resolve_attrs v1 a = resolve_attrs v2 a)); try (intros; discriminate).
  intros hv l IH N hv' a' E. injection E as <- <-. induction l as [|[k x] r IHl]; [reflexivity|]. cbn [resolve_attrs].
  assert (EX : resolve_attr v1 x = resolve_attr v2 x).
  { destruct x as [|s|m|ss|d|h b]; try reflexivity; cbn [resolve_attr]; [rewrite (N m); [reflexivity|econstructor; left; reflexivity]|]. destruct (has_value h b) eqn:HV; [reflexivity|].
    rewrite !resolve_object_obj, (IH k _ (or_introl eq_refl)) with (hv := h) (a := b); [reflexivity| |reflexivity]. intros n R. apply (N n). eapply rf_deep; [left; reflexivity|exact HV|exact R]. }
  rewrite EX, IHl; [reflexivity| |].
  - intros k0 x0 H0. apply (IH k0). right; exact H0.
  - intros n R. apply (N n). apply refers_inv in R. destruct R as [[k0 R]|(k0 & h & b & R & R1 & R2)]; [econstructor; right; exact R|eapply rf_deep; [right; exact R|exact R1|exact R2]].
Qed.
Lemma resolve_steps_agree_in v1 v2 l : (forall s, In s l -> resolve_step v1 s = resolve_step v2 s) -> resolve_steps v1 l = resolve_steps v2 l.
Proof. induction l as [|s l IH]; intros H; [reflexivity|]. cbn [resolve_steps]. rewrite (H s (or_introl eq_refl)), IH; [reflexivity|]. intros s' I. apply H. right; exact I. Qed.
Lemma resolve_step_agree v1 v2 : forall o, (forall n, step_refers o n -> dget v1 n = dget v2 n) -> resolve_step v1 o = resolve_step v2 o.
Proof.
  apply (step_ind (fun o => (forall n, step_refers o n -> dget v1 n = dget v2 n) -> resolve_step v1 o = resolve_step v2 o)).
  - intros o H _. rewrite !resolve_step_other by exact H. reflexivity.
  - intros hv a IH N. rewrite !resolve_step_obj, (resolve_attrs_agree v1 v2 (VObj hv a)) with (hv := hv); [|intros n R; apply N; constructor; exact R|reflexivity].
    destruct (dget a "pipeline_steps") as [x|] eqn:D; [|reflexivity]. destruct x as [|s|m|ss|d|h b]; try reflexivity.
    rewrite (resolve_steps_agree_in v1 v2 ss); [reflexivity|]. intros s Hs. apply (IH ss s eq_refl Hs). intros n R. apply N. eapply sr_sub; eassumption.
Qed.
Lemma resolve_steps_agree v1 v2 l : (forall s n, In s l -> step_refers s n -> dget v1 n = dget v2 n) -> resolve_steps v1 l = resolve_steps v2 l.
Proof. intros H. apply resolve_steps_agree_in. intros s I. apply resolve_step_agree. intros n. apply H. exact I. Qed.

Lemma validated_declared vs values n : validate_variable_values vs values = Ok tt -> In n (dkeys values) -> exists x, declared vs n x.
Proof.
  intros V I. unfold validate_variable_values in V. assert (V' := proj1 (validate_items_ok _ _) V). unfold dkeys in I. apply in_map_iff in I. destruct I as ([n' v] & E & I). cbn in E. subst n'.
  destruct (V' n v I) as (x & D & _). exists x. apply by_name_iff. exact D.
Qed.
(* the factory resolves the same with the given and with the completed values *)
Lemma factory_agree a e vs : steps_ok a -> a_variables a = Some vs -> validate_variable_values vs (e_variables e) = Ok tt -> covers a e ->
  graph_model_factory a (Some (e_variables e)) = graph_model_factory a (Some (resolve_variables vs (e_variables e))).
Proof.
  intros S EV V CV. assert (AG : resolve_steps (e_variables e) (a_steps a) = resolve_steps (resolve_variables vs (e_variables e)) (a_steps a)).
  { apply resolve_steps_agree. intros s n I R. assert (K := CV s n I R). destruct (validated_declared _ _ _ V K) as [x D]. rewrite (resolve_declared _ _ _ _ D).
    apply dmem_In in K. unfold dmem in K. destruct (dget (e_variables e) n); [reflexivity|discriminate]. }
  assert (SM : e_variables e = [] \/ resolve_variables vs (e_variables e) = [] -> resolve_steps (e_variables e) (a_steps a) = Ok (a_steps a)).
  { intros [H|H].
    - apply resolve_steps_same; [exact S|]. intros s n I R. specialize (CV s n I R). rewrite H in CV. destruct CV.
    - rewrite AG. apply resolve_steps_same; [exact S|]. intros s n I R. specialize (CV s n I R). destruct (validated_declared _ _ _ V CV) as [x D]. assert (E := resolve_declared _ (e_variables e) _ _ D). rewrite H in E. discriminate. }
  unfold graph_model_factory, factory_variables. destruct (e_variables e) as [|p q] eqn:E1, (resolve_variables vs (e_variables e)) as [|p' q'] eqn:E2; rewrite E1 in E2; rewrite ?E2 in *; try reflexivity.
  - rewrite <- AG, SM by (left; reflexivity). cbn [rbind]. destruct a; reflexivity.
  - rewrite SM by (right; reflexivity). cbn [rbind]. destruct a; reflexivity.
  - rewrite AG. reflexivity.
Qed.
Lemma factory_vars a values a' : graph_model_factory a values = Ok a' -> a_variables a' = a_variables a.
Proof.
  unfold graph_model_factory. destruct (factory_variables a values); [intros H; injection H as <-; reflexivity|]. destruct (resolve_steps _ (a_steps a)); [|discriminate]. cbn [rbind]. intros H. injection H as <-. reflexivity.
Qed.
(* what the factory returns has nothing left to resolve *)
Lemma factory_closed a vs a' : steps_ok a -> graph_model_factory a (Some vs) = Ok a' -> vs <> [] -> steps_ok a' /\ closed a'.
Proof.
  intros S. unfold graph_model_factory, factory_variables. destruct vs as [|p q]; [contradiction|]. destruct (resolve_steps (p :: q) (a_steps a)) as [l|] eqn:E; [|discriminate]. cbn [rbind]. intros H _. injection H as <-.
  split; cbn [a_steps]; intros s; [intros I|intros n I]; destruct (resolve_steps_In _ _ _ _ E I) as (s0 & I0 & E0); [eapply resolve_step_like; [apply S; exact I0|exact E0]|eapply resolve_step_clean; exact E0].
Qed.
Lemma factory_same a values : steps_ok a -> closed a -> graph_model_factory a values = Ok a.
Proof.
  intros S CL. unfold graph_model_factory. destruct (factory_variables a values); [reflexivity|]. rewrite resolve_steps_same; [destruct a; reflexivity|exact S|exact CL].
Qed.

(* ---- what a run does to the world ---- *)
Lemma after_get w r m r' : r_type r' <> RModule -> load_algorithm (after_factory w r m) r' = load_algorithm w r'.
Proof. intros N. unfold after_factory, load_algorithm. destruct (r_type r), m; try reflexivity. cbn [w_cwd w_real w_lib w_file w_mod]. destruct (r_type r'); try reflexivity. contradiction. Qed.
Lemma after_get_mod w r m r' : load_algorithm (after_factory w r m) r' = match m with Ok a => if match r_type r, r_type r' with RModule, RModule => eqb (r_ref r') (r_ref r) | _, _ => false end then Ok a else load_algorithm w r' | Err _ => load_algorithm w r' end.
Proof.
  unfold after_factory, load_algorithm. destruct (r_type r), m; try reflexivity. cbn [w_cwd w_real w_lib w_file w_mod]. destruct (r_type r'); try reflexivity. rewrite dget_dset. destruct (eqb (r_ref r') (r_ref r)); reflexivity.
Qed.
