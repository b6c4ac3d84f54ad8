(* C69: what a hash of a dictionary tells; C56 with the hash the code computes for variables. *)
From Coq Require Import Ascii QArith.
From Verif Require Import Base PyDict PyDictFacts PyStr PyStrFacts Json JsonSpec JsonFacts Variables VariableSpec Workspace WorkspaceSpec WorkspaceFacts PropsWorkspace.
Close Scope Q_scope.
Open Scope string_scope.
Open Scope list_scope.

(* ---- C69: two values have the same hash exactly if they are the same value ---- *)
Theorem C69_text : forall F (ok : F -> Prop) ft, float_texts ok ft -> forall a b, proper ok a -> proper ok b -> (text ft a = text ft b <-> same_json a b).
Proof. intros F ok ft FT a b Pa Pb. apply (text_exact ft ok FT a b Pa Pb). Qed.
Print Assumptions C69_text.
(* The digest may only be assumed free of collisions. *)
Theorem C69_hash : forall F (ok : F -> Prop) ft digest, float_texts ok ft -> (forall s t, digest s = digest t -> s = t) ->
  forall a b, proper ok a -> proper ok b -> (hash_dictionary ft digest a = hash_dictionary ft digest b <-> same_json a b).
Proof.
  intros F ok ft digest FT C a b Pa Pb. unfold hash_dictionary. split; intros H.
  - apply (C69_text F ok ft FT a b Pa Pb), C, H.
  - apply (C69_text F ok ft FT a b Pa Pb) in H. rewrite H. reflexivity.
Qed.
Print Assumptions C69_hash.

(* the dictionary of variables as a JSON value *)
Definition scalar_json (s : scalar) : json fl := match s with SStr x => JStr x | SInt z => JInt z | SFloat f => JFloat f | SBool b => JBool b end.
Definition vars_json (d : dict string scalar) : json fl := JDict (map (fun p => (fst p, scalar_json (snd p))) d).
(* rationals in lowest terms stand for floats *)
Definition reduced (f : fl) : Prop := match f with FNum q => Qred q = q | _ => True end.
Definition scalar_reduced (s : scalar) : Prop := match s with SFloat f => reduced f | _ => True end.

Lemma scalar_json_same s t : same_json (scalar_json s) (scalar_json t) -> s = t.
Proof. destruct s, t; cbn; intros H; inversion H; subst; reflexivity. Qed.
Lemma scalar_json_refl s : same_json (scalar_json s) (scalar_json s).
Proof. destruct s; constructor. Qed.
Lemma vars_same x y : same_json (vars_json x) (vars_json y) <-> Permutation x y.
Proof.
  split.
  - intros H. inversion H as [| | | | | |l l' m L P E1 E2]; subst. destruct (Permutation_map_inv _ _ P) as (y' & -> & P'). apply Permutation_sym.
    rewrite P'. clear P P' H y. enough (x = y') by (subst; reflexivity). revert y' L. induction x as [|[k s] x IH]; intros [|[k' t] y'] L; cbn in L; inversion L as [|? ? ? ? [A1 A2] A3]; subst; [reflexivity|].
    cbn in A1, A2. apply scalar_json_same in A2. subst. f_equal. apply IH; assumption.
  - intros P. unfold vars_json. apply (sj_dict _ _ (map (fun p => (fst p, scalar_json (snd p))) x)); [|apply Permutation_map, P].
    clear P. induction x as [|[k s] x IH]; cbn; constructor; [split; [reflexivity|apply scalar_json_refl]|exact IH].
Qed.
Lemma vars_proper x : NoDup (dkeys x) -> (forall k s, In (k, s) x -> scalar_reduced s) -> proper reduced (vars_json x).
Proof.
  intros ND R. constructor.
  - rewrite map_map. cbn. exact ND.
  - apply Forall_forall. intros p Hp. apply in_map_iff in Hp. destruct Hp as ([k s] & <- & Hs). cbn. specialize (R k s Hs). destruct s; cbn in *; constructor; exact R.
Qed.
Lemma dget_In_iff (x : dict string scalar) k s : NoDup (dkeys x) -> (dget x k = Some s <-> In (k, s) x).
Proof. intros N. split; [apply dget_In|apply NoDup_dget; exact N]. Qed.
(* The hash of the variables tells whether every variable has the same value of the same type. *)
Theorem C69_variables : forall ft digest, float_texts reduced ft -> (forall s t, digest s = digest t -> s = t) -> forall x y : dict string scalar,
  NoDup (dkeys x) -> NoDup (dkeys y) -> (forall k s, In (k, s) (x ++ y) -> scalar_reduced s) ->
  (hash_dictionary ft digest (vars_json x) = hash_dictionary ft digest (vars_json y) <-> forall k, dget x k = dget y k).
Proof.
  intros ft digest FT C x y Nx Ny R. rewrite (C69_hash fl reduced ft digest FT C), vars_same.
  - split.
    { intros P k. assert (E : forall s, dget x k = Some s <-> dget y k = Some s).
      { intros s. rewrite !dget_In_iff by assumption. split; apply Permutation_in; [exact P|apply Permutation_sym, P]. }
      destruct (dget x k) as [s|]; [symmetry; apply E; reflexivity|]. destruct (dget y k) as [s|]; [apply E; reflexivity|reflexivity]. }
    intros H. apply NoDup_Permutation.
    + apply (NoDup_map_inv fst). exact Nx.
    + apply (NoDup_map_inv fst). exact Ny.
    + intros [k s]. rewrite <- !dget_In_iff by assumption. rewrite (H k). reflexivity.
  - apply vars_proper; [exact Nx|]. intros k s Hs. apply (R k). apply in_or_app. left; exact Hs.
  - apply vars_proper; [exact Ny|]. intros k s Hs. apply (R k). apply in_or_app. right; exact Hs.
Qed.
Print Assumptions C69_variables.

(* ---- C56 with this hash: the check compares the values of the variables, not the order in which they are listed ---- *)
Section Rerun.
Context {D G : Type}.
Variables (ha : algorithm -> string) (hd : D -> string) (data : string -> res D) (run : algorithm -> D -> res G).
Variables (ft : fl -> string) (digest : string -> string).
Let hv (d : dict string scalar) := hash_dictionary ft digest (vars_json d).
Definition same_result (L L' : @result G) : Prop :=
  res_graph L' = res_graph L /\ (forall k, dget (res_variables L') k = dget (res_variables L) k) /\ res_data_hash L' = res_data_hash L /\ res_alg_hash L' = res_alg_hash L /\ res_vars_hash L' = res_vars_hash L.
Lemma resolve_nodup vs env : NoDup (dkeys (resolve_variables vs env)).
Proof.
  unfold resolve_variables. assert (N : NoDup (dkeys ([] : dict string scalar))) by constructor. revert N. generalize ([] : dict string scalar) as d. induction vs as [|x vs IH]; intros d N; cbn [fold_left]; [exact N|]. apply IH, NoDup_dset, N.
Qed.
Lemma resolve_values vs env k s : In (k, s) (resolve_variables vs env) -> In (k, s) env \/ exists x, In x vs /\ v_value x = s.
Proof.
  unfold resolve_variables. intros H. assert (A : In (k, s) ([] : dict string scalar) -> In (k, s) env \/ exists x, In x vs /\ v_value x = s) by (intros []). 
  assert (GEN : forall us d, (forall x, In x us -> In x vs) -> (In (k, s) d -> In (k, s) env \/ exists x, In x vs /\ v_value x = s) ->
    In (k, s) (fold_left (fun d x => dset d (v_name x) (match dget env (v_name x) with Some v => v | None => v_value x end)) us d) -> In (k, s) env \/ exists x, In x vs /\ v_value x = s).
  { induction us as [|x us IH]; intros d Hu Hd; cbn [fold_left]; [exact Hd|]. apply IH; [intros y Hy; apply Hu; right; exact Hy|]. intros I.
    assert (C : In (k, s) d \/ (k, s) = (v_name x, match dget env (v_name x) with Some v => v | None => v_value x end)).
    { clear -I. induction d as [|[k' v'] d IH]; cbn in I; [destruct I as [I|[]]; right; congruence|]. destruct (eqb_spec (v_name x) k') as [<-|N].
      - destruct I as [I|I]; [right; congruence|left; right; exact I].
      - destruct I as [I|I]; [left; left; exact I|]. destruct (IH I) as [J|J]; [left; right; exact J|right; exact J]. }
    destruct C as [C|C]; [apply Hd, C|]. injection C as -> ->. destruct (dget env (v_name x)) as [v|] eqn:E; [left; apply dget_In; exact E|right; exists x; split; [apply Hu; left; reflexivity|reflexivity]]. }
  apply (GEN vs []); auto.
Qed.
(* If the check says that nothing changed, executing the experiment again would return the latest result, up to the
   order in which the variables are listed.  What may be assumed of the hashes of algorithm and data is only that
   equal hashes mean equal runs. *)
Theorem C56_skip_sound_json_partial : float_texts reduced ft -> (forall s t, digest s = digest t -> s = t) ->
  (forall x y dt, ha x = ha y -> run x dt = run y dt) -> (forall a x y, hd x = hd y -> run a x = run a y) ->
  forall w ws d ls n e w1 L, dget (experiments ws) n = Some e -> needs_reexecution (G := G) ha hv hd data w ws d ls n = (w1, Ok false) -> load_latest d ls true n = Ok L ->
  (exists w0 ws0 e0 w0', execute_experiment ha hv hd data run w0 ws0 e0 = (w0', Ok L)) ->
  (forall r a, dget (pipelines ws) (e_pipeline e) = Some r -> load_algorithm w r = Ok a -> steps_ok a /\ covers a e) ->
  (forall k s, In (k, s) (res_variables L ++ e_variables e) -> scalar_reduced s) ->
  (forall r a vs x, dget (pipelines ws) (e_pipeline e) = Some r -> load_algorithm w r = Ok a -> a_variables a = Some vs -> In x vs -> scalar_reduced (v_value x)) ->
  exists w2 L', execute_experiment ha hv hd data run w ws e = (w2, Ok L') /\ same_result L L'.
Proof.
  intros FT CF IA ID w ws d ls n e w1 L En H HL (w0 & ws0 & e0 & w0' & X) C R1 R2. apply execute_inv in X. destruct X as (r0 & a0 & vs0 & l0 & dt0 & a0' & g & _ & _ & _ & _ & _ & _ & _ & R0 & _ & EL).
  unfold needs_reexecution, check_latest in H. rewrite En in H. destruct (load_versions ls n) as [[|t vs]|]; [discriminate| |discriminate]. rewrite HL in H. subst L. cbn [res_alg_hash res_data_hash res_vars_hash res_variables] in H, R1.
  unfold execute_experiment. destruct (dget (pipelines ws) (e_pipeline e)) as [r|] eqn:Dp; [|discriminate]. destruct (load_algorithm w r) as [a|] eqn:LA; [|discriminate]. destruct (C r a eq_refl LA) as [SO CV]. cbn [rbind] in *.
  unfold variables_of in *. destruct (a_variables a) as [vs1|] eqn:AV; [|discriminate]. cbn [rbind] in *. destruct (validate_variable_values vs1 (e_variables e)) as [[]|] eqn:V; [|discriminate]. cbn [rbind] in *.
  match type of H with context [negb (eqb ?x ?y)] => destruct (eqb_spec x y) as [EV|EV]; cbn [negb] in H; [|discriminate] end.
  assert (EVK : forall k, dget (resolve_variables vs1 (e_variables e)) k = dget (resolve_variables vs0 (e_variables e0)) k).
  { intros k. symmetry. revert k. apply (C69_variables ft digest FT CF); [apply resolve_nodup|apply resolve_nodup| |exact EV].
    intros k s I. apply in_app_or in I. destruct I as [I|I]; [apply (R1 k); apply in_or_app; left; exact I|]. apply resolve_values in I. destruct I as [I|(x & I & <-)]; [apply (R1 k); apply in_or_app; right; exact I|exact (R2 r a vs1 x eq_refl LA AV I)]. }
  rewrite <- (factory_agree a e vs1 SO AV V CV) in H. destruct (graph_model_factory a (Some (e_variables e))) as [a'|]; [|discriminate]. cbn [rbind] in H. injection H as <- H.
  destruct (eqb_spec (ha a0') (ha a')) as [EA|EA]; cbn [negb] in H; [|discriminate]. destruct (dget (dataloaders ws) (e_dataloader e)) as [l|]; [|discriminate]. destruct (data l) as [dt|]; [|discriminate]. cbn [rbind] in H. injection H as H.
  destruct (eqb_spec (hd dt0) (hd dt)) as [EH|EH]; [|discriminate]. cbn [rbind]. rewrite <- (IA a0' a' dt EA), <- (ID a0' dt0 dt EH), R0. cbn [rbind]. eexists; eexists; split; [reflexivity|].
  unfold same_result. cbn [res_graph res_variables res_data_hash res_alg_hash res_vars_hash]. rewrite EA, EH, EV. auto.
Qed.
End Rerun.
Print Assumptions C56_skip_sound_json_partial.

(* ---- concrete cases ---- *)
(* a text for the floats of the model: numerator and denominator *)
Definition demo_float (f : fl) : string := match f with FNum q => (str_Z (Qnum q) ++ "/" ++ str_Z (Zpos (Qden q)))%string | FInf false => "Infinity" | FInf true => "-Infinity" | FNaN => "NaN" end.
Lemma slash_inj (u v r r' : string) : ~ In "/"%char (chars u) -> ~ In "/"%char (chars v) -> (u ++ "/" ++ r = v ++ "/" ++ r')%string -> u = v /\ r = r'.
Proof.
  revert v; induction u as [|a u IH]; intros [|b v] Hu Hv E; cbn [append] in E.
  - injection E as ->. auto.
  - injection E as <- _. exfalso. apply Hv. left; reflexivity.
  - injection E as -> _. exfalso. apply Hu. left; reflexivity.
  - injection E as -> E. destruct (IH v) as [-> ->]; auto; intros I; [apply Hu|apply Hv]; right; exact I.
Qed.
Lemma demo_slash p q : In "/"%char (chars (str_Z p ++ "/" ++ q)%string).
Proof. rewrite chars_app. apply in_or_app. right. left. reflexivity. Qed.
Lemma demo_noslash s : In s ["Infinity"; "-Infinity"; "NaN"] -> ~ In "/"%char (chars s).
Proof. intros H I. repeat (destruct H as [<-|H]; [repeat (destruct I as [I|I]; [discriminate|]); exact I|]). destruct H. Qed.
Lemma demo_texts : float_texts reduced demo_float.
Proof.
  assert (NS : forall z, ~ In "/"%char (chars (str_Z z))) by (intros z; apply numeral_no; reflexivity).
  split; [|split; [|split]].
  - intros f g _ _ E. destruct f as [[p d]|[]|], g as [[p' d']|[]|]; cbn [demo_float Qnum Qden] in E; try reflexivity; try discriminate E;
      try (exfalso; apply (demo_noslash "Infinity"); [cbn; auto|]; first [rewrite E|rewrite <- E]; apply demo_slash);
      try (exfalso; apply (demo_noslash "-Infinity"); [cbn; auto|]; first [rewrite E|rewrite <- E]; apply demo_slash);
      try (exfalso; apply (demo_noslash "NaN"); [cbn; auto|]; first [rewrite E|rewrite <- E]; apply demo_slash).
    apply slash_inj in E; auto. destruct E as [E1 E2]. apply str_Z_inj in E1, E2. injection E2 as ->. subst. reflexivity.
  - intros f _. destruct f as [[p d]|[]|]; cbn [demo_float Qnum Qden]; try (eexists; eexists; split; [reflexivity|cbn; auto 15]).
    destruct (number_head p) as (a & r & E & S). rewrite E. exists a. eexists. split; [reflexivity|exact S].
  - intros f a _ I D. destruct f as [[p d]|[]|]; cbn [demo_float Qnum Qden] in I.
    + rewrite chars_app in I. apply in_app_or in I. destruct I as [I|[<-|I]]; [exact (number_clean p a I D)| |exact (number_clean _ a I D)]. repeat (destruct D as [D|D]; [discriminate D|]). destruct D.
    + repeat (destruct I as [<-|I]; [repeat (destruct D as [D|D]; [discriminate D|]); exact D|]). destruct I.
    + repeat (destruct I as [<-|I]; [repeat (destruct D as [D|D]; [discriminate D|]); exact D|]). destruct I.
    + repeat (destruct I as [<-|I]; [repeat (destruct D as [D|D]; [discriminate D|]); exact D|]). destruct I.
  - intros f z _ E. destruct f as [[p d]|[]|]; cbn [demo_float Qnum Qden] in E.
    + apply (NS z). rewrite <- E. apply demo_slash.
    + assert (N := numeral_no "I"%char z eq_refl). apply N. rewrite <- E. cbn; auto.
    + assert (N := numeral_no "I"%char z eq_refl). apply N. rewrite <- E. cbn; auto.
    + assert (N := numeral_no "N"%char z eq_refl). apply N. rewrite <- E. cbn; auto.
Qed.
(* the number one as an integer, a float, a Boolean and a string gives four hashes; the order of keys does not matter *)
Example C69_nonvacuous : float_texts reduced demo_float /\
  NoDup (map (fun s => hash_dictionary demo_float (fun t => t) (vars_json [("alpha", s)])) [SInt 1; SFloat (FNum 1); SBool true; SStr "1"]) /\
  text demo_float (vars_json [("b", SStr (String (ascii_of_nat 34) (String (ascii_of_nat 10) ""))); ("a", SInt (-12))]) =
    ("{" ++ quoted "a" ++ ":-12," ++ quoted "b" ++ ":" ++ quote ++ "\" ++ quote ++ "\n" ++ quote ++ "}")%string /\
  hash_dictionary demo_float (fun t => t) (vars_json [("b", SInt 2); ("a", SBool true)]) = hash_dictionary demo_float (fun t => t) (vars_json [("a", SBool true); ("b", SInt 2)]) /\
  proper reduced (vars_json [("b", SInt 2); ("a", SFloat (FNum (1 # 2)))]).
Proof.
  split; [exact demo_texts|]. split; [vm_compute; repeat (constructor; [intros I; repeat (destruct I as [I|I]; [discriminate I|]); exact I|]); constructor|]. split; [vm_compute; reflexivity|]. split; [vm_compute; reflexivity|].
  apply vars_proper; [|intros k s [E|[E|[]]]; injection E as _ <-; reflexivity]. repeat (constructor; [intros I; repeat (destruct I as [I|I]; [discriminate I|]); exact I|]). constructor.
Qed.
Definition demo_hash (d : dict string scalar) := hash_dictionary demo_float (fun t => t) (vars_json d).
Example C56_json_nonvacuous : exists L, execute_experiment show demo_hash (fun _ : nat => "h") show_data show_run ws_world (demo (mkRef RName "PC") [("alpha", SInt 3)]) (mkExp "p" "d" [("alpha", SInt 3)]) = (ws_world, Ok L) /\
  needs_reexecution show demo_hash (fun _ : nat => "h") show_data ws_world (demo (mkRef RName "PC") [("alpha", SInt 3)]) [("e_5.json", L)] ["e_5.json"] "e" = (ws_world, Ok false) /\
  needs_reexecution show demo_hash (fun _ : nat => "h") show_data ws_world (demo (mkRef RName "PC") [("alpha", SInt 4)]) [("e_5.json", L)] ["e_5.json"] "e" = (ws_world, Ok true).
Proof. eexists. split; [vm_compute; reflexivity|]. split; vm_compute; reflexivity. Qed.
