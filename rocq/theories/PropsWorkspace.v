(* Property theorems about workspaces (causy/workspaces/cli.py, causy/serialization.py, causy/ui/server.py). *)
From Coq Require Import Ascii Sorting.Sorted Sorting.Permutation.
From Verif Require Import Base PyDict PyDictFacts PyStr PyStrFacts Variables VariableSpec VariableFacts Workspace WorkspaceSpec WorkspaceFacts.
Open Scope string_scope.
Open Scope list_scope.

(* ---- C49: result versions ---- *)
(* The versions of an experiment are exactly the saved times, newest first, whatever else was saved, whatever the
   order in which the directory is listed and whatever is in the directory at the start, as long as no file only
   looks like a result of the experiment. *)
Theorem C49_versions : forall C (d0 : dir C) h ls n, NoDup (dkeys d0) -> (forall f, In f (dkeys d0) -> ~ stray f n) -> Permutation ls (dkeys (saved h d0)) ->
  exists vs, load_versions ls n = Ok vs /\ newest_first vs /\ forall t, In t vs <-> (exists f, In f (dkeys d0) /\ result_of f n t) \/ exists c, In (n, t, c) h.
Proof.
  intros C d0 h ls n N S P. destruct (load_versions_ok ls n) as (vs & E & F & M).
  - eapply Permutation_NoDup; [symmetry; exact P|]. apply saved_nodup. exact N.
  - intros f I. apply (Permutation_in _ P) in I. apply saved_keys in I. destruct I as [I|(m & t & c & _ & ->)]; [apply S; exact I|]. intros (_ & _ & H). apply H. exists m, t. reflexivity.
  - exists vs. split; [exact E|]. split; [exact F|]. intros t. rewrite M. split.
    + intros I. apply (Permutation_in _ P) in I. apply saved_keys in I. destruct I as [I|(m & u & c & I & V)]; [left; exists (version_file n t); split; [exact I|reflexivity]|]. apply version_inj in V. destruct V as [<- <-]. right. exists c. exact I.
    + intros H. apply (Permutation_in _ (Permutation_sym P)). apply saved_keys. destruct H as [(f & I & R)|[c I]]; [left; change (f = version_file n t) in R; subst f; exact I|right; exists n, t, c; auto].
Qed.
Print Assumptions C49_versions.
(* loading a version returns what was saved last for that experiment and time; without such a save it raises *)
Theorem C49_load_version : forall C (d0 : dir C) h ls n t, NoDup (dkeys d0) -> (forall f, In f (dkeys d0) -> ~ stray f n) -> (forall f u, In f (dkeys d0) -> ~ result_of f n u) -> Permutation ls (dkeys (saved h d0)) ->
  (forall c, last_saved h n t c -> load_version (saved h d0) ls true n t = Ok c) /\ ((forall c, ~ In (n, t, c) h) -> load_version (saved h d0) ls true n t = Err ValueError).
Proof.
  intros C d0 h ls n t N S R P. destruct (C49_versions C d0 h ls n N S P) as (vs & E & _ & M). unfold load_version. cbn [negb]. rewrite E. cbn [rbind]. split.
  - intros c L. assert (I : existsb (Z.eqb t) vs = true). { apply existsb_exists. exists t. split; [|apply Z.eqb_refl]. apply M. right. exists c. apply last_saved_In. exact L. }
    rewrite I. unfold read_file. rewrite (saved_last h d0 n t c L). reflexivity.
  - intros H. destruct (existsb (Z.eqb t) vs) eqn:I; [|reflexivity]. exfalso. apply existsb_exists in I. destruct I as (u & I & E'). apply Z.eqb_eq in E'. subst u. apply M in I. destruct I as [(f & I & Q)|[c I]]; [exact (R f t I Q)|exact (H c I)].
Qed.
Print Assumptions C49_load_version.
(* loading the latest returns what was saved last for the greatest time *)
Theorem C49_latest : forall C (d0 : dir C) h ls n, NoDup (dkeys d0) -> (forall f, In f (dkeys d0) -> ~ stray f n) -> (forall f u, In f (dkeys d0) -> ~ result_of f n u) -> Permutation ls (dkeys (saved h d0)) ->
  (forall t c, last_saved h n t c -> (forall t' c', In (n, t', c') h -> Z.le t' t) -> load_latest (saved h d0) ls true n = Ok c) /\
  ((forall t c, ~ In (n, t, c) h) -> load_latest (saved h d0) ls true n = Err ValueError).
Proof.
  intros C d0 h ls n N S R P. destruct (C49_versions C d0 h ls n N S P) as (vs & E & F & M). unfold load_latest. rewrite E. cbn [rbind negb]. split.
  - intros t c L G. assert (I : In t vs) by (apply M; right; exists c; apply last_saved_In; exact L). destruct vs as [|u vs]; [destruct I|].
    assert (u = t). { inversion F; subst. destruct I as [I|I]; [exact I|]. rewrite Forall_forall in H2. specialize (H2 t I). destruct (proj1 (M u) (or_introl eq_refl)) as [(f & I' & Q)|[c' I']]; [destruct (R f u I' Q)|]. specialize (G u c' I'). lia. }
    subst u. unfold read_file. rewrite (saved_last h d0 n t c L). reflexivity.
  - intros H. destruct vs as [|u vs]; [reflexivity|]. exfalso. destruct (proj1 (M u) (or_introl eq_refl)) as [(f & I & Q)|[c I]]; [exact (R f u I Q)|exact (H u c I)].
Qed.
Print Assumptions C49_latest.
(* clearing removes the results of the experiment, nothing else, and reports their number *)
Theorem C49_clear : forall C (d : dir C) ls n, NoDup (dkeys d) -> (forall f, In f (dkeys d) -> ~ stray f n) -> Permutation ls (dkeys d) ->
  exists d' vs, clear_experiment d ls n = (d', Ok (List.length vs)) /\ NoDup vs /\ (forall t, In t vs <-> exists f, In f (dkeys d) /\ result_of f n t) /\
  (forall f, (exists t, result_of f n t) -> dget d' f = None) /\ (forall f, (forall t, ~ result_of f n t) -> dget d' f = dget d f).
Proof.
  intros C d ls n N S P. destruct (load_versions_ok ls n) as (vs & E & F & M).
  - eapply Permutation_NoDup; [symmetry; exact P|exact N].
  - intros f I. apply S. apply (Permutation_in _ P). exact I.
  - assert (M' : forall t, In t vs <-> In (version_file n t) (dkeys d)). { intros t. rewrite M. split; apply Permutation_in; [exact P|symmetry; exact P]. }
    assert (NV : NoDup vs). { clear - F. induction F as [|x l S IH H]; constructor; [|exact IH]. intros I. rewrite Forall_forall in H. specialize (H x I). lia. }
    destruct (remove_versions_spec n vs d N NV (fun t => proj1 (M' t))) as [A B]. unfold clear_experiment. rewrite E. destruct (remove_versions d n vs) as [d' k]. cbn [fst snd] in A, B. subst k. exists d', vs.
    split; [reflexivity|]. split; [exact NV|]. split; [|split].
    + intros t. rewrite M'. split; [intros I; exists (version_file n t); split; [exact I|reflexivity]|]. intros (f & I & R). change (f = version_file n t) in R. subst f. exact I.
    + intros f [t R]. change (f = version_file n t) in R. subst f. rewrite B. destruct (existsb (fun u => eqb (version_file n t) (version_file n u)) vs) eqn:X; [reflexivity|]. apply dget_None. intros I. apply M' in I.
      assert (existsb (fun u => eqb (version_file n t) (version_file n u)) vs = true) by (apply existsb_exists; exists t; split; [exact I|apply eqb_refl]). congruence.
    + intros f H. rewrite B. destruct (existsb (fun u => eqb f (version_file n u)) vs) eqn:X; [|reflexivity]. exfalso. apply existsb_exists in X. destruct X as (u & _ & X). destruct (eqb_spec f (version_file n u)) as [->|]; [|discriminate]. apply (H u). reflexivity.
Qed.
Print Assumptions C49_clear.
(* a file that only looks like a result breaks listing, or is listed as a version that does not exist *)
Theorem C49_stray_refuted : (exists (d : dir nat) ls n, Permutation ls (dkeys d) /\ In (version_file n 5) (dkeys d) /\ load_versions ls n = Err ValueError) /\
  (exists (d : dir nat) ls n t, Permutation ls (dkeys d) /\ load_versions ls n = Ok [t] /\ load_latest d ls true n = Err FileNotFound).
Proof.
  split.
  - exists [("exp_5.json", 0); ("exp_notes.json", 1)], ["exp_5.json"; "exp_notes.json"], "exp". repeat (split; [try reflexivity; left; reflexivity|]). vm_compute; reflexivity.
  - exists [("exp_5.bak.json", 0)], ["exp_5.bak.json"], "exp", 5%Z. split; [reflexivity|]. split; vm_compute; reflexivity.
Qed.
Print Assumptions C49_stray_refuted.
Example C49_nonvacuous : let h := [("pc", 7%Z, 1); ("pc_2", 9%Z, 2); ("pc", 12%Z, 3); ("pc", 12%Z, 4)] in let d := saved h [("workspace.yml", 0)] in
  dkeys d = ["workspace.yml"; "pc_7.json"; "pc_2_9.json"; "pc_12.json"] /\ (forall f, In f ["workspace.yml"] -> ~ stray f "pc") /\ load_versions (rev (dkeys d)) "pc" = Ok [12; 7]%Z /\
  load_versions (dkeys d) "pc_2" = Ok [9]%Z /\ load_latest d (dkeys d) true "pc" = Ok 4 /\ last_saved h "pc" 12 4 /\ clear_experiment d (dkeys d) "pc" = ([("workspace.yml", 0); ("pc_2_9.json", 2)], Ok 2).
Proof.
  cbv zeta. split; [reflexivity|]. split; [intros f [<-|[]] ([x X] & _); discriminate|]. repeat (split; [vm_compute; reflexivity|]). split; [|vm_compute; reflexivity]. exists [("pc", 7%Z, 1); ("pc_2", 9%Z, 2); ("pc", 12%Z, 3)], []. split; [reflexivity|]. intros c [].
Qed.

(* ---- C50: references between the parts of a workspace ---- *)
Lemma In_keys_ddel {V} (d : dict string V) k k' : In k' (dkeys d) -> k' <> k -> In k' (dkeys (ddel d k)).
Proof. intros I N. apply dmem_In. apply dmem_In in I. unfold dmem in *. rewrite dget_ddel_other by exact N. exact I. Qed.
Lemma dget_ddel_Some {V} (d : dict string V) k k' v : NoDup (dkeys d) -> dget (ddel d k) k' = Some v -> dget d k' = Some v.
Proof. intros N. rewrite dget_ddel by exact N. destruct (eqb k' k); [discriminate|auto]. Qed.
Definition keys_unique (ws : workspace) : Prop := NoDup (dkeys (experiments ws)).
Lemma run_command_refs slug w ws c ws' : keys_unique ws -> refs_valid ws -> run_command slug w ws c = Ok ws' -> keys_unique ws' /\ refs_valid ws'.
Proof.
  intros K V H. unfold keys_unique, refs_valid in *. destruct c; cbn [run_command] in H.
  - destruct (dget (w_lib w) algorithm_name); [|discriminate]. injection H as <-. split; [exact K|]. intros n e E. destruct (V n e E) as [A B]. split; [apply In_dkeys_dset; right; exact A|exact B].
  - destruct (dget (w_lib w) algorithm_name); [|discriminate]. injection H as <-. split; [exact K|]. intros n e E. destruct (V n e E) as [A B]. split; [apply In_dkeys_dset; right; exact A|exact B].
  - injection H as <-. split; [exact K|]. intros n e E. destruct (V n e E) as [A B]. split; [apply In_dkeys_dset; right; exact A|exact B].
  - destruct (dmem (pipelines ws) name); cbn [negb] in H; [|injection H as <-; auto]. destruct (uses_pipeline ws name) eqn:U; [injection H as <-; auto|]. injection H as <-. split; [exact K|]. intros n e E. cbn [experiments set_pipelines] in E. destruct (V n e E) as [A B]. split; [|exact B].
    apply In_keys_ddel; [exact A|]. intros X. apply dget_In in E. unfold uses_pipeline in U. assert (existsb (fun x => eqb (e_pipeline (snd x)) name) (experiments ws) = true); [|congruence]. apply existsb_exists. exists (n, e). split; [exact E|]. cbn. rewrite X. apply eqb_refl.
  - destruct (dmem (dataloaders ws) dataloader) eqn:DL; cbn [negb] in H; [|discriminate]. destruct (dget (pipelines ws) pipeline) as [r|] eqn:DP; [|discriminate].
    destruct (load_algorithm w r) as [a|]; [|discriminate]. cbn [rbind] in H. destruct (variables_of a) as [vs|]; [|discriminate]. cbn [rbind] in H. injection H as <-. split; [apply NoDup_dset; exact K|]. intros n e E. cbn [experiments set_experiments] in E. rewrite dget_dset in E.
    destruct (eqb n (slug name)); [|exact (V n e E)]. injection E as <-. cbn. split; [|apply dmem_In; exact DL]. apply dmem_In. unfold dmem. rewrite DP. reflexivity.
  - destruct (dmem (experiments ws) name); cbn [negb] in H; injection H as <-; [|auto]. split; [apply NoDup_ddel; exact K|]. intros n e E. cbn [experiments set_experiments] in E. apply dget_ddel_Some in E; [|exact K]. exact (V n e E).
  - injection H as <-. auto.
  - destruct (dget (experiments ws) name) as [e0|] eqn:E0; [|injection H as <-; auto]. destruct (dget (pipelines ws) (e_pipeline e0)) as [r|]; [|discriminate]. destruct (load_algorithm w r) as [a|]; [|discriminate]. cbn [rbind] in H.
    destruct (variables_of a) as [vs|]; [|discriminate]. cbn [rbind] in H. destruct (find_variable vs variable); [|injection H as <-; auto]. destruct (validate_variable_values vs [(variable, value)]); [|discriminate]. cbn [rbind] in H. injection H as <-.
    split; [apply NoDup_dset; exact K|]. intros n e E. cbn [experiments set_experiments] in E. rewrite dget_dset in E. destruct (eqb n name); [|exact (V n e E)]. injection E as <-. exact (V name e0 E0).
  - injection H as <-. split; [exact K|]. intros n e E. destruct (V n e E) as [A B]. split; [exact A|apply In_dkeys_dset; right; exact B].
  - destruct (dmem (dataloaders ws) name); cbn [negb] in H; [|injection H as <-; auto]. destruct (uses_dataloader ws name) eqn:U; [injection H as <-; auto|]. injection H as <-. split; [exact K|]. intros n e E. cbn [experiments set_dataloaders] in E. destruct (V n e E) as [A B]. split; [exact A|].
    apply In_keys_ddel; [exact B|]. intros X. apply dget_In in E. unfold uses_dataloader in U. assert (existsb (fun x => eqb (e_dataloader (snd x)) name) (experiments ws) = true); [|congruence]. apply existsb_exists. exists (n, e). split; [exact E|]. cbn. rewrite X. apply eqb_refl.
Qed.
(* after any session, from a workspace that was fine, every experiment refers to an existing pipeline and data
   loader; the world (files, modules, algorithms) may change arbitrarily between the commands *)
Theorem C50_references : forall slug cs ws, NoDup (dkeys (experiments ws)) -> refs_valid ws -> refs_valid (session slug ws cs).
Proof.
  intros slug cs ws K V. assert (G : keys_unique (session slug ws cs) /\ refs_valid (session slug ws cs)); [|apply G]. revert ws K V. induction cs as [|[w c] cs IH]; intros ws K V; [split; assumption|].
  cbn [session fold_left fst snd]. destruct (run_command slug w ws c) as [ws'|e] eqn:E; [|apply IH; assumption]. destruct (run_command_refs slug w ws c ws' K V E) as [K' V']. apply IH; assumption.
Qed.
Print Assumptions C50_references.
Theorem C50_from_empty : forall slug cs, refs_valid (session slug empty_workspace cs).
Proof. intros. apply C50_references; [constructor|]. intros n e E. discriminate. Qed.
Print Assumptions C50_from_empty.
(* the user values of an experiment fit the variables of its pipeline *)
Definition values_valid (w : world) (ws : workspace) : Prop := forall n e r a vs, dget (experiments ws) n = Some e -> dget (pipelines ws) (e_pipeline e) = Some r -> load_algorithm w r = Ok a -> a_variables a = Some vs ->
  validate_variable_values vs (e_variables e) = Ok tt.
Definition defaults_valid (w : world) : Prop := forall r a vs x, load_algorithm w r = Ok a -> a_variables a = Some vs -> In x vs -> accepts x (v_value x).
Definition new_pipeline (slug : string -> string) (c : command) : option string := match c with AddPreconfigured _ n | AddSkeleton n => Some (slug n) | AddEjected _ n => Some n | _ => None end.
Lemma resolve_nodup vs values : NoDup (dkeys (resolve_variables vs values)).
Proof.
  unfold resolve_variables. assert (G : forall vs d, NoDup (dkeys d) -> NoDup (dkeys (fold_left (fun d x => dset d (v_name x) (match dget values (v_name x) with Some v => v | None => v_value x end)) vs d))).
  { induction vs0 as [|x l IH]; intros d N; [exact N|]. apply IH, NoDup_dset, N. } apply G. constructor.
Qed.
Lemma defaults_validated vs : (forall x, In x vs -> accepts x (v_value x)) -> validate_variable_values vs (resolve_variables vs []) = Ok tt.
Proof.
  intros D. apply validate_items_ok. intros n v I. apply NoDup_dget in I; [|apply resolve_nodup]. destruct (in_dec string_dec n (map v_name vs)) as [J|J]; [|rewrite resolve_undeclared in I by exact J; discriminate].
  apply declared_In in J. destruct J as [x Hx]. rewrite (resolve_declared _ _ _ _ Hx) in I. cbn in I. injection I as <-. exists x. split; [apply by_name_iff; exact Hx|]. apply D. destruct Hx as (p & q & -> & _). apply in_or_app. right; left; reflexivity.
Qed.
Lemma In_dset {V} (d : dict string V) k v p : In p (dset d k v) -> In p d \/ p = (k, v).
Proof. induction d as [|[k0 v0] d IH]; cbn [dset In]; [intros [H|[]]; auto|]. destruct (eqb_spec k k0) as [->|N]; cbn [In]; [intros [H|H]; auto|intros [H|H]; [auto|destruct (IH H); auto]]. Qed.
(* Commands keep the values valid, unless a new pipeline takes the name of one that an experiment uses (the commands
   do not check that; see C50_values_refuted). *)
Theorem C50_values_partial : forall slug w ws c ws', keys_unique ws -> defaults_valid w -> values_valid w ws ->
  (forall p n e, new_pipeline slug c = Some p -> dget (experiments ws) n = Some e -> e_pipeline e <> p) -> run_command slug w ws c = Ok ws' -> values_valid w ws'.
Proof.
  intros slug w ws c ws' K DV V NP H. unfold values_valid in *.
  assert (PN : forall p r0, new_pipeline slug c = Some p -> ws' = set_pipelines ws (dset (pipelines ws) p r0) -> forall n e r a vs, dget (experiments ws') n = Some e -> dget (pipelines ws') (e_pipeline e) = Some r -> load_algorithm w r = Ok a -> a_variables a = Some vs -> validate_variable_values vs (e_variables e) = Ok tt).
  { intros p r0 E -> n e r a vs En Er. cbn in En, Er. rewrite dget_dset_other in Er by (eapply NP; eassumption). eapply V; eassumption. }
  destruct c; cbn [run_command] in H.
  - destruct (dget (w_lib w) algorithm_name); [|discriminate]. injection H as H. eapply PN; [reflexivity|symmetry; exact H].
  - destruct (dget (w_lib w) algorithm_name); [|discriminate]. injection H as H. eapply PN; [reflexivity|symmetry; exact H].
  - injection H as H. eapply PN; [reflexivity|symmetry; exact H].
  - destruct (dmem (pipelines ws) name); cbn [negb] in H; [|injection H as <-; exact V]. destruct (uses_pipeline ws name) eqn:U; [injection H as <-; exact V|]. injection H as <-. intros n e r a vs En Er. cbn in En, Er. apply (V n e r a vs En).
    destruct (eqb_spec (e_pipeline e) name) as [X|X]; [|rewrite dget_ddel_other in Er by exact X; exact Er]. exfalso. apply dget_In in En. unfold uses_pipeline in U.
    assert (existsb (fun x => eqb (e_pipeline (snd x)) name) (experiments ws) = true); [|congruence]. apply existsb_exists. exists (n, e). split; [exact En|]. cbn. rewrite X. apply eqb_refl.
  - destruct (dmem (dataloaders ws) dataloader) eqn:DL; cbn [negb] in H; [|discriminate]. destruct (dget (pipelines ws) pipeline) as [r0|] eqn:DP; [|discriminate].
    destruct (load_algorithm w r0) as [a0|] eqn:LA; [|discriminate]. cbn [rbind] in H. unfold variables_of in H. destruct (a_variables a0) as [vs0|] eqn:AV; [|discriminate]. cbn [rbind] in H. injection H as <-. intros n e r a vs En Er La Va. cbn in En, Er. rewrite dget_dset in En.
    destruct (eqb n (slug name)); [|eapply V; eassumption]. injection En as <-. cbn in Er |- *. rewrite DP in Er. injection Er as <-. rewrite LA in La. injection La as <-. rewrite AV in Va. injection Va as <-. apply defaults_validated. intros x I. eapply DV; eassumption.
  - destruct (dmem (experiments ws) name); cbn [negb] in H; injection H as <-; [|exact V]. intros n e r a vs En. cbn in En. apply dget_ddel_Some in En; [|exact K]. apply (V n e r a vs En).
  - injection H as <-. exact V.
  - destruct (dget (experiments ws) name) as [e0|] eqn:E0; [|injection H as <-; exact V]. destruct (dget (pipelines ws) (e_pipeline e0)) as [r0|] eqn:DP; [|discriminate]. destruct (load_algorithm w r0) as [a0|] eqn:LA; [|discriminate]. cbn [rbind] in H.
    unfold variables_of in H. destruct (a_variables a0) as [vs0|] eqn:AV; [|discriminate]. cbn [rbind] in H. destruct (find_variable vs0 variable); [|injection H as <-; exact V]. destruct (validate_variable_values vs0 [(variable, value)]) as [[]|] eqn:VV; [|discriminate]. cbn [rbind] in H. injection H as <-.
    intros n e r a vs En Er La Va. cbn in En, Er. rewrite dget_dset in En. destruct (eqb n name); [|eapply V; eassumption]. injection En as <-. cbn in Er |- *. rewrite DP in Er. injection Er as <-. rewrite LA in La. injection La as <-. rewrite AV in Va. injection Va as <-.
    assert (V0 := V name e0 r0 a0 vs0 E0 DP LA AV). apply validate_items_ok. intros m u I. apply In_dset in I. destruct I as [I|I].
    + exact (proj1 (validate_items_ok _ _) V0 m u I).
    + injection I as -> ->. exact (proj1 (validate_items_ok _ _) VV variable value (or_introl eq_refl)).
  - injection H as <-. exact V.
  - destruct (dmem (dataloaders ws) name); cbn [negb] in H; [|injection H as <-; exact V]. destruct (uses_dataloader ws name) eqn:U; injection H as <-; exact V.
Qed.
Print Assumptions C50_values_partial.
Definition ws_alg (n : string) (z : Z) : algorithm := mkAlgo [VObj false [("threshold", VRef n)]] (Some [mkVar n TyInteger (SInt z) None]).
Definition ws_world : world := mkWorld "/w" (fun s => s) [("PC", ws_alg "alpha" 1); ("FCI", ws_alg "beta" 1)] (fun _ => Err FileNotFound) [("mine.PIPELINE", ws_alg "alpha" 1)].
(* an experiment keeps its values when the pipeline of the same name is replaced: then they no longer fit, and the
   experiment can no longer be executed *)
Theorem C50_values_refuted : exists w cs ws, ws = session (fun s => s) empty_workspace (map (fun c => (w, c)) cs) /\ defaults_valid w /\ ~ values_valid w ws.
Proof.
  exists ws_world, [AddDataLoader "d" "data.json"; AddPreconfigured "PC" "p"; AddExperiment "e" "p" "d"; AddPreconfigured "FCI" "p"]. eexists. split; [reflexivity|]. split.
  - intros r a vs x L A I. unfold load_algorithm in L. destruct (r_type r); cbn in L.
    + destruct (path_allowed "/w" (r_ref r)); discriminate.
    + destruct (eqb (r_ref r) "PC"); [|destruct (eqb (r_ref r) "FCI"); [|discriminate]]; injection L as <-; injection A as <-; destruct I as [<-|[]]; (split; [constructor|exact Logic.I]).
    + destruct (eqb (r_ref r) "mine.PIPELINE"); [|discriminate]; injection L as <-; injection A as <-; destruct I as [<-|[]]; (split; [constructor|exact Logic.I]).
  - intros V. specialize (V "e" (mkExp "p" "d" [("alpha", SInt 1)]) (mkRef RName "FCI") (ws_alg "beta" 1) [mkVar "beta" TyInteger (SInt 1) None] eq_refl eq_refl eq_refl eq_refl). vm_compute in V. discriminate.
Qed.
Print Assumptions C50_values_refuted.
Example C50_nonvacuous : let ws := session (fun s => s) empty_workspace (map (fun c => (ws_world, c)) [AddDataLoader "d" "data.json"; AddPreconfigured "PC" "p"; AddExperiment "e" "p" "d"; UpdateVariable "e" "alpha" (SInt 3); UpdateVariable "e" "alpha" (SBool true); RemovePipeline "p"; RemoveDataLoader "d"]) in
  ws = mkWs [("p", mkRef RName "PC")] [("d", "data.json")] [("e", mkExp "p" "d" [("alpha", SInt 3)])] /\
  session (fun s => s) ws [(ws_world, RemoveExperiment "e"); (ws_world, RemovePipeline "p")] = mkWs [] [("d", "data.json")] [].
Proof. split; vm_compute; reflexivity. Qed.

(* ---- C51: files outside the working directory ---- *)
(* the check compares characters, not components: a neighbouring directory whose name starts with the name of the
   working directory is accepted *)
Theorem C51_prefix_refuted : exists cwd ref, path_components cwd /\ path_allowed (abs_path cwd) (realpath cwd ref) = true /\ ~ inside (abs_path cwd) (realpath cwd ref).
Proof.
  exists ["w"], "../w-evil/x.json". split; [split; [discriminate|]|split].
  - intros c [<-|[]]. repeat (split; [discriminate|]). intros [H|[]]. discriminate.
  - vm_compute; reflexivity.
  - intros [H|[r H]]; vm_compute in H; discriminate.
Qed.
Print Assumptions C51_prefix_refuted.
(* what the check does give: the path starts with the characters of the working directory, and nothing inside is
   refused *)
Theorem C51_confined_partial : forall w r a, r_type r = RFile -> load_algorithm w r = Ok a -> exists t, w_real w (r_ref r) = (w_cwd w ++ t)%string /\ w_file w (w_real w (r_ref r)) = Ok a.
Proof.
  intros w r a T. unfold load_algorithm. rewrite T. unfold path_allowed. destruct (eqb_spec (commonprefix (w_cwd w) (w_real w (r_ref r))) (w_cwd w)) as [E|E]; [|discriminate]. intros H. apply commonprefix_iff in E. destruct E as [t E]. exists t. auto.
Qed.
Print Assumptions C51_confined_partial.
Theorem C51_inside_accepted : forall w r, r_type r = RFile -> inside (w_cwd w) (w_real w (r_ref r)) -> load_algorithm w r = w_file w (w_real w (r_ref r)).
Proof.
  intros w r T H. unfold load_algorithm. rewrite T. assert (E : path_allowed (w_cwd w) (w_real w (r_ref r)) = true); [|rewrite E; reflexivity]. unfold path_allowed. assert (Q : commonprefix (w_cwd w) (w_real w (r_ref r)) = w_cwd w); [|rewrite Q; apply eqb_refl]. apply commonprefix_iff.
  destruct H as [H|[t H]]; rewrite H; [exists ""; rewrite app_nil_s; reflexivity|exists ("/" ++ t)%string; reflexivity].
Qed.
Print Assumptions C51_inside_accepted.
(* the web server refuses more: without symbolic links the file it opens is inside the working directory *)
Theorem C51_server_confined : forall cwd w r a, path_components cwd -> w_cwd w = abs_path cwd -> w_real w = realpath cwd -> r_type r = RFile ->
  server_get_algorithm w r = Ok a -> inside (w_cwd w) (w_real w (r_ref r)) /\ w_file w (w_real w (r_ref r)) = Ok a.
Proof.
  intros cwd w r a PC EC ER T. unfold server_get_algorithm. destruct (startswith (r_ref r) "/") eqn:S; [discriminate|]. cbn [orb]. destruct (contains ".." (r_ref r)) eqn:D; [discriminate|]. destruct (load_algorithm w r) as [a'|] eqn:L; [|discriminate]. intros H. injection H as <-.
  assert (I : inside (w_cwd w) (w_real w (r_ref r))).
  { rewrite EC, ER. unfold realpath. rewrite S. destruct (path_steps_grow (split slash (r_ref r))) with (cur := cwd) as [t E].
    - intros c I ->. apply split_In_sub in I. destruct I as (p & q & I). rewrite I, contains_sub in D. discriminate.
    - rewrite E. apply abs_path_app. apply PC. }
  split; [exact I|]. rewrite C51_inside_accepted in L by assumption. exact L.
Qed.
Print Assumptions C51_server_confined.
Example C51_nonvacuous : let w := mkWorld "/home/w" (realpath ["home"; "w"]) [] (fun f => if eqb f "/home/w/algs/pc.json" then Ok (ws_alg "alpha" 1) else Err FileNotFound) [] in
  server_get_algorithm w (mkRef RFile "algs/./pc.json") = Ok (ws_alg "alpha" 1) /\ server_get_algorithm w (mkRef RFile "../w/algs/pc.json") = Err (OtherError 400) /\
  load_algorithm w (mkRef RFile "../w/algs/pc.json") = Ok (ws_alg "alpha" 1) /\ load_algorithm w (mkRef RFile "../../etc/passwd") = Err ValueError /\ path_components ["home"; "w"].
Proof.
  cbv zeta. repeat (split; [vm_compute; reflexivity|]). split; [discriminate|]. intros c [<-|[<-|[]]]; (repeat (split; [discriminate|])); cbn; intros H; repeat (destruct H as [H|H]; [discriminate|]); destruct H.
Qed.

(* ---- C56: the check whether an experiment must be executed again ---- *)
Section Rerun.
Context {D G : Type}.
Variables (ha : algorithm -> string) (hv : dict string scalar -> string) (hd : D -> string) (data : string -> res D) (run : algorithm -> D -> res G).
Notation execute := (execute_experiment ha hv hd data run).
Notation needs := (needs_reexecution (G := G) ha hv hd data).
Lemma execute_inv w ws e w1 L : execute w ws e = (w1, Ok L) -> exists r a vs l dt a' g, dget (pipelines ws) (e_pipeline e) = Some r /\ load_algorithm w r = Ok a /\ a_variables a = Some vs /\ validate_variable_values vs (e_variables e) = Ok tt /\
  dget (dataloaders ws) (e_dataloader e) = Some l /\ data l = Ok dt /\ graph_model_factory a (Some (e_variables e)) = Ok a' /\ run a' dt = Ok g /\ w1 = after_factory w r (Ok a') /\
  L = mkResult g (resolve_variables vs (e_variables e)) (Some (hd dt)) (Some (ha a')) (Some (hv (resolve_variables vs (e_variables e)))).
Proof.
  unfold execute_experiment. destruct (dget (pipelines ws) (e_pipeline e)) as [r|]; [|discriminate]. destruct (load_algorithm w r) as [a|] eqn:LA; [|discriminate]. cbn [rbind]. unfold variables_of. destruct (a_variables a) as [vs|] eqn:AV; [|discriminate]. cbn [rbind].
  destruct (validate_variable_values vs (e_variables e)) as [[]|] eqn:V; [|discriminate]. cbn [rbind]. destruct (dget (dataloaders ws) (e_dataloader e)) as [l|]; [|discriminate]. destruct (data l) as [dt|] eqn:DT; [|discriminate].
  destruct (graph_model_factory a (Some (e_variables e))) as [a'|] eqn:F; [|discriminate]. cbn [rbind]. destruct (run a' dt) as [g|] eqn:R; [|discriminate]. cbn [rbind]. intros H. injection H as <- <-. exists r, a, vs, l, dt, a', g. repeat (split; [first [reflexivity|assumption]|]). reflexivity.
Qed.
(* If the hashes do not collide and the check says that nothing changed, executing the experiment again would return
   the latest result, unless the experiment leaves out a variable that its pipeline refers to. *)
Theorem C56_skip_sound_partial : (forall x y, ha x = ha y -> x = y) -> (forall x y, hv x = hv y -> x = y) -> (forall x y, hd x = hd y -> x = y) ->
  forall w ws d ls n e w1 L, dget (experiments ws) n = Some e -> needs w ws d ls n = (w1, Ok false) -> load_latest d ls true n = Ok L -> (exists w0 ws0 e0 w0', execute w0 ws0 e0 = (w0', Ok L)) ->
  (forall r a, dget (pipelines ws) (e_pipeline e) = Some r -> load_algorithm w r = Ok a -> steps_ok a /\ covers a e) -> exists w2, execute w ws e = (w2, Ok L).
Proof.
  intros IA IV ID w ws d ls n e w1 L En H HL (w0 & ws0 & e0 & w0' & X) C. apply execute_inv in X. destruct X as (r0 & a0 & vs0 & l0 & dt0 & a0' & g & _ & _ & _ & _ & _ & _ & _ & R0 & _ & EL).
  unfold needs_reexecution, check_latest in H. rewrite En in H. destruct (load_versions ls n) as [[|t vs]|]; [discriminate| |discriminate]. rewrite HL in H. subst L. cbn [res_alg_hash res_data_hash res_vars_hash] in H.
  unfold execute_experiment. destruct (dget (pipelines ws) (e_pipeline e)) as [r|] eqn:Dp; [|discriminate]. destruct (load_algorithm w r) as [a|] eqn:LA; [|discriminate]. destruct (C r a eq_refl LA) as [SO CV]. cbn [rbind] in *.
  unfold variables_of in *. destruct (a_variables a) as [vs1|] eqn:AV; [|discriminate]. cbn [rbind] in *. destruct (validate_variable_values vs1 (e_variables e)) as [[]|] eqn:V; [|discriminate]. cbn [rbind] in *.
  match type of H with context [negb (eqb ?x ?y)] => destruct (eqb_spec x y) as [EV|EV]; cbn [negb] in H; [|discriminate] end. apply IV in EV.
  rewrite <- (factory_agree a e vs1 SO AV V CV) in H. destruct (graph_model_factory a (Some (e_variables e))) as [a'|]; [|discriminate]. cbn [rbind] in H. injection H as <- H.
  destruct (eqb_spec (ha a0') (ha a')) as [EA|EA]; cbn [negb] in H; [|discriminate]. apply IA in EA. subst a0'. destruct (dget (dataloaders ws) (e_dataloader e)) as [l|]; [|discriminate]. destruct (data l) as [dt|]; [|discriminate]. cbn [rbind] in H. injection H as H.
  destruct (eqb_spec (hd dt0) (hd dt)) as [EH|EH]; [|discriminate]. apply ID in EH. subst dt0. cbn [rbind]. rewrite R0. cbn [rbind]. eexists. rewrite EV. reflexivity.
Qed.
(* After a run whose result is the newest saved one, the check finds nothing to do, under the same restriction. *)
Theorem C56_fresh_partial : forall w ws n e d ls t w1 L, dget (experiments ws) n = Some e -> execute w ws e = (w1, Ok L) ->
  (forall r a, dget (pipelines ws) (e_pipeline e) = Some r -> load_algorithm w r = Ok a -> steps_ok a /\ covers a e) ->
  NoDup (dkeys d) -> (forall f, In f (dkeys d) -> ~ stray f n) -> (forall f u, In f (dkeys d) -> result_of f n u -> Z.le u t) -> Permutation ls (dkeys (save_result d n t L)) ->
  exists w2, needs w1 ws (save_result d n t L) ls n = (w2, Ok false).
Proof.
  intros w ws n e d ls t w1 L En X C N S T P. apply execute_inv in X. destruct X as (r & a & vs & l & dt & a' & g & Dp & LA & AV & V & Dl & DT & F & R & -> & ->).
  destruct (C r a Dp LA) as [SO CV]. set (L := mkResult _ _ _ _ _) in *.
  destruct (C49_versions _ d [(n, t, L)] ls n N S P) as (us & EU & FU & MU). destruct us as [|u us].
  { exfalso. destruct (proj2 (MU t)). right. exists L. left; reflexivity. }
  assert (u = t). { inversion FU as [|? ? ? FA]; subst. destruct (proj2 (MU t)) as [Et|It]; [right; exists L; left; reflexivity|exact Et|]. rewrite Forall_forall in FA. specialize (FA t It). destruct (proj1 (MU u) (or_introl eq_refl)) as [(f & If & Rf)|[c [Ic|[]]]]; [|injection Ic; auto]. specialize (T f u If Rf). lia. }
  subst u. assert (LL : load_latest (save_result d n t L) ls true n = Ok L). { unfold load_latest. rewrite EU. cbn [rbind negb]. unfold read_file, save_result. fold (version_file n t). rewrite dget_dset_same. reflexivity. }
  unfold needs_reexecution, check_latest. rewrite En, EU, LL, Dp. unfold L at 1 2 3. cbn [res_alg_hash res_data_hash res_vars_hash].
  assert (LA' : exists a1, load_algorithm (after_factory w r (Ok a')) r = Ok a1 /\ a_variables a1 = Some vs /\ graph_model_factory a1 (Some (resolve_variables vs (e_variables e))) = Ok a').
  { rewrite after_get_mod. rewrite (factory_agree a e vs SO AV V CV) in F. destruct (match r_type r with RModule => _ | _ => _ end); [|exists a; auto]. exists a'. split; [reflexivity|]. split; [rewrite (factory_vars _ _ _ F); exact AV|].
    destruct (resolve_variables vs (e_variables e)) as [|p q] eqn:RV; [reflexivity|]. destruct (factory_closed a (p :: q) a' SO F) as [S1 C1]; [discriminate|]. apply factory_same; assumption. }
  destruct LA' as (a1 & -> & AV1 & F1). cbn [rbind]. unfold variables_of. rewrite AV1. cbn [rbind]. rewrite V. cbn [rbind]. rewrite eqb_refl. cbn [negb]. rewrite F1. cbn [rbind]. rewrite eqb_refl. cbn [negb]. rewrite Dl, DT. cbn [rbind]. rewrite eqb_refl. eexists. reflexivity.
Qed.

(* ---- C57: earlier runs in the same process ---- *)
Lemma later_load r w w' : r_type r <> RModule -> later ha hv hd data run w w' -> load_algorithm w' r = load_algorithm w r.
Proof.
  intros T H. induction H as [w|w w1 ws e o w2 E H IH|w w1 ws d ls n o w2 E H IH]; [reflexivity| |]; rewrite IH; clear IH H.
  - unfold execute_experiment in E. destruct (dget (pipelines ws) (e_pipeline e)) as [r0|]; [|injection E as <- _; reflexivity]. destruct (rbind (load_algorithm w r0) _) as [[a vs]|]; [|injection E as <- _; reflexivity].
    destruct (dget (dataloaders ws) (e_dataloader e)) as [l|]; [|injection E as <- _; reflexivity]. destruct (data l); [|injection E as <- _; reflexivity]. injection E as <- _. apply after_get; exact T.
  - unfold needs_reexecution, check_latest in E. destruct (dget (experiments ws) n) as [e|]; [|injection E as <- _; reflexivity]. destruct (load_versions ls n) as [[|t vs]|]; try (injection E as <- _; reflexivity). destruct (load_latest d ls true n) as [L|]; [|injection E as <- _; reflexivity].
    destruct (res_alg_hash L); [|injection E as <- _; reflexivity]. destruct (res_data_hash L); [|injection E as <- _; reflexivity]. destruct (dget (pipelines ws) (e_pipeline e)) as [r0|]; [|injection E as <- _; reflexivity].
    destruct (rbind (load_algorithm w r0) _) as [[a vs']|]; [|injection E as <- _; reflexivity]. match type of E with (if ?b then _ else _) = _ => destruct b; [injection E as <- _; reflexivity|] end. injection E as <- _. apply after_get; exact T.
Qed.
Lemma later_closed r a w w' : steps_ok a -> closed a -> load_algorithm w r = Ok a -> later ha hv hd data run w w' -> load_algorithm w' r = Ok a.
Proof.
  intros S CL LA H. revert LA. induction H as [w|w w1 ws e o w2 E H IH|w w1 ws d ls n o w2 E H IH]; intros LA; [exact LA| |]; apply IH; clear IH H.
  - unfold execute_experiment in E. destruct (dget (pipelines ws) (e_pipeline e)) as [r0|]; [|injection E as <- _; exact LA]. destruct (rbind (load_algorithm w r0) _) as [[a0 vs]|] eqn:L0; [|injection E as <- _; exact LA].
    destruct (dget (dataloaders ws) (e_dataloader e)) as [l|]; [|injection E as <- _; exact LA]. destruct (data l); [|injection E as <- _; exact LA]. injection E as <- _. rewrite after_get_mod.
    destruct (graph_model_factory a0 _) as [a9|] eqn:F; [|exact LA]. destruct (r_type r0) eqn:T0; try exact LA. destruct (r_type r) eqn:T; try exact LA. destruct (eqb_spec (r_ref r) (r_ref r0)) as [Q|]; [|exact LA].
    destruct (load_algorithm w r0) as [a2|] eqn:L1; [|discriminate]. cbn [rbind] in L0. destruct (variables_of a2) as [vs9|]; [|discriminate]. cbn [rbind] in L0. destruct (validate_variable_values vs9 (e_variables e)); [|discriminate]. injection L0 as -> _.
    unfold load_algorithm in LA, L1. rewrite T in LA. rewrite T0 in L1. rewrite Q in LA. rewrite L1 in LA. injection LA as ->. rewrite factory_same in F by assumption. congruence.
  - unfold needs_reexecution, check_latest in E. destruct (dget (experiments ws) n) as [e|]; [|injection E as <- _; exact LA]. destruct (load_versions ls n) as [[|t vs]|]; try (injection E as <- _; exact LA). destruct (load_latest d ls true n) as [L|]; [|injection E as <- _; exact LA].
    destruct (res_alg_hash L); [|injection E as <- _; exact LA]. destruct (res_data_hash L); [|injection E as <- _; exact LA]. destruct (dget (pipelines ws) (e_pipeline e)) as [r0|]; [|injection E as <- _; exact LA].
    destruct (rbind (load_algorithm w r0) _) as [[a0 vs']|] eqn:L0; [|injection E as <- _; exact LA]. match type of E with (if ?b then _ else _) = _ => destruct b; [injection E as <- _; exact LA|] end. injection E as <- _. rewrite after_get_mod.
    destruct (graph_model_factory a0 _) as [a9|] eqn:F; [|exact LA]. destruct (r_type r0) eqn:T0; try exact LA. destruct (r_type r) eqn:T; try exact LA. destruct (eqb_spec (r_ref r) (r_ref r0)) as [Q|]; [|exact LA].
    destruct (load_algorithm w r0) as [a2|] eqn:L1; [|discriminate]. cbn [rbind] in L0. destruct (variables_of a2) as [vs9|]; [|discriminate]. cbn [rbind] in L0. destruct (validate_variable_values vs9 (e_variables e)); [|discriminate]. injection L0 as -> _.
    unfold load_algorithm in LA, L1. rewrite T in LA. rewrite T0 in L1. rewrite Q in LA. rewrite L1 in LA. injection LA as ->. rewrite factory_same in F by assumption. congruence.
Qed.
Lemma execute_load w w' ws e r : dget (pipelines ws) (e_pipeline e) = Some r -> load_algorithm w' r = load_algorithm w r -> snd (execute w' ws e) = snd (execute w ws e).
Proof.
  intros Dp E. unfold execute_experiment. rewrite Dp, E. destruct (rbind (load_algorithm w r) _) as [[a vs]|]; [|reflexivity]. destruct (dget (dataloaders ws) (e_dataloader e)) as [l|]; [|reflexivity]. destruct (data l); reflexivity.
Qed.
(* The outcome of an experiment does not depend on the experiments executed or checked before it, if its pipeline is
   given by name or by file, or if a module pipeline has no variable references. *)
Theorem C57_independent_partial : forall w w' ws e r, later ha hv hd data run w w' -> dget (pipelines ws) (e_pipeline e) = Some r ->
  r_type r <> RModule \/ (exists a, load_algorithm w r = Ok a /\ steps_ok a /\ closed a) -> snd (execute w' ws e) = snd (execute w ws e).
Proof.
  intros w w' ws e r H Dp [T|(a & LA & S & CL)]; apply (execute_load w w' ws e r Dp); [apply later_load; assumption|]. rewrite LA. eapply later_closed; eassumption.
Qed.
End Rerun.
Print Assumptions C56_skip_sound_partial.
Print Assumptions C56_fresh_partial.
Print Assumptions C57_independent_partial.

(* a run that shows the value of the only attribute of the first step; hashes that show it, too *)
Definition show (a : algorithm) : string := match a_steps a with VObj _ [(_, VScal (SInt z))] :: _ => str_Z z | VObj _ [(_, VRef n)] :: _ => ("?" ++ n)%string | _ => "" end.
Definition show_vars (d : dict string scalar) : string := match d with [(_, SInt z)] => str_Z z | _ => "" end.
Definition show_run (a : algorithm) (_ : nat) : res string := Ok (show a).
Definition show_data (_ : string) : res nat := Ok 0.
Definition demo (r : aref) (v : dict string scalar) : workspace := mkWs [("p", r)] [("d", "data.json")] [("e", mkExp "p" "d" v)].
Definition demo_exec (w : world) (r : aref) (v : dict string scalar) := execute_experiment show show_vars (fun _ : nat => "h") show_data show_run w (demo r v) (mkExp "p" "d" v).
Definition demo_needs (w : world) (r : aref) (v : dict string scalar) (L : @result string) := needs_reexecution show show_vars (fun _ : nat => "h") show_data w (demo r v) [("e_5.json", L)] ["e_5.json"] "e".
(* An experiment without values is executed with unresolved references (the run shows "?alpha"), although the result
   records the default value; and right after it the check asks for another execution. *)
Theorem C56_no_values_refuted : exists L, demo_exec ws_world (mkRef RName "PC") [] = (ws_world, Ok L) /\ res_graph L = "?alpha" /\ res_variables L = [("alpha", SInt 1)] /\
  demo_needs ws_world (mkRef RName "PC") [] L = (ws_world, Ok true).
Proof. eexists. split; [vm_compute; reflexivity|]. repeat (split; [vm_compute; reflexivity|]). vm_compute; reflexivity. Qed.
Print Assumptions C56_no_values_refuted.
(* Two experiments that use the same module pipeline with different values: the second runs with the value of the
   first but its result records its own value. *)
Theorem C57_module_refuted : exists L, snd (demo_exec (fst (demo_exec ws_world (mkRef RModule "mine.PIPELINE") [("alpha", SInt 3)])) (mkRef RModule "mine.PIPELINE") [("alpha", SInt 4)]) = Ok L /\
  res_graph L = "3" /\ res_variables L = [("alpha", SInt 4)] /\ exists L', snd (demo_exec ws_world (mkRef RModule "mine.PIPELINE") [("alpha", SInt 4)]) = Ok L' /\ res_graph L' = "4".
Proof. eexists. split; [vm_compute; reflexivity|]. repeat (split; [vm_compute; reflexivity|]). eexists. split; vm_compute; reflexivity. Qed.
Print Assumptions C57_module_refuted.
Example C56_nonvacuous : exists L, demo_exec ws_world (mkRef RName "PC") [("alpha", SInt 3)] = (ws_world, Ok L) /\ res_graph L = "3" /\ demo_needs ws_world (mkRef RName "PC") [("alpha", SInt 3)] L = (ws_world, Ok false) /\
  demo_needs ws_world (mkRef RName "PC") [("alpha", SInt 4)] L = (ws_world, Ok true) /\ covers (ws_alg "alpha" 1) (mkExp "p" "d" [("alpha", SInt 3)]) /\ steps_ok (ws_alg "alpha" 1).
Proof.
  eexists. split; [vm_compute; reflexivity|]. repeat (split; [vm_compute; reflexivity|]). split.
  - intros s n [<-|[]] R. apply step_refers_inv in R. destruct R as [R|(ss & s & R & _)]; [|discriminate]. apply refers_inv in R. destruct R as [[k [R|[]]]|(k & h & b & [R|[]] & _)]; [|discriminate]. injection R as _ <-. left; reflexivity.
  - intros s [<-|[]]. constructor. intros x X. discriminate.
Qed.
Example C57_nonvacuous : later show show_vars (fun _ : nat => "h") show_data show_run ws_world (fst (demo_exec ws_world (mkRef RModule "mine.PIPELINE") [("alpha", SInt 3)])) /\
  snd (demo_exec (fst (demo_exec ws_world (mkRef RModule "mine.PIPELINE") [("alpha", SInt 3)])) (mkRef RName "PC") [("alpha", SInt 4)]) = snd (demo_exec ws_world (mkRef RName "PC") [("alpha", SInt 4)]) /\
  fst (demo_exec ws_world (mkRef RModule "mine.PIPELINE") [("alpha", SInt 3)]) <> ws_world.
Proof.
  split; [|split; [vm_compute; reflexivity|]].
  - eapply la_exec with (ws := demo (mkRef RModule "mine.PIPELINE") [("alpha", SInt 3)]) (e := mkExp "p" "d" [("alpha", SInt 3)]); [|apply la_refl]. apply surjective_pairing.
  - intros H. apply (f_equal (fun w => dget (w_mod w) "mine.PIPELINE")) in H. vm_compute in H. discriminate.
Qed.
