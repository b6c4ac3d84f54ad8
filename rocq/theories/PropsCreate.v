(* Adding pipelines, data loaders and experiments to a workspace: C111. *)
From Coq Require Import Ascii.
From Verif Require Import Base PyDict PyDictFacts Variables Workspace WorkspaceSpec Create CreateSpec CreateFacts.
Open Scope string_scope.
Open Scope list_scope.

(* whatever the user types, a command changes at most the workspace file and one file in the working directory
   whose name consists of lower case letters, digits, underscores and hyphens and ends in .yml or .py *)
Theorem C111_files : forall w f e f', perform w f e = Ok f' -> forall file, dget f' file <> dget f file ->
  file = WORKSPACE_FILE \/ exists s, plain_text s /\ (file = (s ++ ".yml")%string \/ file = (s ++ ".py")%string).
Proof.
  intros w f e f' H file D. destruct (perform_inv w f e f' H) as (ws & ws' & _ & _ & _ & F). destruct (eqb_spec file WORKSPACE_FILE) as [Q|Q]; [left; exact Q|right].
  rewrite (F file Q) in D. destruct (writes e) as [[n c]|] eqn:W; [|congruence]. destruct (eqb_spec file n) as [->|]; [|congruence].
  apply asks_writes in W. destruct W as [a m|m|m]; exists (slugify m); split; auto using slugify_plain.
Qed.
Print Assumptions C111_files.

(* a command changes no other entry of the workspace than the one it is about *)
Theorem C111_entries : forall w f e f', perform w f e = Ok f' -> exists ws ws', current_workspace f = Ok ws /\ current_workspace f' = Ok ws' /\
  forall k n, about e <> Some (k, n) -> same_entry ws ws' k n.
Proof.
  intros w f e f' H. destruct (perform_inv w f e f' H) as (ws & ws' & C & R & C' & _). exists ws, ws'. split; [exact C|]. split; [exact C'|]. exact (command_frame w ws e ws' R).
Qed.
Print Assumptions C111_entries.

(* without a workspace nothing is done *)
Theorem C111_no_workspace : forall w f e, (forall ws, dget f WORKSPACE_FILE <> Some (CWorkspace ws)) ->
  (dget f WORKSPACE_FILE = None -> perform w f e = Err (OtherError 1)) /\ (dget f WORKSPACE_FILE <> None -> perform w f e = Err ValueError).
Proof.
  intros w f e H. unfold perform, current_workspace. destruct (dget f WORKSPACE_FILE) as [c|]; [|split; [reflexivity|congruence]]. split; [discriminate|]. intros _. destruct c; try reflexivity. destruct (H ws eq_refl).
Qed.
Print Assumptions C111_no_workspace.

(* the name under which an entry was stored can be typed again for the same entry, and keeps the letters and digits *)
Theorem C111_slug : forall n, plain_text (slugify n) /\ slugify (slugify n) = slugify n /\ lettered (slugify n) = lettered n.
Proof. intros n. split; [apply slugify_plain|]. split; [apply slugify_again|apply slugify_letters]. Qed.
Print Assumptions C111_slug.

(* an ejected pipeline, a pipeline module or a loader module stays as it was made, and the workspace refers to it,
   as long as no later command asks for the same file or is about the same entry; the file must not be the
   workspace itself *)
Theorem C111_kept_partial : forall w f e f' file c later, perform w f e = Ok f' -> asks_for e file c -> file <> WORKSPACE_FILE ->
  (forall w' e', In (w', e') later -> about e' <> about e /\ forall c', ~ asks_for e' file c') ->
  dget (history f' later) file = Some c /\ exists ws, current_workspace (history f' later) = Ok ws /\ refers e ws file.
Proof.
  intros w f e f' file c later H A Ne L. destruct (perform_inv w f e f' H) as (ws & ws' & _ & R & C' & F).
  assert (G : dget f' file = Some c). { rewrite (F file Ne), (proj1 (asks_writes e file c) A). destruct (eqb_spec file file); [reflexivity|congruence]. }
  assert (Rf := command_refers w ws e ws' file c R A). assert (B : exists k n, about e = Some (k, n)) by (destruct A; cbn [about]; eauto). destruct B as (k & n & B).
  clear H R F ws. revert f' ws' C' G Rf. induction later as [|[w1 e1] later IH]; intros f' ws' C' G Rf; [split; [exact G|exists ws'; auto]|].
  cbn [history fold_left fst snd]. assert (L' := fun w' e' h => L w' e' (or_intror h)). destruct (perform w1 f' e1) as [f1|x] eqn:P; [|exact (IH L' f' ws' C' G Rf)].
  destruct (perform_inv w1 f' e1 f1 P) as (ws1 & ws2 & C1 & R1 & C2 & F1). rewrite C' in C1. injection C1 as <-. destruct (L w1 e1 (or_introl eq_refl)) as [NA NF].
  apply (IH L' f1 ws2 C2).
  - rewrite (F1 file Ne). destruct (writes e1) as [[m c1]|] eqn:W; [|exact G]. destruct (eqb_spec file m) as [<-|]; [|exact G]. exfalso. apply (NF c1). apply asks_writes. exact W.
  - apply (refers_frame e ws' ws2 file c k n A B); [|exact Rf]. apply (command_frame w1 ws' e1 ws2 R1). rewrite <- B. exact NA.
Qed.
Print Assumptions C111_kept_partial.

(* A data loader with the name of a pipeline module overwrites the module: the workspace still refers to it. *)
Definition make_world := mkWorld "/w" (fun s => s) [("PC", mkAlgo [] (Some [mkVar "threshold" TyInteger (SInt 1) None])); ("PCStable", mkAlgo [] (Some []))] (fun _ => Err FileNotFound) [].
Definition fresh : files := [(WORKSPACE_FILE, CWorkspace empty_workspace)].
Definition typed (l : list edit) : files := history fresh (map (fun e => (make_world, e)) l).
Theorem C111_module_refuted : exists w e e' f f' file c ws, perform w fresh e = Ok f /\ perform w f e' = Ok f' /\ asks_for e file c /\ about e' <> about e /\
  current_workspace f' = Ok ws /\ refers e ws file /\ dget f' file <> Some c.
Proof.
  exists make_world, (Plain (AddSkeleton "prices")), (AddDynamic "Prices"). do 2 eexists. exists "prices.py", (CPipeline "prices"). eexists.
  split; [vm_compute; reflexivity|]. split; [vm_compute; reflexivity|]. split; [exact (af_skeleton "prices")|]. split; [vm_compute; congruence|]. split; [vm_compute; reflexivity|].
  split; [exists "prices"; split; vm_compute; reflexivity|]. vm_compute. congruence.
Qed.
Print Assumptions C111_module_refuted.
(* Ejected pipelines are stored under the name as typed, their files under the slug: two entries, one file. *)
Theorem C111_eject_refuted : exists n n' f ws, f = typed [Plain (AddEjected "PC" n); Plain (AddEjected "PCStable" n')] /\ n <> n' /\
  current_workspace f = Ok ws /\ exists file, dget (pipelines ws) n = Some (mkRef RFile file) /\ dget (pipelines ws) n' = Some (mkRef RFile file) /\ dget f file = Some (CAlgorithm "PCStable").
Proof.
  exists "my run", "my_run". eexists. eexists. split; [vm_compute; reflexivity|]. split; [discriminate|]. split; [vm_compute; reflexivity|].
  exists "my_run.yml". split; [vm_compute; reflexivity|]. split; vm_compute; reflexivity.
Qed.
Print Assumptions C111_eject_refuted.
(* An ejected pipeline called workspace is replaced by the workspace at once. *)
Theorem C111_workspace_refuted : exists w a n f file c ws, perform w fresh (Plain (AddEjected a n)) = Ok f /\ asks_for (Plain (AddEjected a n)) file c /\
  current_workspace f = Ok ws /\ refers (Plain (AddEjected a n)) ws file /\ dget f file = Some (CWorkspace ws).
Proof.
  exists make_world, "PC", "Workspace". eexists. exists "workspace.yml", (CAlgorithm "PC"). eexists. split; [vm_compute; reflexivity|]. split; [exact (af_eject "PC" "Workspace")|].
  split; [vm_compute; reflexivity|]. split; vm_compute; reflexivity.
Qed.
Print Assumptions C111_workspace_refuted.
(* Names without ASCII characters are all stored under the empty name: each replaces the one before. *)
Theorem C111_foreign_refuted : forall n n' w f f1 f2, Forall (fun c => 128 <= nat_of_ascii c)%nat (list_ascii_of_string n) -> Forall (fun c => 128 <= nat_of_ascii c)%nat (list_ascii_of_string n') ->
  perform w f (Plain (AddSkeleton n)) = Ok f1 -> perform w f1 (Plain (AddSkeleton n')) = Ok f2 ->
  dget f1 ".py" = Some (CPipeline n) /\ dget f2 ".py" = Some (CPipeline n') /\ exists ws1 ws2, current_workspace f1 = Ok ws1 /\ current_workspace f2 = Ok ws2 /\ List.length (pipelines ws2) = List.length (pipelines ws1).
Proof.
  intros n n' w f f1 f2 H H' P P'. apply slugify_foreign in H. apply slugify_foreign in H'.
  destruct (perform_inv _ _ _ _ P) as (a & ws1 & _ & R1 & C1 & F1). destruct (perform_inv _ _ _ _ P') as (b & ws2 & C & R2 & C2 & F2). rewrite C1 in C. injection C as <-.
  cbn [writes] in F1, F2. rewrite H in F1. rewrite H' in F2. cbn [as_command run_command] in R1, R2. rewrite H in R1. rewrite H' in R2. injection R1 as <-. injection R2 as <-.
  split; [rewrite (F1 ".py") by discriminate; reflexivity|]. split; [rewrite (F2 ".py") by discriminate; reflexivity|].
  eexists. eexists. split; [exact C1|]. split; [exact C2|]. cbn [set_pipelines pipelines].
  assert (I : In "" (dkeys (dset (pipelines a) "" (mkRef RModule ("" ++ ".PIPELINE"))))) by (apply In_dkeys_dset; left; reflexivity).
  assert (Q := f_equal (@List.length string) (dkeys_dset_in _ _ (mkRef RModule ("" ++ ".PIPELINE")) I)). unfold dkeys in Q. rewrite !map_length in Q. exact Q.
Qed.
Print Assumptions C111_foreign_refuted.
(* Adding an experiment whose name has the slug of an existing one replaces it: the values the user had set are gone. *)
Theorem C111_experiment_refuted : exists n n' p l v ws ws', n <> n' /\
  current_workspace (typed [Plain (AddPreconfigured "PC" p); Plain (AddDataLoader l "data.json"); Plain (AddExperiment n p l); Plain (UpdateVariable n "threshold" v)]) = Ok ws /\
  current_workspace (typed [Plain (AddPreconfigured "PC" p); Plain (AddDataLoader l "data.json"); Plain (AddExperiment n p l); Plain (UpdateVariable n "threshold" v); Plain (AddExperiment n' p l)]) = Ok ws' /\
  option_map e_variables (dget (experiments ws) n) = Some [("threshold", v)] /\ option_map e_variables (dget (experiments ws') n) <> Some [("threshold", v)].
Proof.
  exists "run", "Run!", "p", "d", (SInt 5). do 2 eexists. split; [discriminate|]. split; [vm_compute; reflexivity|]. split; [vm_compute; reflexivity|]. split; [reflexivity|]. vm_compute. congruence.
Qed.
Print Assumptions C111_experiment_refuted.

Example C111_nonvacuous : exists f f', perform make_world fresh (Plain (AddEjected "PC" "My first/../run")) = Ok f /\
  asks_for (Plain (AddEjected "PC" "My first/../run")) "my_firstrun.yml" (CAlgorithm "PC") /\ "my_firstrun.yml" <> WORKSPACE_FILE /\
  (forall w' e', In (w', e') [(make_world, Plain (AddSkeleton "my firstrun")); (make_world, AddDynamic "prices"); (make_world, Plain (RemovePipeline "prices"))] ->
     about e' <> about (Plain (AddEjected "PC" "My first/../run")) /\ forall c', ~ asks_for e' "my_firstrun.yml" c') /\
  f' = history f [(make_world, Plain (AddSkeleton "my firstrun")); (make_world, AddDynamic "prices"); (make_world, Plain (RemovePipeline "prices"))] /\ List.length f' = 4%nat.
Proof.
  eexists. eexists. split; [vm_compute; reflexivity|]. split; [exact (af_eject "PC" "My first/../run")|]. split; [discriminate|]. split; [|split; [reflexivity|vm_compute; reflexivity]].
  intros w' e' [E|[E|[E|[]]]]; injection E as <- <-; (split; [vm_compute; congruence|]); intros c' A; apply asks_writes in A; vm_compute in A; congruence.
Qed.
