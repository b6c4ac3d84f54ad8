(* Property C102 (what the hash of a data loader tells, and which loaders work).  Statements only. *)
From Coq Require Import Ascii.
From Verif Require Import Base PyDict Graph Construct PyStr PyStrFacts Json JsonSpec PropsJson DataFile DataLoader.
From Verif Require JsonText.
Open Scope string_scope.
Open Scope list_scope.

Lemma apart a b c d : ~ In us (chars a) -> ~ In us (chars b) -> (a ++ String us c)%string = (b ++ String us d)%string -> a = b /\ c = d.
Proof.
  revert b. induction a as [|x a IH]; intros [|y b] A B E; cbn in *.
  - injection E as ->. auto.
  - injection E as <- _. destruct B. left. reflexivity.
  - injection E as -> _. destruct A. left. reflexivity.
  - injection E as -> E. destruct (IH b) as (-> & ->); [tauto|tauto|exact E|auto].
Qed.
(* two sets of options that say the same: none given, or dictionaries with the same entries; none given is not the same as an empty dictionary *)
Definition same_options {F} (o o' : option (list (string * json F))) : Prop :=
  match o, o' with None, None => True | Some d, Some d' => same_json (JDict d) (JDict d') | _, _ => False end.
Definition proper_options {F} (ok : F -> Prop) (o : option (list (string * json F))) : Prop := match o with None => True | Some d => proper ok (JDict d) end.
(* two file loaders have the same hash exactly if the files have the same bytes and the options are the same; no collisions of
   the digests are assumed for these two files and options, and no underscore in a digest *)
Theorem C102_hash_partial : forall F (ok : F -> Prop) ft file_digest digest w w' l l' b b' h h', float_texts ok ft ->
  files w (l_reference l) = Some b -> files w' (l_reference l') = Some b' ->
  proper_options ok (l_options l) -> proper_options ok (l_options l') ->
  (file_digest b = file_digest b' -> b = b') -> (forall s t, digest s = digest t -> s = t) -> ~ In us (chars (file_digest b)) -> ~ In us (chars (file_digest b')) ->
  loader_hash ft file_digest digest w l = Ok h -> loader_hash ft file_digest digest w' l' = Ok h' ->
  (h = h' <-> b = b' /\ same_options (l_options l) (l_options l')).
Proof.
  intros F ok ft fd dg w w' l l' b b' h h' FT E E' P P' Cf Cd U U' H H'. unfold loader_hash in H, H'. rewrite E in H. rewrite E' in H'. injection H as <-. injection H' as <-.
  assert (PO : forall o, proper_options ok o -> proper ok (options_json o)) by (intros [o|]; [auto|constructor]).
  assert (K := C69_hash F ok ft dg FT Cd _ _ (PO _ P) (PO _ P')).
  assert (SO : same_json (options_json (l_options l)) (options_json (l_options l')) <-> same_options (l_options l) (l_options l')).
  { destruct (l_options l) as [o|], (l_options l') as [o'|]; cbn; [reflexivity| | |]; split; auto; try (intros []; fail); try (intros Z; inversion Z; fail). intros _. constructor. }
  rewrite SO in K. split.
  - intros Q. apply apart in Q; [|assumption..]. destruct Q as (Q1 & Q2). split; [exact (Cf Q1)|apply K; exact Q2].
  - intros (-> & S). apply K in S. rewrite S. reflexivity.
Qed.
Print Assumptions C102_hash_partial.
(* so, for loaders of one type, the same hash means the same graph or the same error *)
Theorem C102_same_data : forall F (ok : F -> Prop) ft file_digest digest decode read_float of_int w w' l l' h, float_texts ok ft ->
  (forall b b', files w (l_reference l) = Some b -> files w' (l_reference l') = Some b' -> (file_digest b = file_digest b' -> b = b') /\ ~ In us (chars (file_digest b)) /\ ~ In us (chars (file_digest b'))) ->
  loader_hash ft file_digest digest w l = Ok h -> loader_hash ft file_digest digest w' l' = Ok h -> l_lines l = l_lines l' ->
  loader_graph decode read_float of_int w l = loader_graph decode read_float of_int w' l'.
Proof.
  intros F ok ft fd dg dec rf oi w w' l l' h FT C H H' L. unfold loader_hash in H, H'. unfold loader_graph, loader_stream. destruct (files w (l_reference l)) as [b|] eqn:E; [|discriminate]. destruct (files w' (l_reference l')) as [b'|] eqn:E'; [|discriminate].
  destruct (C b b' eq_refl eq_refl) as (Cf & U & U'). injection H as <-. injection H' as H'. apply apart in H'; [|assumption..]. rewrite (Cf (eq_sym (proj1 H'))), L. reflexivity.
Qed.
Print Assumptions C102_same_data.
(* a reference to a file always gives a loader; the loader needs the file only when it is used *)
Theorem C102_file_loaders : forall F w (r : loader_ref F), r_type r <> TDynamic -> exists l, load_data_loader w r = Ok l /\ l_reference l = r_reference r /\ l_options l = r_options r /\ (l_lines l = true <-> r_type r = TJsonl).
Proof.
  intros F w [[] ref o] N; cbn in N; [congruence|..]; eexists; (split; [reflexivity|]); cbn; repeat split; try discriminate; reflexivity.
Qed.
Print Assumptions C102_file_loaders.
(* a loader of a file that is not there has no data and no hash *)
Theorem C102_missing : forall F ft file_digest digest decode read_float of_int w (l : loader F), files w (l_reference l) = None ->
  loader_graph decode read_float of_int w l = Err FileNotFound /\ loader_hash ft file_digest digest w l = Err FileNotFound.
Proof. intros F ft fd dg dec rf oi w l H. unfold loader_graph, loader_stream, loader_hash. rewrite H. split; reflexivity. Qed.
Print Assumptions C102_missing.
(* but no reference of the dynamic type ever gives one, whatever modules there are *)
Theorem C102_dynamic_refuted : forall F w (r : loader_ref F), r_type r = TDynamic -> forall l, load_data_loader w r <> Ok l.
Proof. intros F w [[] ref o] E l; try discriminate E. unfold load_data_loader, load_dynamic. cbn. destruct (modules w ref) as [[]|]; discriminate. Qed.
Print Assumptions C102_dynamic_refuted.

(* demonstration: two files; digests write the bytes in unary *)
Definition two_rows : list Z := JsonText.lit "{""a"": 1}" ++ [10%Z] ++ JsonText.lit "{""a"": 2}".
Definition demo_world : surroundings := mkWorld (fun p => if eqb p "d.jsonl" then Some two_rows else if eqb p "e.jsonl" then Some (JsonText.lit "{""a"": 1}") else None) (fun m => if eqb m "loader" then Some true else None).
Definition unary (l : list Z) : string := String.concat "," (map (fun z => str_Z z) l).
Definition no_float (f : Empty_set) : string := match f with end.
Definition no_read (t : JsonText.ustr) : Z := 0%Z.
Definition as_lines : loader Empty_set := mkLoader true "d.jsonl" None.
Definition as_json : loader Empty_set := mkLoader false "d.jsonl" None.
Definition with_options : loader Empty_set := mkLoader true "d.jsonl" (Some [("sep", JStr ",")]).
Definition demo_hash_of (l : loader Empty_set) : res string := loader_hash no_float unary (fun t => t) demo_world l.
Definition demo_graph_of (l : loader Empty_set) : res graph := loader_graph (fun b => b) no_read Some demo_world l.
Example C102_nonvacuous : float_texts (fun _ : Empty_set => True) no_float /\ ~ In us (chars (unary two_rows)) /\
  proper_options (fun _ : Empty_set => True) (l_options with_options) /\
  (exists g, demo_graph_of as_lines = Ok g /\ nodes g = [("a", mkNode "a" [1; 2]%Z)]) /\
  demo_hash_of as_lines <> demo_hash_of with_options /\ demo_hash_of (mkLoader true "e.jsonl" None) <> demo_hash_of as_lines /\ demo_hash_of (mkLoader true "f" None) = Err FileNotFound.
Proof.
  split; [repeat split; intros []|]. split.
  { intros I. assert (B : existsb (Ascii.eqb us) (chars (unary two_rows)) = false) by (vm_compute; reflexivity). enough (X : existsb (Ascii.eqb us) (chars (unary two_rows)) = true) by congruence. apply existsb_exists. exists us. split; [exact I|apply Ascii.eqb_refl]. }
  split; [repeat constructor; intros []|]. split; [eexists; split; [vm_compute; reflexivity|reflexivity]|]. split; [vm_compute; discriminate|]. split; [vm_compute; discriminate|reflexivity].
Qed.
(* The type of the loader is not part of the hash: after changing it the stored hash still matches although the loader now fails. *)
Theorem C102_type_refuted : exists h g, demo_hash_of as_lines = Ok h /\ demo_hash_of as_json = Ok h /\ demo_graph_of as_lines = Ok g /\ demo_graph_of as_json = Err ValueError.
Proof. eexists. eexists. split; [vm_compute; reflexivity|]. split; [vm_compute; reflexivity|]. split; vm_compute; reflexivity. Qed.
Print Assumptions C102_type_refuted.
(* And file loaders ignore their options, which count for the hash. *)
Theorem C102_options_refuted : demo_hash_of as_lines <> demo_hash_of with_options /\ demo_graph_of as_lines = demo_graph_of with_options.
Proof. split; [vm_compute; discriminate|reflexivity]. Qed.
Print Assumptions C102_options_refuted.
