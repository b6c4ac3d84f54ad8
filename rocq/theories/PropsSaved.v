(* C75, C76: what a saved result tells of the algorithm that made it. *)
From Verif Require Import Base PyDict PyDictFacts PyStr Variables Workspace JsonText JsonTextSpec ResultText ResultTextSpec PropsResult ResultJson Execute PropsExecute PropsWorkspace.
Open Scope string_scope.
Open Scope list_scope.

(* how the type of a reference is spelled in files *)
Inductive spelled : reftype -> string -> Prop := sp_file : spelled RFile "file" | sp_name : spelled RName "name" | sp_module : spelled RModule "python_module".
(* The text that `execute` saves is that of a dictionary whose entry "algorithm" is the reference of the pipeline as the
   workspace has it, whose entry "variables" has the values that were used, and whose hashes are those of the result. *)
Theorem C75_saved : forall float_text x r l t w, json_text float_text x r l = Ok t -> spelled (r_type r) w ->
  exists kvs, dumps float_text (PDict kvs) = Ok t /\ dget kvs (lit "algorithm") = Some (PDict [(lit "reference", PStr (lit (r_ref r))); (lit "type", PStr (lit w))]) /\
  dget kvs (lit "variables") = Some (PDict (map (fun p => (lit (fst p), match snd p with SStr s => PStr (lit s) | SInt z => PInt z | SFloat f => PFloat f | SBool b => PBool b end)) (res_variables l))) /\
  (forall h, res_data_hash l = Some h -> dget kvs (lit "data_loader_hash") = Some (PStr (lit h))) /\ (forall h, res_alg_hash l = Some h -> dget kvs (lit "algorithm_hash") = Some (PStr (lit h))) /\
  (forall h, res_vars_hash l = Some h -> dget kvs (lit "variables_hash") = Some (PStr (lit h))).
Proof.
  intros float_text x [ty rf] l t w H S. cbn [r_type] in S. unfold json_text, dump_result in H. eexists. split; [exact H|]. split; [destruct S; reflexivity|].
  split; [reflexivity|]. destruct l as [g vs [h1|] [h2|] [h3|]]; cbn [res_data_hash res_alg_hash res_vars_hash]; (split; [|split]); intros h Q; first [discriminate Q|injection Q as <-; reflexivity].
Qed.
Print Assumptions C75_saved.
Example C75_saved_nonvacuous : exists t l, json_text show_float (at_second 9 "e1") (mkRef RName "PC") l = Ok t /\ spelled RName "name" /\ res_variables l = [("alpha", SInt 5)] /\ res_alg_hash l = Some "h".
Proof. eexists. exists (mkResult (mkGR [] [] []) [("alpha", SInt 5)] (Some "d") (Some "h") (Some "v")). split; [vm_compute; reflexivity|]. split; [constructor|]. split; reflexivity. Qed.
