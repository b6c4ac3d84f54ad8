(* Saved results are loaded as the same results: C75. *)
From Coq Require Import Ascii.
From Verif Require Import Base PyDict JsonText JsonTextSpec JsonTextFacts JsonTextMain PropsJsonText ResultText ResultTextSpec ResultTextFacts.
From Verif Require Graph.
Open Scope string_scope.
Open Scope list_scope.
Open Scope Z_scope.

(* saving a result and loading the file *)
Definition save_and_load {F} (float_text : F -> ustr) (read_float : ustr -> F) (is_date : ustr -> bool) (r : rresult F (pval F)) : res (rresult F (jval F)) :=
  rbind (dumps float_text (dump_result r)) (fun t => rbind (loads read_float t) (load_result is_date)).

Section Saved.
Context {F : Type}.
Variables (float_text : F -> ustr) (read_float : ustr -> F) (is_date : ustr -> bool).
Lemma saved_text r r' : result_written r r' -> sound_result float_text read_float r' -> dumps float_text (dump_result r) = Ok (jtext float_text 0 (jresult r')) /\ loads read_float (jtext float_text 0 (jresult r')) = Ok (jresult r').
Proof.
  intros W S. split; [|exact (loads_text float_text read_float _ (result_s float_text read_float is_date r' S))]. unfold dumps. rewrite (proj2 (plain_written _ _) (result_w r r' W)). reflexivity.
Qed.
Lemma saved_load r r' : result_written r r' -> sound_result float_text read_float r' -> save_and_load float_text read_float is_date r = load_result is_date (jresult r').
Proof. intros W S. destruct (saved_text r r' W S) as (A & B). unfold save_and_load. rewrite A. cbn [rbind]. rewrite B. reflexivity. Qed.
(* C75: the file of a result is loaded as the same result: the same reference, nodes, edges with their types, steps, actions
   and hashes; only what the data dictionaries hold is as it was written *)
Theorem C75_loaded : forall r r', result_written r r' -> sound_result float_text read_float r' -> is_date (rr_created r) = true ->
  Forall shipped_type (rr_edges r') -> Forall has_metadata (rr_edges r') -> save_and_load float_text read_float is_date r = Ok r'.
Proof.
  intros r r' W S D T M. rewrite (saved_load r r' W S). assert (D' : is_date (rr_created r') = true) by (destruct W as (_ & _ & <- & _); exact D). rewrite (result_l is_date r' D'), (types_l _ T). cbn [rbind]. rewrite (edges_l _ M). cbn [rbind]. destruct r'; reflexivity.
Qed.
(* an edge of a type that causy does not ship makes the saved result unreadable, with a KeyError *)
Theorem C75_other_type : forall r r' e, result_written r r' -> sound_result float_text read_float r' -> is_date (rr_created r) = true ->
  In e (rr_edges r') -> ~ shipped_type e -> save_and_load float_text read_float is_date r = Err KeyError.
Proof.
  intros r r' e W S D I N. rewrite (saved_load r r' W S). assert (D' : is_date (rr_created r') = true) by (destruct W as (_ & _ & <- & _); exact D). rewrite (result_l is_date r' D'), types_bad by (exists e; auto). reflexivity.
Qed.
(* an edge without metadata, or with a tensor or None in it, makes it unreadable, with a ValueError *)
Theorem C75_no_metadata : forall r r' e, result_written r r' -> sound_result float_text read_float r' -> is_date (rr_created r) = true -> Forall shipped_type (rr_edges r') ->
  In e (rr_edges r') -> ~ has_metadata e -> save_and_load float_text read_float is_date r = Err ValueError.
Proof.
  intros r r' e W S D T I N. rewrite (saved_load r r' W S). assert (D' : is_date (rr_created r') = true) by (destruct W as (_ & _ & <- & _); exact D). rewrite (result_l is_date r' D'), (types_l _ T). cbn [rbind]. rewrite edges_bad by (exists e; auto). reflexivity.
Qed.
(* a torn file of a result is not loaded *)
Theorem C75_torn : forall r r' t p q, result_written r r' -> sound_result float_text read_float r' -> dumps float_text (dump_result r) = Ok t -> t = p ++ q -> q <> [] ->
  rbind (loads read_float p) (load_result is_date) = Err ValueError.
Proof.
  intros r r' t p q W S E Q N. rewrite (C74_torn F float_text read_float (dump_result r) (jresult r') t p q (result_w r r' W) (result_s float_text read_float is_date r' S) (de_dict _) E Q N). reflexivity.
Qed.
End Saved.
Print Assumptions C75_loaded.
Print Assumptions C75_other_type.
Print Assumptions C75_no_metadata.
Print Assumptions C75_torn.

(* a result of two variables: a -> b with a coefficient, the history of a pipeline with a logic step, data with a tensor *)
Definition toy_a := mkRNode (lit "a") (lit "id-a").
Definition toy_b := mkRNode (lit "b") (lit "id-b").
Definition directed_type := mkRType (lit "DIRECTED") true (lit "-->").
Definition toy_saved (t : retype) (m : option (list (ustr * pval toy_float))) : rresult toy_float (pval toy_float) := mkRResult
  (lit "PC") RtName (lit "2024-01-01T00:00:00") [(lit "id-a", toy_a); (lit "id-b", toy_b)] [mkREdge toy_a toy_b t m]
  [RStep (lit "loop") (Some Half) [] [] [RStep (lit "collider") (Some Tiny) [mkRTrial toy_b toy_a Graph.REMOVE_EDGE_DIRECTED (Some [(lit "between", PDict [(lit "x", PDict [(lit "id", PStr (lit "id-a")); (lit "values", PTensor)])])])] [] []]]
  (Some [(lit "alpha", PFloat Half)]) (Some (lit "h1")) (Some (lit "h2")) None.
Definition toy_loaded (t : retype) (m : option (list (ustr * jval toy_float))) : rresult toy_float (jval toy_float) := mkRResult
  (lit "PC") RtName (lit "2024-01-01T00:00:00") [(lit "id-a", toy_a); (lit "id-b", toy_b)] [mkREdge toy_a toy_b t m]
  [RStep (lit "loop") (Some Half) [] [] [RStep (lit "collider") (Some Tiny) [mkRTrial toy_b toy_a Graph.REMOVE_EDGE_DIRECTED (Some [(lit "between", JDict [(lit "x", JDict [(lit "id", JStr (lit "id-a")); (lit "values", JNull)])])])] [] []]]
  (Some [(lit "alpha", JFloat Half)]) (Some (lit "h1")) (Some (lit "h2")) None.
Definition toy_date (s : ustr) : bool := eqb s (lit "2024-01-01T00:00:00").
Definition toy_trip := save_and_load toy_text toy_read toy_date.
Lemma toy_written t m m' : data_written m m' -> result_written (toy_saved t m) (toy_loaded t m').
Proof.
  intros H. repeat (split; [reflexivity|]). split; [repeat constructor; exact H|]. split; [repeat constructor|]. split; [repeat constructor|]. repeat (split; [reflexivity|]). reflexivity.
Qed.
Lemma toy_float_ok f : float_ok toy_text toy_read f.
Proof.
  split; [|destruct f; reflexivity]. destruct f; cbn [toy_text].
  - left. exists [], [48], [46; 53], []. split; [reflexivity|]. repeat split; auto; [right; exists 53, []; split; [reflexivity|repeat constructor; unfold digit; lia]|discriminate].
  - left. exists [], [49], [], [101; 45; 48; 55]. split; [reflexivity|]. repeat split; auto; [right; exists 49, []; repeat split; (lia || constructor)|right; exists 101, [45], 48, [55]; repeat split; auto; repeat constructor; unfold digit; lia|discriminate].
  - right. left. reflexivity.
Qed.
Ltac so_lit := apply sound_b_ok; vm_compute; reflexivity.
Lemma toy_sound t m : sound_string (ry_name t) -> sound_string (ry_repr t) -> sound_data toy_text toy_read m -> sound_result toy_text toy_read (toy_loaded t m).
Proof.
  intros H1 H2 H3. assert (A : sound_node toy_a) by (split; so_lit). assert (B : sound_node toy_b) by (split; so_lit).
  split; [so_lit|]. split; [so_lit|]. split; [cbn; repeat constructor; cbn; intuition discriminate|]. split; [repeat apply Forall_cons; try apply Forall_nil; (split; [so_lit|assumption])|].
  split; [apply Forall_cons; [|apply Forall_nil]; repeat (split; [assumption|]); assumption|].
  split.
  { apply Forall_cons; [|apply Forall_nil]. constructor; [so_lit|intros f _; apply toy_float_ok|constructor|constructor|]. apply Forall_cons; [|apply Forall_nil]. constructor; [so_lit|intros f _; apply toy_float_ok| |constructor|constructor].
    apply Forall_cons; [|apply Forall_nil]. split; [exact B|]. split; [exact A|]. split; [repeat constructor; cbn; tauto|]. apply Forall_cons; [|apply Forall_nil]. split; [so_lit|]. apply so_dict; [repeat constructor; cbn; tauto|apply Forall_cons; [so_lit|apply Forall_nil]|].
    apply Forall_cons; [|apply Forall_nil]. cbn [snd]. constructor; [repeat constructor; cbn; intuition discriminate|repeat apply Forall_cons; try apply Forall_nil; so_lit|]. apply Forall_cons; [constructor; so_lit|]. apply Forall_cons; [constructor|apply Forall_nil]. }
  split; [split; [repeat constructor; cbn; tauto|apply Forall_cons; [|apply Forall_nil]; split; [so_lit|constructor; apply toy_float_ok]]|].
  split; [intros s E; injection E as <-; so_lit|]. split; [intros s E; injection E as <-; so_lit|]. intros s E; discriminate E.
Qed.
Definition toy_meta : list (ustr * jval toy_float) := [(lit "correlation", JFloat Half); (lit "n", JInt 7); (lit "tags", JList [JStr (lit "x"); JBool false])].
Definition toy_pmeta : list (ustr * pval toy_float) := [(lit "correlation", PFloat Half); (lit "n", PInt 7); (lit "tags", PList [PStr (lit "x"); PBool false])].
Example C75_nonvacuous : result_written (toy_saved directed_type (Some toy_pmeta)) (toy_loaded directed_type (Some toy_meta)) /\ sound_result toy_text toy_read (toy_loaded directed_type (Some toy_meta)) /\
  Forall shipped_type (rr_edges (toy_loaded directed_type (Some toy_meta))) /\ Forall has_metadata (rr_edges (toy_loaded directed_type (Some toy_meta))) /\
  toy_trip (toy_saved directed_type (Some toy_pmeta)) = Ok (toy_loaded directed_type (Some toy_meta)) /\
  toy_trip (toy_saved directed_type None) = Err ValueError /\ toy_trip (toy_saved directed_type (Some [(lit "p", PTensor)])) = Err ValueError /\
  toy_trip (toy_saved (mkRType (lit "MINE") true (lit "~>")) (Some [])) = Err KeyError.
Proof.
  split; [apply toy_written; repeat constructor|]. split; [apply toy_sound; [so_lit|so_lit|]|].
  { split; [repeat constructor; cbn; intuition discriminate|]. repeat apply Forall_cons; try apply Forall_nil; (split; [so_lit|]); [constructor; apply toy_float_ok|constructor|]. constructor. apply Forall_cons; [constructor; so_lit|]. apply Forall_cons; [constructor|apply Forall_nil]. }
  split; [repeat constructor|]. split; [|repeat split; vm_compute; reflexivity]. apply Forall_cons; [|apply Forall_nil]. exists toy_meta. split; [reflexivity|].
  repeat apply Forall_cons; try apply Forall_nil; [apply ml_basic, ba_float|apply ml_basic, ba_int|]. apply ml_list. repeat constructor.
Qed.
