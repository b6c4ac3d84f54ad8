(* Saving results as JSON text and loading them: C73, C74. *)
From Coq Require Import Ascii.
From Verif Require Import Base PyDict PyStr JsonText JsonTextSpec JsonTextFacts JsonTextMain.
Open Scope string_scope.
Open Scope list_scope.
Open Scope Z_scope.

(* floats of the examples: 0.5, 1e-07 and NaN *)
Inductive toy_float := Half | Tiny | NotANumber.
Definition toy_text (f : toy_float) : ustr := match f with Half => lit "0.5" | Tiny => lit "1e-07" | NotANumber => lit "NaN" end.
Definition toy_read (t : ustr) : toy_float := if eqb t (lit "0.5") then Half else if eqb t (lit "1e-07") then Tiny else NotANumber.

(* C73: what is written is read back, except that tensors are gone and datetimes are strings *)
Theorem C73_read_back : forall F (float_text : F -> ustr) (read_float : ustr -> F) v j, written v j -> sound float_text read_float j ->
  exists t, dumps float_text v = Ok t /\ loads read_float t = Ok j.
Proof.
  intros F ft rf v j W S. exists (jtext ft 0 j). split; [|exact (loads_text ft rf j S)]. unfold dumps. rewrite (proj2 (plain_written v j) W). reflexivity.
Qed.
Print Assumptions C73_read_back.

(* writing fails only for objects the encoder does not know, and with a TypeError *)
Theorem C73_fails_exactly : forall F (float_text : F -> ustr) v, (has_object v <-> dumps float_text v = Err TypeError) /\ (~ has_object v <-> exists t, dumps float_text v = Ok t).
Proof.
  intros F ft v. assert (A : has_object v -> dumps ft v = Err TypeError).
  { intros H. unfold dumps. destruct (plain v) as [j|e] eqn:E.
    - apply plain_written in E. destruct (object_not_written v H j E).
    - destruct (plain_error v e E) as (-> & _). reflexivity. }
  assert (B : forall e, dumps ft v = Err e -> has_object v).
  { intros e H. unfold dumps in H. destruct (plain v) as [j|e'] eqn:E; [discriminate H|]. exact (proj2 (plain_error v e' E)). }
  split; split; [exact A|exact (B _)| |].
  - intros N. destruct (dumps ft v) as [t|e] eqn:E; [exists t; reflexivity|]. destruct (N (B e eq_refl)).
  - intros (t & E) H. rewrite (A H) in E. discriminate E.
Qed.
Print Assumptions C73_fails_exactly.

(* the text determines the value *)
Theorem C73_text_determines : forall F (float_text : F -> ustr) (read_float : ustr -> F) v1 v2 j1 j2 t, written v1 j1 -> sound float_text read_float j1 -> written v2 j2 -> sound float_text read_float j2 ->
  dumps float_text v1 = Ok t -> dumps float_text v2 = Ok t -> j1 = j2.
Proof.
  intros F ft rf v1 v2 j1 j2 t W1 S1 W2 S2 D1 D2. destruct (C73_read_back F ft rf v1 j1 W1 S1) as (t1 & E1 & L1). destruct (C73_read_back F ft rf v2 j2 W2 S2) as (t2 & E2 & L2). congruence.
Qed.
Print Assumptions C73_text_determines.

(* a high surrogate directly before a low one is read back as one character *)
Theorem C73_surrogates_refuted : exists (v : pval toy_float) j t, written v j /\ dumps toy_text v = Ok t /\ loads toy_read t = Ok (JStr [128512]) /\ j <> JStr [128512].
Proof. exists (PStr [55357; 56832]), (JStr [55357; 56832]), (quoted [55357; 56832]). split; [constructor|]. split; [reflexivity|]. split; [vm_compute; reflexivity|discriminate]. Qed.
Print Assumptions C73_surrogates_refuted.

(* C74: no proper beginning of a written list, dictionary or string is accepted, not even the empty one *)
Theorem C74_torn : forall F (float_text : F -> ustr) (read_float : ustr -> F) v j t p q, written v j -> sound float_text read_float j -> delimited j ->
  dumps float_text v = Ok t -> t = p ++ q -> q <> [] -> loads read_float p = Err ValueError.
Proof.
  intros F ft rf v j t p q W S De D E Q. unfold dumps in D. rewrite (proj2 (plain_written v j) W) in D. injection D as <-. exact (loads_torn ft rf j p q S De E Q).
Qed.
Print Assumptions C74_torn.

(* reading a file either gives a value or raises JSONDecodeError, whatever its content *)
Theorem C74_any_text : forall F (read_float : ustr -> F) t, (exists j, loads read_float t = Ok j) \/ loads read_float t = Err ValueError.
Proof. intros F rf t. destruct (loads rf t) as [j|e] eqn:E; [left; exists j; reflexivity|right; rewrite (loads_total rf t e E); reflexivity]. Qed.
Print Assumptions C74_any_text.

(* what follows a complete value is not ignored *)
Theorem C74_trailing : forall F (float_text : F -> ustr) (read_float : ustr -> F) v j t q, written v j -> sound float_text read_float j -> delimited j -> dumps float_text v = Ok t ->
  loads read_float (t ++ q) = if forallb is_ws q then Ok j else Err ValueError.
Proof.
  intros F ft rf v j t q W S De D. unfold dumps in D. rewrite (proj2 (plain_written v j) W) in D. injection D as <-. exact (loads_trailing ft rf j q S De).
Qed.
Print Assumptions C74_trailing.

(* a bare number is a JSON text too, but a torn one is another number *)
Theorem C74_number_refuted : exists (v : pval toy_float) j t p q, written v j /\ sound toy_text toy_read j /\ dumps toy_text v = Ok t /\ t = p ++ q /\ q <> [] /\ loads toy_read p = Ok (JInt 1) /\ j <> JInt 1.
Proof.
  exists (PInt 12), (JInt 12), (lit "12"), (lit "1"), (lit "2"). split; [constructor|]. split; [constructor|]. split; [vm_compute; reflexivity|]. split; [reflexivity|]. split; [discriminate|]. split; [vm_compute; reflexivity|discriminate].
Qed.
Print Assumptions C74_number_refuted.

(* a result with a tensor, a datetime, floats, text outside ASCII (a lone surrogate too), quotes and control characters *)
Definition toy_result : pval toy_float := PDict [
  (lit "created_at", PDate (lit "2024-01-01T00:00:00"));
  (lit "nodes", PDict [(lit "a", PDict [(lit "name", PStr (lit "a")); (lit "values", PTensor)])]);
  (lit "edges", PList [PDict [(lit "correlation", PFloat Half); (lit "p", PFloat Tiny); (lit "q", PFloat NotANumber); (lit "n", PInt (-120)); (lit "ok", PBool true)]]);
  (lit "variables", PDict [([233; 128512; 34; 92; 10; 7], PStr [55357; 120; 56832])]);
  (lit "steps", PList []); (lit "none", PNull)].
Definition toy_read_back : jval toy_float := JDict [
  (lit "created_at", JStr (lit "2024-01-01T00:00:00"));
  (lit "nodes", JDict [(lit "a", JDict [(lit "name", JStr (lit "a")); (lit "values", JNull)])]);
  (lit "edges", JList [JDict [(lit "correlation", JFloat Half); (lit "p", JFloat Tiny); (lit "q", JFloat NotANumber); (lit "n", JInt (-120)); (lit "ok", JBool true)]]);
  (lit "variables", JDict [([233; 128512; 34; 92; 10; 7], JStr [55357; 120; 56832])]);
  (lit "steps", JList []); (lit "none", JNull)].
Example C73_nonvacuous : written toy_result toy_read_back /\ sound toy_text toy_read toy_read_back /\ delimited toy_read_back /\ ~ has_object toy_result /\
  (exists t, dumps toy_text toy_result = Ok t /\ List.length t = 427%nat /\ loads toy_read t = Ok toy_read_back /\ loads toy_read (firstn 400 t) = Err ValueError) /\
  dumps toy_text (PList [PInt 1; PDict [(lit "f", PObject)]]) = Err TypeError.
Proof.
  split; [|split; [|split; [|split; [|split]]]].
  - repeat first [constructor | split]; reflexivity.
  - unfold toy_read_back.
    repeat first [apply Forall_nil | apply Forall_cons | apply so_null | apply so_bool | apply so_int | (apply so_str, sound_b_ok; vm_compute; reflexivity) | (apply so_float; split; [|reflexivity]) | apply so_list |
      (apply so_dict; [cbn [map fst]; repeat (apply NoDup_cons; [vm_compute; intuition discriminate|]); apply NoDup_nil|repeat (apply Forall_cons; [apply sound_b_ok; vm_compute; reflexivity|]); apply Forall_nil|])]; cbn [snd toy_text].
    + left. exists [], [48], [46; 53], []. split; [reflexivity|]. repeat split; auto; [right; exists 53, []; split; [reflexivity|repeat constructor; unfold digit; lia]|discriminate].
    + left. exists [], [49], [], [101; 45; 48; 55]. split; [reflexivity|]. repeat split; auto; [right; exists 49, []; repeat split; (lia || constructor)|right; exists 101, [45], 48, [55]; repeat split; auto; repeat constructor; unfold digit; lia|discriminate].
    + right. left. reflexivity.
  - constructor.
  - intros H. assert (X := proj1 (proj1 (C73_fails_exactly _ toy_text toy_result)) H). vm_compute in X. discriminate X.
  - eexists. split; [vm_compute; reflexivity|]. split; [vm_compute; reflexivity|]. split; vm_compute; reflexivity.
  - vm_compute. reflexivity.
Qed.
