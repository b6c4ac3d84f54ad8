(* C79: what the diff command shows.  C80: what update-variable stores. *)
From Verif Require Import Base PyDict PyDictFacts PyStr PyStrFacts Variables VariableSpec VariableFacts Workspace WorkspaceSpec WorkspaceFacts JsonText ResultText Diff DiffSpec DiffFacts UpdateVariable.
Open Scope string_scope.
Open Scope list_scope.

(* ---- which result a name stands for ---- *)
Lemma col_latest n m v : (n ++ "_latest")%string <> (m ++ "_" ++ str_Z v)%string.
Proof.
  intros H. assert (A := split_last us n "latest"). assert (B := split_last us m (str_Z v)). change (n ++ "_latest")%string with (n ++ String us "latest")%string in H. change (m ++ "_" ++ str_Z v)%string with (m ++ String us (str_Z v))%string in H.
  rewrite H in A. assert (N : ~ In us (chars "latest")) by (cbn; intuition discriminate). assert (N' : ~ In us (chars (str_Z v))) by (apply numeral_no; reflexivity). destruct (A N) as [A1 _]. destruct (B N') as [B1 _]. rewrite A1 in B1.
  pose proof (py_int_str v) as P. rewrite <- B1 in P. vm_compute in P. discriminate.
Qed.
Lemma col_version n m v t : (n ++ "_" ++ str_Z v)%string = (m ++ "_" ++ str_Z t)%string -> n = m /\ v = t.
Proof.
  intros H. apply (f_equal (fun s => (s ++ ".json")%string)) in H. rewrite !app_assoc_s in H. exact (version_inj n v m t H).
Qed.
Lemma app_cancel a b c : (a ++ c)%string = (b ++ c)%string -> a = b.
Proof. intros H. apply (f_equal chars) in H. rewrite !chars_app in H. apply app_inv_tail in H. apply chars_inj, H. Qed.
Section Names.
Context {V C : Type}.
Variable parse : C -> res (list (redge V)).
Variables (ws : workspace) (d : dir C) (ls : list string).
Notation resolve := (resolve_name parse ws d ls).
Lemma resolve_column n n' c es es' : resolve n = Ok (inr (c, es)) -> resolve n' = Ok (inr (c, es')) -> es = es'.
Proof.
  unfold resolve_name. intros A B. destruct (dmem (experiments ws) n) eqn:M.
  - destruct (load_latest d ls true n) as [x|] eqn:L; [|discriminate]. cbn [rbind] in A. destruct (parse x) as [y|] eqn:P; [|discriminate]. cbn [rbind] in A. injection A as <- <-.
    destruct (dmem (experiments ws) n') eqn:M'.
    + destruct (load_latest d ls true n') as [x'|] eqn:L'; [|discriminate]. cbn [rbind] in B. destruct (parse x') as [y'|] eqn:P'; [|discriminate]. cbn [rbind] in B. injection B as B <-. apply app_cancel in B. subst n'. congruence.
    + exfalso. destruct (py_int (last_seg (split us n'))) as [v|]; [|discriminate]. destruct (load_versions ls _) as [vs|]; [|discriminate]. cbn [rbind] in B. destruct (negb _); [discriminate|]. destruct (load_version d ls _ _ v) as [x'|]; [|discriminate]. cbn [rbind] in B. destruct (parse x') as [y'|]; [|discriminate]. cbn [rbind] in B. injection B as B _. symmetry in B. exact (col_latest _ _ _ B).
  - destruct (py_int (last_seg (split us n))) as [v|]; [|discriminate]. destruct (load_versions ls _) as [vs|] eqn:VS; [|discriminate]. cbn [rbind] in A. destruct (negb _) eqn:NE; [discriminate|]. destruct (load_version d ls _ _ v) as [x|] eqn:LV; [|discriminate]. cbn [rbind] in A. destruct (parse x) as [y|] eqn:P; [|discriminate]. cbn [rbind] in A. injection A as <- <-.
    destruct (dmem (experiments ws) n') eqn:M'.
    + exfalso. destruct (load_latest d ls true n') as [x'|]; [|discriminate]. cbn [rbind] in B. destruct (parse x') as [y'|]; [|discriminate]. cbn [rbind] in B. injection B as B _. exact (col_latest _ _ _ B).
    + destruct (py_int (last_seg (split us n'))) as [v'|]; [|discriminate]. destruct (load_versions ls (join "_" (removelast (split us n')))) as [vs'|]; [|discriminate]. cbn [rbind] in B. destruct (negb (existsb (Z.eqb v') vs')); [discriminate|]. destruct (load_version d ls (dmem (experiments ws) (join "_" (removelast (split us n')))) (join "_" (removelast (split us n'))) v') as [x'|] eqn:LV'; [|discriminate]. cbn [rbind] in B. destruct (parse x') as [y'|] eqn:P'; [|discriminate]. cbn [rbind] in B. injection B as B <-.
      apply col_version in B. destruct B as [B ->]. rewrite B in LV'. congruence.
Qed.
Lemma resolve_list names : forall results, resolve_names parse ws d ls names = Ok (inr results) -> Forall2 (fun n r => resolve n = Ok (inr r)) names results.
Proof.
  induction names as [|n r IH]; intros results H; cbn [resolve_names] in H.
  - injection H as <-. constructor.
  - destruct (resolve n) as [[e|y]|] eqn:E; try discriminate; cbn [rbind] in H. destruct (resolve_names parse ws d ls r) as [[e|q]|] eqn:F; try discriminate; cbn [rbind] in H. injection H as <-. constructor; [exact E|apply IH; reflexivity].
Qed.
End Names.

(* A name of an experiment stands for its newest result.  A name n_t where n is an experiment, and n_t is not, stands for the
   result of n of time t, if there is one. *)
Theorem C79_names : forall V C (parse : C -> res (list (redge V))) ws (d : dir C) ls n, NoDup (dkeys d) -> Permutation ls (dkeys d) -> In n (dkeys (experiments ws)) -> (forall f, In f (dkeys d) -> ~ stray f n) ->
  (forall t c, dget d (version_file n t) = Some c -> (forall t', In (version_file n t') (dkeys d) -> Z.le t' t) ->
     resolve_name parse ws d ls n = rbind (parse c) (fun es => Ok (inr ((n ++ "_latest")%string, es)))) /\
  ((forall t, ~ In (version_file n t) (dkeys d)) -> resolve_name parse ws d ls n = Err ValueError) /\
  (forall t, let m := (n ++ "_" ++ str_Z t)%string in ~ In m (dkeys (experiments ws)) ->
     resolve_name parse ws d ls m = match dget d (version_file n t) with Some c => rbind (parse c) (fun es => Ok (inr (m, es))) | None => Ok (inl (UnknownVersion n t)) end).
Proof.
  intros V C parse ws d ls n N P E S. assert (NL : NoDup ls) by (apply (Permutation_NoDup (Permutation_sym P)); exact N).
  assert (SL : forall f, In f ls -> ~ stray f n) by (intros f I; apply S, (Permutation_in _ P), I). destruct (load_versions_ok ls n NL SL) as (vs & LV & NF & IV).
  assert (IV' : forall t, In t vs <-> In (version_file n t) (dkeys d)) by (intros t; rewrite IV; split; apply Permutation_in; [exact P|apply Permutation_sym, P]).
  assert (M : dmem (experiments ws) n = true) by (apply dmem_In, E). split; [|split].
  - intros t c D NEW. unfold resolve_name. rewrite M. unfold load_latest. rewrite LV. cbn [rbind negb].
    assert (IT : In t vs) by (apply IV', dmem_In, dmem_get; eauto). destruct vs as [|t' r]; [destruct IT|]. assert (t' = t).
    { assert (Z.le t' t) by (apply NEW, IV'; left; reflexivity). destruct IT as [IT|IT]; [exact IT|]. unfold newest_first in NF. inversion NF as [|? ? _ F]; subst. rewrite Forall_forall in F. specialize (F t IT). lia. }
    subst t'. unfold read_file. rewrite D. reflexivity.
  - intros NO. unfold resolve_name. rewrite M. unfold load_latest. rewrite LV. destruct vs as [|t r]; [reflexivity|]. exfalso. apply (NO t), IV'. left; reflexivity.
  - intros t m NM. unfold resolve_name. assert (dmem (experiments ws) m = false) as -> by (apply dmem_not_In, NM).
    assert (X : ~ In us (chars (str_Z t))) by (apply numeral_no; reflexivity). destruct (split_last us n (str_Z t) X) as [A B]. change (n ++ String us (str_Z t))%string with m in A, B. rewrite A, py_int_str.
    assert (J : join "_" (removelast (split us m)) = n) by exact B. rewrite J. rewrite LV. cbn [rbind]. rewrite M. unfold load_version. rewrite LV. cbn [rbind negb].
    destruct (existsb (Z.eqb t) vs) eqn:Q.
    + cbn [negb]. unfold read_file. apply existsb_exists in Q. destruct Q as (t' & I & Q). apply Z.eqb_eq in Q. subst t'. apply IV', dmem_In, dmem_get in I. destruct I as [c I]. rewrite I. reflexivity.
    + cbn [negb]. destruct (dget d (version_file n t)) as [c|] eqn:D; [|reflexivity]. exfalso. assert (I : In t vs) by (apply IV', dmem_In, dmem_get; eauto). rewrite <- not_true_iff_false in Q. apply Q, existsb_exists. exists t. split; [exact I|apply Z.eqb_refl].
Qed.
Print Assumptions C79_names.

(* ---- what is shown ---- *)
(* The table of two or more names has one line for every pair of variables that one of the results connects, and no
   other.  A cell shows the type of the edge in the result of its column and is empty if there is none.  A line is
   shown as equal just if all results have an edge and these have the same type and direction.  With --only-differences
   just the other lines are shown.  This is so if variables and edge types are known by their names and no result
   contradicts itself; a result that does is reported. *)
Theorem C79_table : forall V C (parse : C -> res (list (redge V))) ws (d : dir C) ls od names ms lines, diff parse ws d ls od names = Ok (inr (ms, lines)) ->
  exists results, Forall2 (fun n r => resolve_name parse ws d ls n = Ok (inr r)) names results /\
  ((forall n m, a_node results n -> a_node results m -> rn_name n = rn_name m -> n = m) ->
   (forall c e c' f, has results c e -> has results c' f -> ry_name (re_type e) = ry_name (re_type f) -> ry_directed (re_type e) = ry_directed (re_type f)) ->
   (ms = [] <-> forall c es, In (c, es) results -> consistent es) /\
   (ms = [] -> exists all, one_line_each results all /\
      (forall l a b, In l all -> about l a b -> right_cells results l a b /\ (ln_same l = true <-> all_agree results a b)) /\
      lines = if od then filter (fun l => negb (ln_same l)) all else all)).
Proof.
  intros V C parse ws d ls od names ms lines H. unfold diff in H. destruct (Nat.ltb _ 2); [discriminate|]. destruct (resolve_names parse ws d ls names) as [[e|results]|] eqn:R; try discriminate. cbn [rbind] in H.
  apply resolve_list in R. exists results. split; [exact R|]. intros ND TY.
  assert (REG : regular results).
  { split; [exact ND|]. split; [exact TY|]. intros c es es' I J.
    assert (X : forall r, In r results -> exists n, resolve_name parse ws d ls n = Ok (inr r)). { clear - R. induction R as [|n r ns rs P F IH]; intros x []; [subst; eauto|apply IH; assumption]. }
    destruct (X _ I) as [n A], (X _ J) as [n' B]. exact (resolve_column parse ws d ls n n' c es es' A B). }
  assert (MS : fst (compare od results) = ms /\ snd (compare od results) = Ok lines).
  { destruct (compare od results) as [ms' [ls'|]]; cbn [rbind] in H; [|discriminate]. injection H as <- <-. auto. }
  assert (MT : fst (compare od results) = fst (compare true results)) by (unfold compare; destruct (equivalents results); reflexivity).
  destruct MS as [M1 M2]. assert (MI : ms = [] <-> forall c es, In (c, es) results -> consistent es). { rewrite <- M1, MT. apply messages_iff, REG. }
  split; [exact MI|]. intros M0. pose proof (proj1 MI M0) as CON. destruct (compare_lines results) as (ks & all & A & B & F & N & K). exists all. split; [|split].
  - split.
    + intros a b. split.
      * intros (c & e & HE & BE). apply between_key in BE. assert (I : In (sorted2 a b) ks) by (apply K; eauto). destruct (forall2_in _ _ _ _ F I) as (l & L & Q). exists l. split; [exact L|]. apply (line_about results (sorted2 a b) l a b Q). reflexivity.
      * intros (l & I & AB). apply In_nth_error in I. destruct I as [i I]. destruct (forall2_nth _ _ _ _ _ F I) as (k & KI & Q). apply nth_error_In in KI. apply K in KI. destruct KI as (c & e & HE & KE). exists c, e. split; [exact HE|]. apply between_key. rewrite KE. apply (line_about results k l a b Q), AB.
    + intros i j l m a b I J P Q. destruct (forall2_nth _ _ _ _ _ F I) as (k & KI & X). destruct (forall2_nth _ _ _ _ _ F J) as (k' & KJ & Y).
      apply (line_about results k l a b X) in P. apply (line_about results k' m a b Y) in Q. subst k k'. rewrite NoDup_nth_error in N. apply N; [apply nth_error_Some; rewrite KI; discriminate|congruence].
  - intros l a b I AB. apply In_nth_error in I. destruct I as [i I]. destruct (forall2_nth _ _ _ _ _ F I) as (k & _ & Q). apply (line_about results k l a b Q) in AB. split; [apply (line_cells results REG k l a b Q AB)|apply (line_same results REG CON k l a b Q AB)].
  - destruct od; congruence.
Qed.
Print Assumptions C79_table.

(* two results, by files: x -> y, and an undirected y - z in the first; y -> x, and the same undirected edge in the second *)
Definition nd (s : string) : rnode := mkRNode (lit s) (lit s).
Definition arrow (a b : string) : redge unit := mkREdge (nd a) (nd b) (mkRType (lit "DIRECTED") true (lit "-->")) (Some []).
Definition plain_edge (a b : string) : redge unit := mkREdge (nd a) (nd b) (mkRType (lit "UNDIRECTED") false (lit "---")) (Some []).
Definition diff_ws : workspace := mkWs [] [] [("pc", mkExp "p" "d" []); ("pc_7", mkExp "p" "d" [])].
Definition diff_dir : dir (list (redge unit)) :=
  [("pc_3.json", [arrow "x" "y"; plain_edge "y" "z"; plain_edge "z" "y"]); ("pc_5.json", [plain_edge "z" "y"; arrow "y" "x"]); ("pc_7.json", [arrow "x" "w"]); ("pc_7_4.json", [arrow "w" "x"])].
Definition run_diff := diff (fun es => Ok es) diff_ws diff_dir (dkeys diff_dir).
Example C79_nonvacuous :
  run_diff false ["pc_3"; "pc_5"] = Ok (inr ([], [mkLine (lit "x", lit "y") [Some (lit "-->"); Some (lit "-->")] false; mkLine (lit "y", lit "z") [Some (lit "---"); Some (lit "---")] true])) /\
  run_diff true ["pc_3"; "pc_5"; "pc"] = Ok (inr ([], [mkLine (lit "x", lit "y") [Some (lit "-->"); Some (lit "-->"); None] false; mkLine (lit "y", lit "z") [Some (lit "---"); Some (lit "---"); None] false;
     mkLine (lit "x", lit "w") [None; None; Some (lit "-->")] false])) /\
  run_diff false ["pc_3"] = Ok (inl TooFew) /\ run_diff false ["pc_3"; "pc_4"] = Ok (inl (UnknownVersion "pc" 4)) /\ run_diff false ["qc"; "pc"] = Ok (inl (UnknownName "qc")).
Proof. repeat split; vm_compute; reflexivity. Qed.

(* A line may look the same in two columns although the arrows point in opposite directions: the label of the line is taken
   from the first result, and a cell only has the text of the type. *)
Theorem C79_direction_refuted : exists results a b (e f : redge unit) l, regular results /\ (forall c es, In (c, es) results -> consistent es) /\
  In l (match snd (compare false results) with Ok ls => ls | Err _ => [] end) /\ about l a b /\
  In ("A", [e]) results /\ In ("B", [f]) results /\ rn_name (re_u e) = a /\ rn_name (re_v e) = b /\ rn_name (re_u f) = b /\ rn_name (re_v f) = a /\ a <> b /\ ry_directed (re_type e) = true /\
  ln_cells l = [Some (lit "-->"); Some (lit "-->")].
Proof.
  exists [("A", [arrow "x" "y"]); ("B", [arrow "y" "x"])], (lit "x"), (lit "y"), (arrow "x" "y"), (arrow "y" "x"), (mkLine (lit "x", lit "y") [Some (lit "-->"); Some (lit "-->")] false).
  assert (H : forall c e, has [("A", [arrow "x" "y"]); ("B", [arrow "y" "x"])] c e -> e = arrow "x" "y" \/ e = arrow "y" "x").
  { intros c e (es & I & J). cbn in I. destruct I as [I|[I|[]]]; injection I as _ <-; cbn in J; destruct J as [J|[]]; auto. }
  split; [split; [|split]|].
  - intros n m (c & e & HE & NE) (c' & f & HF & NF) Q. apply H in HE, HF. destruct HE as [-> | ->], HF as [-> | ->], NE as [-> | ->], NF as [-> | ->]; try reflexivity; vm_compute in Q; discriminate.
  - intros c e c' f HE HF _. apply H in HE, HF. destruct HE as [-> | ->], HF as [-> | ->]; reflexivity.
  - intros c es es' [I|[I|[]]] [J|[J|[]]]; congruence.
  - split.
    + intros c es [I|[I|[]]] e f a b E F _ _; injection I as _ <-; destruct E as [<-|[]], F as [<-|[]]; (split; [reflexivity|vm_compute; auto]).
    + repeat split; try (vm_compute; auto; fail). vm_compute. discriminate.
Qed.
Print Assumptions C79_direction_refuted.
(* Results of graphs whose nodes got fresh ids (as Graph.add_node gives them without an id) are shown as different
   although names and types agree. *)
Theorem C79_ids_refuted : exists results a b, (forall c es, In (c, es) results -> consistent es) /\ all_agree (V := unit) results a b /\
  exists l, In l (match snd (compare false results) with Ok ls => ls | Err _ => [] end) /\ about l a b /\ ln_same l = false.
Proof.
  set (e := mkREdge (mkRNode (lit "x") (lit "1")) (mkRNode (lit "y") (lit "2")) (mkRType (lit "DIRECTED") true (lit "-->")) (Some (@nil (ustr * unit)))).
  set (f := mkREdge (mkRNode (lit "x") (lit "3")) (mkRNode (lit "y") (lit "4")) (mkRType (lit "DIRECTED") true (lit "-->")) (Some (@nil (ustr * unit)))).
  exists [("A", [e]); ("B", [f])], (lit "x"), (lit "y"). assert (AG : forall g h, (g = e \/ g = f) -> (h = e \/ h = f) -> agree g h) by (intros g h [-> | ->] [-> | ->]; repeat split; reflexivity).
  split; [|split; [split|]].
  - intros c es [I|[I|[]]] g h a b E F _ _; injection I as _ <-; destruct E as [<-|[]], F as [<-|[]]; apply AG; auto.
  - intros x [<-|[<-|[]]]; [exists e|exists f]; (split; [left; reflexivity|left; split; reflexivity]).
  - intros c g c' h (es & I & J) (es' & I' & J') _ _. apply AG; [destruct I as [I|[I|[]]]; injection I as _ <-; destruct J as [<-|[]]; auto|destruct I' as [I'|[I'|[]]]; injection I' as _ <-; destruct J' as [<-|[]]; auto].
  - exists (mkLine (lit "x", lit "y") [Some (lit "-->"); Some (lit "-->")] false). split; [vm_compute; auto|]. split; [left; reflexivity|reflexivity].
Qed.
Print Assumptions C79_ids_refuted.
(* An experiment whose name is that of another one with a number hides a version of that one. *)
Theorem C79_hidden_refuted : exists ws (d : dir (list (redge unit))) n t es es', In n (dkeys (experiments ws)) /\ dget d (version_file n t) = Some es /\ es <> es' /\
  resolve_name (fun es => Ok es) ws d (dkeys d) (n ++ "_" ++ str_Z t)%string = Ok (inr ((n ++ "_" ++ str_Z t ++ "_latest")%string, es')).
Proof. exists diff_ws, diff_dir, "pc", 7%Z, [arrow "x" "w"], [arrow "w" "x"]. repeat split; try (vm_compute; auto; fail). vm_compute. discriminate. Qed.
Print Assumptions C79_hidden_refuted.

(* ---- update-variable ---- *)
(* the text that is typed for the value: the text itself, the digits of an integer, what float() reads *)
Definition typed (read_float : string -> option fl) (text : string) (v : scalar) : Prop :=
  match v with SStr s => text = s | SInt z => text = str_Z z | SFloat f => read_float text = Some f | SBool _ => False end.
(* the workspace with one variable of one experiment set *)
Definition with_variable (ws : workspace) (n x : string) (v : scalar) (ws' : workspace) : Prop :=
  pipelines ws' = pipelines ws /\ dataloaders ws' = dataloaders ws /\ dkeys (experiments ws') = dkeys (experiments ws) /\
  (forall m, m <> n -> dget (experiments ws') m = dget (experiments ws) m) /\
  exists e e', dget (experiments ws) n = Some e /\ dget (experiments ws') n = Some e' /\ e_pipeline e' = e_pipeline e /\ e_dataloader e' = e_dataloader e /\
    dget (e_variables e') x = Some v /\ forall y, y <> x -> dget (e_variables e') y = dget (e_variables e) y.

(* The command stores the value that was typed if the variable accepts it, and changes nothing else. *)
Theorem C80_stored : forall ri rf slug w ws n e r a vs x var v text, (forall z, ri (str_Z z) = Some z) -> NoDup (dkeys (experiments ws)) ->
  dget (experiments ws) n = Some e -> dget (pipelines ws) (e_pipeline e) = Some r -> load_algorithm w r = Ok a -> a_variables a = Some vs -> NoDup (map v_name vs) -> In var vs -> v_name var = x ->
  accepts var v -> typed rf text v -> exists ws', update_variable ri rf slug w ws n x text = Ok ws' /\ with_variable ws n x v ws'.
Proof.
  intros ri rf slug w ws n e r a vs x var v text RI NE E P L A ND I <- ACC T.
  assert (FV : find_variable vs (v_name var) = Some var).
  { unfold find_variable. clear - ND I. induction vs as [|y vs IH]; [destruct I|]. cbn in *. inversion ND as [|? ? X Y]; subst. destruct (eqb_spec (v_name var) (v_name y)) as [Q|Q].
    - destruct I as [->|I]; [reflexivity|]. exfalso. apply X. rewrite <- Q. apply in_map, I.
    - destruct I as [->|I]; [congruence|]. apply IH; assumption. }
  assert (CA : cast ri rf (v_type var) text = Ok v).
  { destruct ACC as [OT _]. unfold typed in T. destruct OT; cbn [cast]; [congruence|rewrite T, RI; reflexivity|rewrite T; reflexivity|destruct T]. }
  assert (VA : validate_variable_values vs [(v_name var, v)] = Ok tt).
  { unfold validate_variable_values. cbn [validate_items]. assert (DV : declared vs (v_name var) var).
    { apply in_split in I. destruct I as (p & q & ->). exists p, q. split; [reflexivity|]. split; [reflexivity|]. intros y Y Q. rewrite map_app in ND. cbn in ND. apply NoDup_remove_2 in ND. apply ND, in_or_app. right. rewrite <- Q. apply in_map, Y. }
    apply by_name_iff in DV. rewrite DV. apply validate_ok in ACC. rewrite ACC. reflexivity. }
  exists (set_experiments ws (dset (experiments ws) n (mkExp (e_pipeline e) (e_dataloader e) (dset (e_variables e) (v_name var) v)))). split.
  - unfold update_variable, run_command, variables_of. rewrite E, P, L. cbn [rbind]. rewrite A. cbn [rbind]. rewrite FV, CA, VA. reflexivity.
  - split; [reflexivity|]. split; [reflexivity|]. split; [apply dkeys_dset_in, dmem_In, dmem_get; eauto|]. split; [intros m M; apply dget_dset_other, M|].
    exists e. eexists. split; [exact E|]. split; [apply dget_dset_same|]. repeat split; cbn; [apply dget_dset_same|intros y Y; apply dget_dset_other, Y].
Qed.
Print Assumptions C80_stored.
(* Whatever is typed, the command leaves the workspace as it is, or sets this variable to a value that the variable
   accepts. *)
Theorem C80_kept : forall ri rf slug w ws n x text ws', NoDup (dkeys (experiments ws)) -> update_variable ri rf slug w ws n x text = Ok ws' ->
  ws' = ws \/ exists v e r a vs var, with_variable ws n x v ws' /\ dget (experiments ws) n = Some e /\ dget (pipelines ws) (e_pipeline e) = Some r /\ load_algorithm w r = Ok a /\ a_variables a = Some vs /\
    declared vs x var /\ accepts var v.
Proof.
  intros ri rf slug w ws n x text ws' N H. unfold update_variable in H. destruct (dget (experiments ws) n) as [e|] eqn:E; [|left; congruence]. destruct (dget (pipelines ws) (e_pipeline e)) as [r|] eqn:P; [|discriminate].
  destruct (load_algorithm w r) as [a|] eqn:L; [|discriminate]. cbn [rbind] in H. unfold variables_of in H. destruct (a_variables a) as [vs|] eqn:A; [|discriminate]. cbn [rbind] in H.
  destruct (find_variable vs x) as [var|] eqn:FV; [|left; congruence]. destruct (cast ri rf (v_type var) text) as [v|]; [|left; congruence].
  unfold run_command, variables_of in H. rewrite E, P, L in H. cbn [rbind] in H. rewrite A in H. cbn [rbind] in H. rewrite FV in H. destruct (validate_variable_values vs [(x, v)]) as [u|] eqn:VA; [|discriminate]. cbn [rbind] in H. injection H as <-.
  right. unfold validate_variable_values in VA. cbn [validate_items] in VA. destruct (dget (by_name vs) x) as [y|] eqn:BN; [|discriminate]. destruct (validate_value y v) as [u'|] eqn:VV; [|discriminate].
  exists v, e, r, a, vs, y. repeat split; auto.
  - apply dkeys_dset_in, dmem_In, dmem_get; eauto.
  - intros m M. apply dget_dset_other, M.
  - exists e. eexists. split; [exact E|]. split; [apply dget_dset_same|]. repeat split; cbn; [apply dget_dset_same|intros z Z'; apply dget_dset_other, Z'].
  - apply by_name_iff, BN.
  - apply validate_ok. destruct u'. exact VV.
  - apply validate_ok. destruct u'. exact VV.
Qed.
Print Assumptions C80_kept.

(* A text that int() or float() cannot read is reported and nothing is changed.  A text that is read as a value which the
   variable does not accept raises ValueError. *)
Theorem C80_refused : forall ri rf slug w ws n e r a vs x var text,
  dget (experiments ws) n = Some e -> dget (pipelines ws) (e_pipeline e) = Some r -> load_algorithm w r = Ok a -> a_variables a = Some vs -> NoDup (map v_name vs) -> In var vs -> v_name var = x ->
  (v_type var = TyInteger /\ ri text = None \/ v_type var = TyFloat /\ rf text = None -> update_variable ri rf slug w ws n x text = Ok ws) /\
  (forall v, (v_type var = TyInteger /\ (exists z, ri text = Some z /\ v = SInt z) \/ v_type var = TyFloat /\ (exists f, rf text = Some f /\ v = SFloat f) \/ v_type var = TyString /\ v = SStr text) ->
     ~ accepts var v -> update_variable ri rf slug w ws n x text = Err ValueError).
Proof.
  intros ri rf slug w ws n e r a vs x var text E P L A ND I <-.
  assert (FV : find_variable vs (v_name var) = Some var).
  { unfold find_variable. clear - ND I. induction vs as [|y vs IH]; [destruct I|]. cbn in *. inversion ND as [|? ? X Y]; subst. destruct (eqb_spec (v_name var) (v_name y)) as [Q|Q].
    - destruct I as [->|I]; [reflexivity|]. exfalso. apply X. rewrite <- Q. apply in_map, I.
    - destruct I as [->|I]; [congruence|]. apply IH; assumption. }
  assert (DV : declared vs (v_name var) var).
  { apply in_split in I. destruct I as (p & q & ->). exists p, q. split; [reflexivity|]. split; [reflexivity|]. intros y Y Q. rewrite map_app in ND. cbn in ND. apply NoDup_remove_2 in ND. apply ND, in_or_app. right. rewrite <- Q. apply in_map, Y. }
  unfold update_variable, run_command, variables_of. rewrite E, P, L. cbn [rbind]. rewrite A. cbn [rbind]. rewrite FV. split.
  - intros [[T N]|[T N]]; rewrite T; cbn [cast]; rewrite N; reflexivity.
  - intros v Hv NA. assert (C : cast ri rf (v_type var) text = Ok v). { destruct Hv as [[T (z & N & ->)]|[[T (f & N & ->)]|[T ->]]]; rewrite T; cbn [cast]; try rewrite N; reflexivity. }
    rewrite C. unfold validate_variable_values. cbn [validate_items]. apply by_name_iff in DV. rewrite DV. destruct (validate_value var v) as [[]|y] eqn:VV; [exfalso; apply NA, validate_ok, VV|]. cbn [rbind].
    assert (B : forall q, base_validate var v = Err q -> q = ValueError). { intros q. unfold base_validate. destruct (negb _); [congruence|]. destruct (v_choices var) as [[|c cs]|]; try discriminate. destruct (existsb _ _); congruence. }
    assert (y = ValueError) as ->; [|reflexivity]. unfold validate_value in VV. destruct (v_type var), v; first [apply B, VV|congruence].
Qed.
Print Assumptions C80_refused.
(* Any text but the empty one sets a truth value to True: "False", "false", "0" and "no" as well. *)
Theorem C80_bool_refuted : exists w ws n x, forall ri rf slug text, text <> "" -> exists ws', update_variable ri rf slug w ws n x text = Ok ws' /\ with_variable ws n x (SBool true) ws'.
Proof.
  exists (mkWorld "/" (fun s => s) [("PC", mkAlgo [] (Some [mkVar "stable" TyBool (SBool true) None]))] (fun _ => Err FileNotFound) []),
    (mkWs [("p", mkRef RName "PC")] [("d", "data.json")] [("e", mkExp "p" "d" [("stable", SBool false)])]), "e", "stable".
  intros ri rf slug text NE. exists (mkWs [("p", mkRef RName "PC")] [("d", "data.json")] [("e", mkExp "p" "d" [("stable", SBool true)])]). split.
  - destruct text as [|c r]; [contradiction|]. vm_compute. reflexivity.
  - repeat split; [intros m M; cbn; destruct (eqb_spec m "e"); [contradiction|reflexivity]|]. eexists _, _. repeat split. intros y Y. cbn. destruct (eqb_spec y "stable"); [contradiction|reflexivity].
Qed.
Print Assumptions C80_bool_refuted.
Definition up_world := mkWorld "/" (fun s => s) [("PC", mkAlgo [] (Some [mkVar "n" TyInteger (SInt 3) (Some [SInt 3; SInt 12]); mkVar "s" TyString (SStr "a") None]))] (fun _ => Err FileNotFound) [].
Definition up_ws := mkWs [("p", mkRef RName "PC")] [("d", "data.json")] [("e", mkExp "p" "d" [("n", SInt 3)])].
Example C80_nonvacuous : let up := update_variable py_int (fun _ => None) (fun s => s) up_world up_ws in
  up "e" "n" "12" = Ok (mkWs [("p", mkRef RName "PC")] [("d", "data.json")] [("e", mkExp "p" "d" [("n", SInt 12)])]) /\
  up "e" "n" "4" = Err ValueError /\ up "e" "n" "x" = Ok up_ws /\ up "f" "n" "3" = Ok up_ws /\
  up "e" "s" "12" = Ok (mkWs [("p", mkRef RName "PC")] [("d", "data.json")] [("e", mkExp "p" "d" [("n", SInt 3); ("s", SStr "12")])]) /\
  accepts (mkVar "n" TyInteger (SInt 3) (Some [SInt 3; SInt 12])) (SInt 12) /\ typed (fun _ => None) "12" (SInt 12).
Proof. repeat split; try (vm_compute; reflexivity); [constructor|]. right. exists (SInt 12). split; [cbn; auto|]. eapply sv_num; [apply nu_int|apply nu_int|reflexivity]. Qed.
