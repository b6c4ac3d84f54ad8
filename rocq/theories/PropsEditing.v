(* C125: commands that edit the workspace at the same time. *)
From Verif Require Import Base PyDict PyDictFacts PyStr Variables Workspace WorkspaceSpec WorkspaceFacts PropsWorkspace JsonText Execute Concurrent ConcurrentFacts Editing.
Open Scope string_scope.
Open Scope list_scope.
Open Scope nat_scope.

(* what is read is what was written *)
Definition faithful (dump : workspace -> res ustr) (parse : ustr -> res workspace) : Prop := forall ws t, dump ws = Ok t -> parse t = Ok ws.

Section Run.
Variables (slug : string -> string) (w : world) (dump : workspace -> res ustr) (parse : ustr -> res workspace).
Notation editing := (edits slug w dump parse).
Implicit Types d : dir ustr.

(* The workspace after the commands at these places of the list, one after the other: none of them refuses or fails. *)
Inductive in_turn (cs : list command) (ws0 : workspace) : list nat -> workspace -> Prop :=
| it_none : in_turn cs ws0 [] ws0
| it_next : forall l ws i c ws', in_turn cs ws0 l ws -> nth_error cs i = Some c -> refused w ws c = false -> run_command slug w ws c = Ok ws' -> in_turn cs ws0 (l ++ [i]) ws'.

Section Chain.
Hypothesis FA : faithful dump parse.
Variables (cs : list command) (ws0 : workspace) (d0 : dir ustr).
Definition past (ps : list eproc) (l : list nat) : Prop := NoDup l /\ forall i, In i l -> nth_error ps i = Some (EEnded (Ok tt)).
Definition einv (s : dir ustr * list eproc) : Prop := let '(d, ps) := s in
  (forall f, f <> wfile -> dget d f = dget d0 f) /\
  (forall i c, nth_error ps i = Some (EStart c) -> nth_error cs i = Some c) /\
  (forall i c ws, nth_error ps i = Some (EHave c ws) -> nth_error cs i = Some c /\ exists l, in_turn cs ws0 l ws /\ past ps l) /\
  (forall i x, nth_error ps i = Some (EEnded (Err x)) -> exists c l ws, nth_error cs i = Some c /\ in_turn cs ws0 l ws /\ refused w ws c = false /\ rbind (run_command slug w ws c) dump = Err x) /\
  ((Forall (fun q => ~ is_writing q) ps /\ exists l ws t, in_turn cs ws0 l ws /\ past ps l /\ dump ws = Ok t /\ dget d wfile = Some t) \/
   exists l1 p q l2 l ws, ps = l1 ++ EWriting (List.length p) q :: l2 /\ Forall (fun q => ~ is_writing q) (l1 ++ l2) /\ dget d wfile = Some p /\ dump ws = Ok (p ++ q) /\ in_turn cs ws0 (l ++ [List.length l1]) ws /\ past ps l).
Lemma nth_mid {A} (l1 : list A) x l2 i : nth_error (l1 ++ x :: l2) i = if Nat.eqb i (List.length l1) then Some x else nth_error (l1 ++ x :: l2) i.
Proof. destruct (Nat.eqb_spec i (List.length l1)) as [->|N]; [|reflexivity]. rewrite nth_error_app2, Nat.sub_diag by lia. reflexivity. Qed.
Lemma nth_at {A} (l1 : list A) x l2 : nth_error (l1 ++ x :: l2) (List.length l1) = Some x.
Proof. rewrite nth_error_app2, Nat.sub_diag by lia. reflexivity. Qed.
Lemma nth_other {A} (l1 : list A) x y l2 i : i <> List.length l1 -> nth_error (l1 ++ x :: l2) i = nth_error (l1 ++ y :: l2) i.
Proof. intros N. destruct (Nat.lt_ge_cases i (List.length l1)) as [L|L]; [rewrite !nth_error_app1 by exact L; reflexivity|]. rewrite !nth_error_app2 by exact L. destruct (i - List.length l1) as [|k] eqn:Q; [lia|reflexivity]. Qed.
Lemma past_other l1 p p' l2 l : p <> EEnded (Ok tt) -> past (l1 ++ p :: l2) l -> past (l1 ++ p' :: l2) l /\ ~ In (List.length l1) l.
Proof.
  intros N (A & B). assert (O : ~ In (List.length l1) l) by (intros I; specialize (B _ I); rewrite nth_at in B; congruence). split; [|exact O]. split; [exact A|]. intros i I. rewrite <- (B i I). apply nth_other. intros ->. contradiction.
Qed.
Lemma einv_step d l1 p l2 d' p' : estep slug w dump parse (d, p) (d', p') -> Forall (fun q => ~ is_writing q) (l1 ++ l2) -> einv (d, l1 ++ p :: l2) -> einv (d', l1 ++ p' :: l2).
Proof.
  intros H NW (F & S & Hv & Er & W).
  assert (NE : p <> EEnded (Ok tt)) by (inversion H; discriminate).
  (* the other commands *)
  assert (S' : forall i c, i <> List.length l1 -> nth_error (l1 ++ p' :: l2) i = Some (EStart c) -> nth_error cs i = Some c) by (intros i c N Q; apply S; rewrite <- Q; apply nth_other, N).
  assert (Hv' : forall i c ws, i <> List.length l1 -> nth_error (l1 ++ p' :: l2) i = Some (EHave c ws) -> nth_error cs i = Some c /\ exists l, in_turn cs ws0 l ws /\ past (l1 ++ p' :: l2) l).
  { intros i c ws N Q. rewrite (nth_other l1 p' p l2 i N) in Q. destruct (Hv i c ws Q) as (A & l & B & C). split; [exact A|]. exists l. split; [exact B|]. apply (past_other l1 p p' l2 l NE C). }
  assert (Er' : (forall i x, i <> List.length l1 -> nth_error (l1 ++ p' :: l2) i = Some (EEnded (Err x)) -> exists c l ws, nth_error cs i = Some c /\ in_turn cs ws0 l ws /\ refused w ws c = false /\ rbind (run_command slug w ws c) dump = Err x)) by (intros i x N Q; apply (Er i x); rewrite <- Q; apply nth_other, N).
  assert (WR : is_writing p -> exists q r l ws, p = EWriting (List.length q) r /\ dget d wfile = Some q /\ dump ws = Ok (q ++ r) /\ in_turn cs ws0 (l ++ [List.length l1]) ws /\ past (l1 ++ p :: l2) l).
  { intros I. destruct W as [(A & _)|(k1 & q & r & k2 & l & ws & Q & A & B & C & D & E)]; [rewrite Forall_forall in A; exfalso; exact (A p (in_elt p l1 l2) I)|].
    assert (L : List.length l1 = List.length k1 /\ p = EWriting (List.length q) r).
    { assert (Hp := nth_at l1 p l2). rewrite Q in Hp. destruct (Nat.eq_dec (List.length l1) (List.length k1)) as [X|X]; [rewrite X, nth_at in Hp; injection Hp as <-; auto|]. exfalso. rewrite Forall_forall in A. apply (A p); [|exact I].
      destruct (Nat.lt_ge_cases (List.length l1) (List.length k1)) as [Y|Y]; [rewrite nth_error_app1 in Hp by exact Y; apply in_or_app; left; eapply nth_error_In, Hp|]. rewrite nth_error_app2 in Hp by exact Y. destruct (List.length l1 - List.length k1) as [|z] eqn:Z; [lia|]. cbn [nth_error] in Hp. apply in_or_app. right. eapply nth_error_In, Hp. }
    destruct L as [L ->]. exists q, r, l, ws. rewrite L. auto 9. }
  assert (QT : ~ is_writing p -> exists l ws t, in_turn cs ws0 l ws /\ past (l1 ++ p :: l2) l /\ dump ws = Ok t /\ dget d wfile = Some t).
  { intros I. destruct W as [(_ & A)|(k1 & q & r & k2 & l & ws & Q & _)]; [exact A|]. exfalso. assert (J : In (EWriting (List.length q) r) (l1 ++ p :: l2)) by (rewrite Q; apply in_elt). apply in_app_or in J. cbn [In] in J. rewrite Forall_forall in NW.
    destruct J as [J|[J|J]]; [apply (NW _ (in_or_app _ _ _ (or_introl J)) Logic.I)|subst p; exact (I Logic.I)|apply (NW _ (in_or_app _ _ _ (or_intror J)) Logic.I)]. }
  assert (ALL : ~ is_writing p' -> Forall (fun q => ~ is_writing q) (l1 ++ p' :: l2)). { intros I. apply Forall_app in NW. destruct NW as [A B]. apply Forall_app. auto. }
  (* a step that ends the command without writing, or only reads *)
  assert (STILL : d' = d -> ~ is_writing p -> ~ is_writing p' -> (forall i c, nth_error (l1 ++ p' :: l2) i = Some (EStart c) -> nth_error cs i = Some c) -> (forall i c ws, nth_error (l1 ++ p' :: l2) i = Some (EHave c ws) -> nth_error cs i = Some c /\ exists l, in_turn cs ws0 l ws /\ past (l1 ++ p' :: l2) l) -> (forall i x, nth_error (l1 ++ p' :: l2) i = Some (EEnded (Err x)) -> exists c l ws, nth_error cs i = Some c /\ in_turn cs ws0 l ws /\ refused w ws c = false /\ rbind (run_command slug w ws c) dump = Err x) -> einv (d', l1 ++ p' :: l2)).
  { intros -> N1 N2 A B C. split; [exact F|]. split; [exact A|]. split; [exact B|]. split; [exact C|]. left. split; [apply ALL, N2|]. destruct (QT N1) as (l & ws & t & Q1 & Q2 & Q3 & Q4). exists l, ws, t. split; [exact Q1|]. split; [apply (past_other l1 p p' l2 l NE Q2)|auto]. }
  inversion H; subst.
  - destruct (QT (fun x => x)) as (l & ws & t & Q1 & Q2 & Q3 & Q4). rewrite Q4, (FA ws t Q3) in *. apply STILL; auto.
    + intros i c0 Q. destruct (Nat.eq_dec i (List.length l1)) as [->|N]; [rewrite nth_at in Q; discriminate|apply (S' i c0 N Q)].
    + intros i c0 ws1 Q. destruct (Nat.eq_dec i (List.length l1)) as [->|N]; [|apply (Hv' i c0 ws1 N Q)]. rewrite nth_at in Q. injection Q as <- <-. split; [apply S, nth_at|]. exists l. split; [exact Q1|]. apply (past_other l1 _ (EHave c ws) l2 l NE Q2).
    + intros i x Q. destruct (Nat.eq_dec i (List.length l1)) as [->|N]; [rewrite nth_at in Q; discriminate|apply (Er' i x N Q)].
  - destruct (Hv (List.length l1) c ws (nth_at l1 _ l2)) as (A & l & B & C).
    assert (EQ : (d', p') = if refused w ws c then (d, EEnded (Ok tt)) else match rbind (run_command slug w ws c) dump with Err x => (d, EEnded (Err x)) | Ok t => (apply_op d (Trunc wfile), EWriting 0 t) end) by (symmetry; match goal with E : (if _ then _ else _) = _ |- _ => exact E end).
    assert (STOP : forall o, (d', p') = (d, EEnded o) -> (forall x, o = Err x -> refused w ws c = false /\ rbind (run_command slug w ws c) dump = Err x) -> einv (d', l1 ++ p' :: l2)).
    { intros o Q OX. injection Q as Q1 Q2. apply STILL; [exact Q1|intros []|subst p'; intros []| | |].
      + intros i c0 Q. destruct (Nat.eq_dec i (List.length l1)) as [->|N]; [rewrite nth_at, Q2 in Q; discriminate|apply (S' i c0 N Q)].
      + intros i c0 ws1 Q. destruct (Nat.eq_dec i (List.length l1)) as [->|N]; [rewrite nth_at, Q2 in Q; discriminate|apply (Hv' i c0 ws1 N Q)].
      + intros i x Q. destruct (Nat.eq_dec i (List.length l1)) as [->|N]; [|apply (Er' i x N Q)]. rewrite nth_at, Q2 in Q. injection Q as Q. destruct (OX x Q) as [O1 O2]. exists c, l, ws. auto. }
    destruct (refused w ws c) eqn:RF; [apply (STOP _ EQ); discriminate|]. destruct (run_command slug w ws c) as [ws'|x] eqn:RC; [|apply (STOP _ EQ); intros y Q; injection Q as <-; auto]. cbn [rbind] in EQ, STOP. destruct (dump ws') as [t|x] eqn:DU; [|apply (STOP _ EQ); intros y Q; injection Q as <-; auto].
    injection EQ as -> ->. cbn [apply_op]. split; [intros f N; rewrite dget_dset_other by exact N; apply F, N|]. split; [|split; [|split]].
    + intros i c0 Q. destruct (Nat.eq_dec i (List.length l1)) as [->|N]; [rewrite nth_at in Q; discriminate|apply (S' i c0 N Q)].
    + intros i c0 ws1 Q. destruct (Nat.eq_dec i (List.length l1)) as [->|N]; [rewrite nth_at in Q; discriminate|apply (Hv' i c0 ws1 N Q)].
    + intros i x Q. destruct (Nat.eq_dec i (List.length l1)) as [->|N]; [rewrite nth_at in Q; discriminate|apply (Er' i x N Q)].
    + right. exists l1, [], t, l2, l, ws'. split; [reflexivity|]. split; [exact NW|]. split; [apply dget_dset_same|]. split; [exact DU|]. split; [eapply it_next; eassumption|]. apply (past_other l1 _ (EWriting 0 t) l2 l NE C).
  - destruct (WR Logic.I) as (q0 & r & l & ws & Q & A & B & C & E). injection Q as -> <-. split; [intros f N; rewrite dget_dset_other by exact N; apply F, N|]. split; [|split; [|split]].
    + intros i c0 Q. destruct (Nat.eq_dec i (List.length l1)) as [->|N]; [rewrite nth_at in Q; discriminate|apply (S' i c0 N Q)].
    + intros i c0 ws1 Q. destruct (Nat.eq_dec i (List.length l1)) as [->|N]; [rewrite nth_at in Q; discriminate|apply (Hv' i c0 ws1 N Q)].
    + intros i x Q. destruct (Nat.eq_dec i (List.length l1)) as [->|N]; [rewrite nth_at in Q; discriminate|apply (Er' i x N Q)].
    + right. exists l1, (q0 ++ p0), q, l2, l, ws. rewrite app_length. split; [reflexivity|]. split; [exact NW|]. split; [unfold Execute.content; rewrite A, overwrite_end; apply dget_dset_same|]. split; [rewrite <- app_assoc; exact B|]. split; [exact C|]. apply (past_other l1 _ (EWriting (List.length q0 + List.length p0) q) l2 l NE E).
  - destruct (WR Logic.I) as (q0 & r & l & ws & Q & A & B & C & E). injection Q as -> <-. rewrite app_nil_r in B. split; [exact F|]. split; [|split; [|split]].
    + intros i c0 Q. destruct (Nat.eq_dec i (List.length l1)) as [->|N]; [rewrite nth_at in Q; discriminate|apply (S' i c0 N Q)].
    + intros i c0 ws1 Q. destruct (Nat.eq_dec i (List.length l1)) as [->|N]; [rewrite nth_at in Q; discriminate|apply (Hv' i c0 ws1 N Q)].
    + intros i x Q. destruct (Nat.eq_dec i (List.length l1)) as [->|N]; [rewrite nth_at in Q; discriminate|apply (Er' i x N Q)].
    + left. split; [apply ALL; intros []|]. destruct (past_other l1 _ (EEnded (Ok tt)) l2 l NE E) as [(E1 & E2) E3]. exists (l ++ [List.length l1]), ws, q0. split; [exact C|]. split; [|auto]. split.
      * apply (Permutation_NoDup (Permutation_cons_append l (List.length l1))). constructor; assumption.
      * intros i I. apply in_app_or in I. destruct I as [I|[<-|[]]]; [apply E2, I|apply nth_at].
Qed.
Lemma einv_all s s' : editing true s s' -> einv s -> einv s'.
Proof. intros H. induction H as [s|d l1 p l2 d' p' s S NW H IH]; [auto|]. intros I. apply IH. eapply einv_step; [exact S|apply NW; reflexivity|exact I]. Qed.
Lemma nth_map {A B} (f : A -> B) l i : nth_error (map f l) i = option_map f (nth_error l i).
Proof. revert i. induction l as [|x l IH]; intros [|i]; cbn [map nth_error option_map]; auto. Qed.
Lemma einv_start t : dget d0 wfile = Some t -> dump ws0 = Ok t -> einv (d0, map EStart cs).
Proof.
  intros A B. split; [reflexivity|]. split; [|split; [|split]].
  - intros i c Q. rewrite nth_map in Q. destruct (nth_error cs i); cbn [option_map] in Q; congruence.
  - intros i c ws Q. rewrite nth_map in Q. destruct (nth_error cs i); discriminate Q.
  - intros i x Q. rewrite nth_map in Q. destruct (nth_error cs i); discriminate Q.
  - left. split; [apply Forall_forall; intros q I; apply in_map_iff in I; destruct I as (c & <- & _); intros []|]. exists [], ws0, t. split; [constructor|]. split; [split; [constructor|intros i []]|auto].
Qed.
End Chain.

(* C125: any number of editing commands at the same time, if none takes a step while another one writes.  Whenever none is
   writing, the file holds the workspace that some of the commands, each of which has ended well, leave when they are given
   one after the other; no other file has changed. *)
Theorem C125_in_turn_partial : forall cs ws0 d t d' ps, faithful dump parse -> dget d wfile = Some t -> dump ws0 = Ok t -> editing true (d, map EStart cs) (d', ps) -> Forall (fun q => ~ is_writing q) ps ->
  (forall f, f <> wfile -> dget d' f = dget d f) /\
  exists l ws t', NoDup l /\ (forall i, In i l -> nth_error ps i = Some (EEnded (Ok tt))) /\ in_turn cs ws0 l ws /\ dump ws = Ok t' /\ dget d' wfile = Some t'.
Proof.
  intros cs ws0 d t d' ps FA A B H NW. assert (I := einv_all FA cs ws0 d _ _ H (einv_start cs ws0 d t A B)). destruct I as (F & _ & _ & _ & W). split; [exact F|].
  destruct W as [(_ & l & ws & t' & Q1 & (Q2 & Q3) & Q4 & Q5)|(l1 & p & q & l2 & l & ws & -> & _)]; [exists l, ws, t'; auto 9|]. exfalso. rewrite Forall_forall in NW. exact (NW _ (in_elt _ l1 l2) Logic.I).
Qed.
(* C125: none makes another one fail: a command that ends with an exception fails with it on its own, on a workspace that
   some of the commands leave *)
Theorem C125_errors_partial : forall cs ws0 d t d' ps i x, faithful dump parse -> dget d wfile = Some t -> dump ws0 = Ok t -> editing true (d, map EStart cs) (d', ps) -> nth_error ps i = Some (EEnded (Err x)) ->
  exists c l ws, nth_error cs i = Some c /\ in_turn cs ws0 l ws /\ refused w ws c = false /\ rbind (run_command slug w ws c) dump = Err x.
Proof. intros cs ws0 d t d' ps i x FA A B H Q. destruct (einv_all FA cs ws0 d _ _ H (einv_start cs ws0 d t A B)) as (_ & _ & _ & E & _). apply (E i x Q). Qed.
Lemma in_turn_session cs ws0 l ws : in_turn cs ws0 l ws -> exists ks, ws = session slug ws0 (map (fun c => (w, c)) ks).
Proof.
  intros H. induction H as [|l ws i c ws' H IH Q R E]; [exists []; reflexivity|]. destruct IH as (ks & IH). exists (ks ++ [c]). unfold session in *. rewrite map_app, fold_left_app, <- IH. cbn [map fold_left fst snd]. rewrite E. reflexivity.
Qed.
(* C125: so what holds after every sequence of commands holds then too: experiments refer to existing pipelines and data
   loaders, even if one command removes a pipeline while another one adds an experiment that uses it *)
Theorem C125_references_partial : forall cs ws0 d t d' ps, faithful dump parse -> dget d wfile = Some t -> dump ws0 = Ok t -> NoDup (dkeys (experiments ws0)) -> refs_valid ws0 ->
  editing true (d, map EStart cs) (d', ps) -> Forall (fun q => ~ is_writing q) ps -> exists t' ws, dget d' wfile = Some t' /\ parse t' = Ok ws /\ refs_valid ws.
Proof.
  intros cs ws0 d t d' ps FA A B N V H NW. destruct (C125_in_turn_partial cs ws0 d t d' ps FA A B H NW) as (_ & l & ws & t' & _ & _ & I & D & E). exists t', ws. split; [exact E|]. split; [apply FA, D|]. destruct (in_turn_session _ _ _ _ I) as (ks & ->). apply C50_references; assumption.
Qed.

(* ---- what can be lost ---- *)
(* every edit can be lost to every other one: both have read the workspace before one of them writes *)
Lemma write_whole calm d t l1 l2 : dget d wfile = Some [] -> Forall (fun q => ~ is_writing q) (l1 ++ l2) -> exists d', dget d' wfile = Some t /\ editing calm (d, l1 ++ EWriting 0 t :: l2) (d', l1 ++ EEnded (Ok tt) :: l2).
Proof.
  intros H NW. destruct t as [|x t].
  - exists d. split; [exact H|]. eapply s_step; [apply e_close|auto|]. apply s_here.
  - exists (dset d wfile (overwrite (Execute.content d wfile) 0 (x :: t))). split; [rewrite dget_dset_same; unfold Execute.content; rewrite H; f_equal; change 0 with (List.length (@nil Z)); apply overwrite_end|].
    eapply s_step; [|auto|eapply s_step; [apply e_close|auto|apply s_here]]. assert (W := e_write slug w dump parse d 0 (x :: t) [] ltac:(discriminate)). rewrite app_nil_r in W. exact W.
Qed.
Lemma edits_trans calm s s' s'' : editing calm s s' -> editing calm s' s'' -> editing calm s s''.
Proof. intros H. induction H as [s|d l1 p l2 d' p' s S NW H IH]; [auto|]. intros Q. eapply s_step; [exact S|exact NW|apply IH, Q]. Qed.
Theorem C125_lost : forall c1 c2 ws0 d t ws1 t1 ws2 t2, dget d wfile = Some t -> parse t = Ok ws0 ->
  refused w ws0 c1 = false -> run_command slug w ws0 c1 = Ok ws1 -> dump ws1 = Ok t1 -> refused w ws0 c2 = false -> run_command slug w ws0 c2 = Ok ws2 -> dump ws2 = Ok t2 ->
  exists d', editing true (d, map EStart [c1; c2]) (d', [EEnded (Ok tt); EEnded (Ok tt)]) /\ dget d' wfile = Some t2.
Proof.
  intros c1 c2 ws0 d t ws1 t1 ws2 t2 A B R1 C1 D1 R2 C2 D2. cbn [map].
  assert (NW : forall p q, ~ is_writing p -> Forall (fun q => ~ is_writing q) ([p] ++ q) <-> Forall (fun q => ~ is_writing q) q). { intros p q N. cbn [app]. split; [intros H; inversion H; assumption|intros H; constructor; assumption]. }
  assert (N1 : forall p, ~ is_writing p -> Forall (fun q => ~ is_writing q) [p]) by (intros p H; constructor; [exact H|constructor]).
  destruct (write_whole true (apply_op d (Trunc wfile)) t1 [] [EHave c2 ws0]) as (d1 & E1 & W1); [cbn [apply_op]; apply dget_dset_same|apply N1; intros []|].
  destruct (write_whole true (apply_op d1 (Trunc wfile)) t2 [EEnded (Ok tt)] []) as (d2 & E2 & W2); [cbn [apply_op]; apply dget_dset_same|apply N1; intros []|]. exists d2. split; [|exact E2].
  assert (RD : forall c, estep slug w dump parse (d, EStart c) (d, EHave c ws0)). { intros c. assert (Q := e_read slug w dump parse d c). rewrite A, B in Q. exact Q. }
  assert (O1 : estep slug w dump parse (d, EHave c1 ws0) (apply_op d (Trunc wfile), EWriting 0 t1)). { assert (Q := e_open slug w dump parse d c1 ws0). rewrite R1, C1 in Q. cbn [rbind] in Q. rewrite D1 in Q. exact Q. }
  assert (O2 : estep slug w dump parse (d1, EHave c2 ws0) (apply_op d1 (Trunc wfile), EWriting 0 t2)). { assert (Q := e_open slug w dump parse d1 c2 ws0). rewrite R2, C2 in Q. cbn [rbind] in Q. rewrite D2 in Q. exact Q. }
  apply (s_step slug w dump parse true d [] (EStart c1) [EStart c2] d (EHave c1 ws0)); [apply RD|intros _; apply N1; intros []|]. cbn [app].
  apply (s_step slug w dump parse true d [EHave c1 ws0] (EStart c2) [] d (EHave c2 ws0)); [apply RD|intros _; apply N1; intros []|]. cbn [app].
  apply (s_step slug w dump parse true d [] (EHave c1 ws0) [EHave c2 ws0] (apply_op d (Trunc wfile)) (EWriting 0 t1)); [exact O1|intros _; apply N1; intros []|].
  eapply edits_trans; [exact W1|]. cbn [app].
  apply (s_step slug w dump parse true d1 [EEnded (Ok tt)] (EHave c2 ws0) [] (apply_op d1 (Trunc wfile)) (EWriting 0 t2)); [exact O2|intros _; apply N1; intros []|]. exact W2.
Qed.
End Run.
Print Assumptions C125_in_turn_partial.
Print Assumptions C125_errors_partial.
Print Assumptions C125_references_partial.
Print Assumptions C125_lost.

(* ---- concrete cases: workspaces with data loaders only, one line for each ---- *)
Fixpoint toy_lines (acc t : ustr) : option (list ustr) :=
  match t with
  | [] => match acc with [] => Some [] | _ => None end
  | c :: r => if Z.eqb c 10 then match toy_lines [] r with Some l => Some (rev acc :: l) | None => None end else toy_lines (c :: acc) r
  end.
Definition toy_parse (t : ustr) : res workspace :=
  match t with [] => Err ValueError | _ => match toy_lines [] t with Some l => Ok (mkWs [] (map (fun n => (unlit n, unlit n)) l) []) | None => Err ValueError end end.
Definition pair_dec (x y : string * string) : {x = y} + {x <> y}. Proof. decide equality; apply string_dec. Defined.
Definition toy_dump (ws : workspace) : res ustr :=
  let t := List.concat (map (fun p => lit (fst p) ++ [10%Z]) (dataloaders ws)) in
  match toy_parse t, pipelines ws, experiments ws with
  | Ok ws', [], [] => match pipelines ws', experiments ws' with [], [] => if list_eq_dec pair_dec (dataloaders ws) (dataloaders ws') then Ok t else Err ValueError | _, _ => Err ValueError end
  | _, _, _ => Err ValueError
  end.
Lemma toy_faithful : faithful toy_dump toy_parse.
Proof.
  intros [p l e] t H. unfold toy_dump in H. cbv zeta in H. set (s := List.concat _) in H. destruct (toy_parse s) as [[p' l' e']|x] eqn:Q; [|discriminate]. cbn [pipelines experiments dataloaders] in *. destruct p; [|discriminate]. destruct e; [|discriminate]. destruct p'; [|discriminate]. destruct e'; [|discriminate]. destruct (list_eq_dec pair_dec l l') as [<-|N]; [|discriminate]. injection H as <-. exact Q.
Qed.
Definition toy_editing := edits (fun s => s) ws_world toy_dump toy_parse.
Definition toy_text (l : list string) : ustr := List.concat (map (fun n => lit n ++ [10%Z]) l).

(* two data loaders are added at the same time, both commands end well, and one of the loaders is not in the workspace *)
Theorem C125_lost_refuted : exists d d' t ws, toy_editing true (d, map EStart [AddDataLoader "a" "a"; AddDataLoader "b" "b"]) (d', [EEnded (Ok tt); EEnded (Ok tt)]) /\ dget d' wfile = Some t /\ toy_parse t = Ok ws /\ dkeys (dataloaders ws) = ["c"; "b"].
Proof.
  destruct (C125_lost (fun s => s) ws_world toy_dump toy_parse (AddDataLoader "a" "a") (AddDataLoader "b" "b") (mkWs [] [("c", "c")] []) [(wfile, toy_text ["c"])] (toy_text ["c"]) (mkWs [] [("c", "c"); ("a", "a")] []) (toy_text ["c"; "a"]) (mkWs [] [("c", "c"); ("b", "b")] []) (toy_text ["c"; "b"])) as (d' & H & Q); try (vm_compute; reflexivity).
  exists [(wfile, toy_text ["c"])], d', (toy_text ["c"; "b"]), (mkWs [] [("c", "c"); ("b", "b")] []). split; [exact H|]. split; [exact Q|]. split; vm_compute; reflexivity.
Qed.
(* if the writes overlap the file can hold a data loader that nobody has added *)
Theorem C125_mixed_refuted : exists d d' t ws, toy_editing false (d, map EStart [AddDataLoader "longer" "longer"; AddDataLoader "b" "b"]) (d', [EEnded (Ok tt); EEnded (Ok tt)]) /\ dget d' wfile = Some t /\ toy_parse t = Ok ws /\ dkeys (dataloaders ws) = ["c"; "b"; "nger"].
Proof.
  exists [(wfile, toy_text ["c"])]. do 3 eexists. split.
  - set (d := [(wfile, toy_text ["c"])]). set (c1 := AddDataLoader "longer" "longer"). set (c2 := AddDataLoader "b" "b"). set (ws := mkWs [] [("c", "c")] []). set (e := [(wfile, @nil Z)]). set (d1 := [(wfile, toy_text ["c"; "longer"])]).
    assert (NC : forall l : list eproc, false = true -> Forall (fun q => ~ is_writing q) l) by discriminate.
    change (map EStart [c1; c2]) with ([] ++ EStart c1 :: [EStart c2]). apply (s_step _ _ _ _ false d [] (EStart c1) [EStart c2] d (EHave c1 ws)); [apply (e_read (fun s => s) ws_world toy_dump toy_parse d c1)|apply NC|].
    change ([] ++ EHave c1 ws :: [EStart c2]) with ([EHave c1 ws] ++ EStart c2 :: []). apply (s_step _ _ _ _ false d [EHave c1 ws] (EStart c2) [] d (EHave c2 ws)); [apply (e_read (fun s => s) ws_world toy_dump toy_parse d c2)|apply NC|].
    change ([EHave c1 ws] ++ EHave c2 ws :: []) with ([] ++ EHave c1 ws :: [EHave c2 ws]). apply (s_step _ _ _ _ false d [] (EHave c1 ws) [EHave c2 ws] e (EWriting 0 (toy_text ["c"; "longer"]))); [apply (e_open (fun s => s) ws_world toy_dump toy_parse d c1 ws)|apply NC|].
    change ([] ++ EWriting 0 (toy_text ["c"; "longer"]) :: [EHave c2 ws]) with ([EWriting 0 (toy_text ["c"; "longer"])] ++ EHave c2 ws :: []). apply (s_step _ _ _ _ false e [EWriting 0 (toy_text ["c"; "longer"])] (EHave c2 ws) [] e (EWriting 0 (toy_text ["c"; "b"]))); [apply (e_open (fun s => s) ws_world toy_dump toy_parse e c2 ws)|apply NC|].
    change ([EWriting 0 (toy_text ["c"; "longer"])] ++ EWriting 0 (toy_text ["c"; "b"]) :: []) with ([] ++ EWriting 0 (toy_text ["c"; "longer"] ++ []) :: [EWriting 0 (toy_text ["c"; "b"])]). apply (s_step _ _ _ _ false e [] (EWriting 0 (toy_text ["c"; "longer"] ++ [])) [EWriting 0 (toy_text ["c"; "b"])] d1 (EWriting 9 [])); [apply (e_write (fun s => s) ws_world toy_dump toy_parse e 0 (toy_text ["c"; "longer"]) []); discriminate|apply NC|].
    apply (s_step _ _ _ _ false d1 [] (EWriting 9 []) [EWriting 0 (toy_text ["c"; "b"])] d1 (EEnded (Ok tt))); [apply e_close|apply NC|].
    change ([] ++ EEnded (Ok tt) :: [EWriting 0 (toy_text ["c"; "b"])]) with ([EEnded (Ok tt)] ++ EWriting 0 (toy_text ["c"; "b"] ++ []) :: []). eapply (s_step _ _ _ _ false d1 [EEnded (Ok tt)] (EWriting 0 (toy_text ["c"; "b"] ++ [])) []); [apply (e_write (fun s => s) ws_world toy_dump toy_parse d1 0 (toy_text ["c"; "b"]) []); discriminate|apply NC|].
    eapply s_step; [apply e_close|apply NC|]. apply s_here.
  - split; [vm_compute; reflexivity|]. split; vm_compute; reflexivity.
Qed.
(* a command that reads the file while another one has it open finds it empty, and ends with the error of the parser *)
Theorem C125_torn_refuted : exists d d' p, toy_editing false (d, map EStart [AddDataLoader "a" "a"; AddDataLoader "b" "b"]) (d', [p; EEnded (Err ValueError)]) /\ is_writing p.
Proof.
  exists [(wfile, toy_text ["c"])], [(wfile, [])], (EWriting 0 (toy_text ["c"; "a"])). split; [|exact Logic.I].
  set (d := [(wfile, toy_text ["c"])]). set (c1 := AddDataLoader "a" "a"). set (c2 := AddDataLoader "b" "b"). set (ws := mkWs [] [("c", "c")] []). set (e := [(wfile, @nil Z)]).
  assert (NC : forall l : list eproc, false = true -> Forall (fun q => ~ is_writing q) l) by discriminate.
  apply (s_step _ _ _ _ false d [] (EStart c1) [EStart c2] d (EHave c1 ws)); [apply (e_read (fun s => s) ws_world toy_dump toy_parse d c1)|apply NC|].
  apply (s_step _ _ _ _ false d [] (EHave c1 ws) [EStart c2] e (EWriting 0 (toy_text ["c"; "a"]))); [apply (e_open (fun s => s) ws_world toy_dump toy_parse d c1 ws)|apply NC|].
  apply (s_step _ _ _ _ false e [EWriting 0 (toy_text ["c"; "a"])] (EStart c2) [] e (EEnded (Err ValueError))); [apply (e_read (fun s => s) ws_world toy_dump toy_parse e c2)|apply NC|]. apply s_here.
Qed.
Print Assumptions C125_lost_refuted.
Print Assumptions C125_mixed_refuted.
Print Assumptions C125_torn_refuted.

(* two commands in turn, one that refuses, and a run in which one of two is lost *)
Example C125_nonvacuous : faithful toy_dump toy_parse /\ NoDup (dkeys (experiments (mkWs [] [("c", "c")] []))) /\ refs_valid (mkWs [] [("c", "c")] []) /\ toy_dump (mkWs [] [("c", "c")] []) = Ok (toy_text ["c"]) /\
  refused ws_world (mkWs [] [("c", "c")] []) (RemoveDataLoader "x") = true /\
  in_turn (fun s => s) ws_world [AddDataLoader "a" "a"; RemoveDataLoader "c"; RemoveDataLoader "x"] (mkWs [] [("c", "c")] []) [0; 1] (mkWs [] [("a", "a")] []) /\
  exists d', toy_editing true ([(wfile, toy_text ["c"])], map EStart [AddDataLoader "a" "a"; AddDataLoader "b" "b"]) (d', [EEnded (Ok tt); EEnded (Ok tt)]) /\ dget d' wfile = Some (toy_text ["c"; "b"]).
Proof.
  split; [apply toy_faithful|]. split; [constructor|]. split; [intros n e H; discriminate H|]. split; [vm_compute; reflexivity|]. split; [vm_compute; reflexivity|]. split.
  - change [0; 1] with (([] ++ [0]) ++ [1]). eapply it_next; [eapply it_next; [apply it_none|reflexivity|reflexivity|reflexivity]|reflexivity|reflexivity|reflexivity].
  - apply (C125_lost (fun s => s) ws_world toy_dump toy_parse (AddDataLoader "a" "a") (AddDataLoader "b" "b") (mkWs [] [("c", "c")] []) [(wfile, toy_text ["c"])] (toy_text ["c"]) (mkWs [] [("c", "c"); ("a", "a")] []) (toy_text ["c"; "a"]) (mkWs [] [("c", "c"); ("b", "b")] []) (toy_text ["c"; "b"])); vm_compute; reflexivity.
Qed.
