(* Proofs about execute commands that run at the same time. *)
From Coq Require Import Sorting.Sorted.
From Verif Require Import Base PyDict PyDictFacts PyStr PyStrFacts Variables VariableSpec Workspace WorkspaceSpec WorkspaceFacts PropsWorkspace JsonText Execute ExecuteSpec ExecuteFacts ExecuteMain PropsExecute Concurrent.
Open Scope string_scope.
Open Scope list_scope.
Open Scope nat_scope.

(* writing at the end of what has been written *)
Lemma overwrite_end c p : overwrite c (List.length c) p = c ++ p.
Proof.
  unfold overwrite. rewrite firstn_all, Nat.sub_diag. cbn [repeat app]. f_equal. rewrite skipn_all2 by lia. apply app_nil_r.
Qed.

Section Facts.
Context {D G G' X : Type}.
Variables (ha : algorithm -> string) (hv : dict string scalar -> string) (hd : D -> string) (data : string -> res D) (run : algorithm -> D -> res G).
Variables (listing : dir ustr -> list string) (second : X -> Z) (text_of : X -> aref -> @result G -> res ustr) (parse : ustr -> res (@result G')).
Notation exec := (execute_experiment ha hv hd data run).
Notation step := (pstep ha hv hd data run listing second text_of parse).
Notation result_text := (result_text ha hv hd data run text_of).
Notation vf c n := (version_file n (second (c n))).
Implicit Types (d : dir ustr) (c : string -> X).

(* ---- what is in the files ---- *)
Section Files.
Variable ws : workspace.
Notation exps := (experiments ws).
Definition own c (f : string) : Prop := exists n e, In (n, e) exps /\ f = vf c n.
Definition fine c d0 d (T : string -> Prop) : Prop := forall f, own c f -> dget d f = dget d0 f \/
  exists n e t, In (n, e) exps /\ f = vf c n /\ dget d f = Some t /\ (result_text c ws n e t \/ T f /\ (t = [] \/ exists q, result_text c ws n e (t ++ q))).
Definition good c d0 d (P : proc) : Prop :=
  match P with
  | PLoop _ es => incl es exps /\ fine c d0 d (fun _ => False)
  | PListed _ n e es | PPicked _ n e _ es | PRun _ n e es => In (n, e) exps /\ incl es exps /\ fine c d0 d (fun _ => False)
  | PWriting f off t _ es => incl es exps /\ (exists n e p, In (n, e) exps /\ f = vf c n /\ dget d f = Some p /\ off = List.length p /\ result_text c ws n e (p ++ t)) /\ fine c d0 d (eq f)
  | PEnded (Ok _) => fine c d0 d (fun _ => False)
  | PEnded (Err _) => exists f0, fine c d0 d (eq f0)
  end.
Lemma fine_weak c d0 d (T T' : string -> Prop) : (forall f, T f -> T' f) -> fine c d0 d T -> fine c d0 d T'.
Proof. intros I F f O. destruct (F f O) as [Q|(n & e & t & A & B & C & [R|[H R]])]; [left; exact Q|right; exists n, e, t; auto|right; exists n, e, t; repeat split; auto]. Qed.
Lemma fine_frame c d0 d d' T : (forall f, own c f -> dget d' f = dget d f) -> fine c d0 d T -> fine c d0 d' T.
Proof. intros S F f O. rewrite (S f O). apply F, O. Qed.
Lemma good_frame c d0 d d' P : (forall f, own c f -> dget d' f = dget d f) -> good c d0 d P -> good c d0 d' P.
Proof.
  intros S. destruct P as [w es|w n e es|w n e v es|w n e es|f off t w es|[u|x]]; cbn [good].
  - intros (A & F). split; [exact A|eapply fine_frame; eassumption].
  - intros (A & B & F). split; [exact A|split; [exact B|eapply fine_frame; eassumption]].
  - intros (A & B & F). split; [exact A|split; [exact B|eapply fine_frame; eassumption]].
  - intros (A & B & F). split; [exact A|split; [exact B|eapply fine_frame; eassumption]].
  - intros (A & (n & e & p & I & -> & C & O & R) & F). split; [exact A|]. split; [|eapply fine_frame; eassumption]. exists n, e, p. rewrite S by (exists n, e; auto). auto.
  - apply fine_frame, S.
  - intros (f0 & F). exists f0. eapply fine_frame; eassumption.
Qed.
Lemma good_checked c d0 d force w n e es b : In (n, e) exps -> incl es exps -> fine c d0 d (fun _ => False) -> good c d0 d (checked force w n e es b).
Proof.
  intros I J F. unfold checked. destruct (caught b) as [b'|x]; [destruct (negb b' && negb force); cbn [good]; auto|]. exists "". eapply fine_weak; [|exact F]. intros f [].
Qed.
Lemma good_step c d0 force d P d' P' : step c force ws (d, P) (d', P') -> good c d0 d P -> good c d0 d' P' /\ forall f, ~ own c f -> dget d' f = dget d f.
Proof.
  intros H. inversion H; subst; cbn [good].
  - intros (_ & F). auto.
  - intros (A & F). split; [|reflexivity]. assert (I : In (n, e) exps) by (apply A; left; reflexivity). assert (J : incl es exps) by (intros x Hx; apply A; right; exact Hx).
    destruct (load_versions (listing d') n) as [[|v vs]|x]; [apply good_checked; auto|cbn [good]; auto|apply good_checked; auto].
  - intros (A & B & F). split; [|reflexivity]. destruct (load_versions (listing d') n) as [[|v vs]|x]; [apply good_checked; auto|cbn [good]; auto|apply good_checked; auto].
  - intros (A & B & F). split; [|reflexivity]. destruct (rbind (read_file d' (version_file n v)) parse) as [l|x]; [|apply good_checked; auto]. destruct (check_latest ha hv hd data w ws e l) as [w1 b]. apply good_checked; auto.
  - intros (A & B & F). match goal with E : _ = (d', P') |- _ => revert E end. destruct (exec w ws e) as [w1 [l|x]] eqn:E.
    2:{ intros Q. injection Q as <- <-. split; [|reflexivity]. cbn [good]. exists "". eapply fine_weak; [|exact F]. intros f []. }
    destruct (dget (pipelines ws) (e_pipeline e)) as [r|] eqn:R.
    2:{ intros Q. injection Q as <- <-. split; [|reflexivity]. cbn [good]. exists "". eapply fine_weak; [|exact F]. intros f []. }
    intros Q. injection Q as <- <-. cbn [apply_op].
    assert (F1 : fine c d0 (dset d (vf c n) []) (eq (vf c n))).
    { intros f O. rewrite dget_dset. destruct (eqb_spec f (vf c n)) as [->|N]; [|destruct (F f O) as [Q|(m & e' & t & Q1 & Q2 & Q3 & [Q4|[[] _]])]; [left; exact Q|right; exists m, e', t; auto]].
      right. exists n, e, []. split; [exact A|]. split; [reflexivity|]. split; [reflexivity|]. right. split; [reflexivity|left; reflexivity]. }
    split.
    + destruct (text_of (c n) r l) as [t|x] eqn:T; cbn [good].
      * split; [exact B|]. split; [|exact F1]. exists n, e, []. rewrite dget_dset_same. repeat split; auto. exists w, w1, l, r. auto.
      * exists (vf c n). exact F1.
    + intros f O. rewrite dget_dset. destruct (eqb_spec f (vf c n)) as [->|N]; [|reflexivity]. exfalso. apply O. exists n, e. auto.
  - intros (A & (n & e & p0 & I & -> & C & -> & R) & F). assert (Cn : content d (vf c n) = p0) by (unfold content; rewrite C; reflexivity). rewrite Cn, overwrite_end. split; [split; [exact A|split]|].
    + exists n, e, (p0 ++ p). rewrite dget_dset_same, app_length, <- app_assoc. auto.
    + intros f O. rewrite dget_dset. destruct (eqb_spec f (vf c n)) as [->|N].
      * right. exists n, e, (p0 ++ p). repeat (split; [auto|]). right. split; [reflexivity|]. right. exists q. rewrite <- app_assoc. exact R.
      * destruct (F f O) as [Q|Q]; [left; exact Q|right; exact Q].
    + intros f O. rewrite dget_dset. destruct (eqb_spec f (vf c n)) as [->|N]; [|reflexivity]. exfalso. apply O. exists n, e. auto.
  - intros (A & (n & e & p0 & I & -> & C & -> & R) & F). split; [|reflexivity]. split; [exact A|]. intros f O. destruct (F f O) as [Q|(m & e' & t & Q1 & Q2 & Q3 & [Q4|[Q4 _]])]; [left; exact Q|right; exists m, e', t; auto 9|]. subst f. right. exists n, e, p0. rewrite app_nil_r in R. rewrite <- Q4. auto 9.
Qed.
Lemma own_apart c1 c2 f : (forall n, In n (dkeys exps) -> second (c1 n) <> second (c2 n)) -> own c1 f -> own c2 f -> False.
Proof. intros A (n & e & I & ->) (m & e' & J & Q). apply version_inj in Q. destruct Q as [-> Q]. exact (A m (in_map fst _ _ J) Q). Qed.
Lemma together_good c1 c2 f1 f2 d0 s s' : (forall n, In n (dkeys exps) -> second (c1 n) <> second (c2 n)) -> together ha hv hd data run listing second text_of parse c1 c2 f1 f2 ws s s' ->
  let inv s := let '(d, P, Q) := s in good c1 d0 d P /\ good c2 d0 d Q /\ forall f, ~ own c1 f -> ~ own c2 f -> dget d f = dget d0 f in inv s -> inv s'.
Proof.
  intros A H. cbv zeta. induction H as [s|d P Q d' P' s S H IH|d P Q d' Q' s S H IH]; [auto| |]; intros (I1 & I2 & I3); apply IH.
  - destruct (good_step c1 d0 f1 d P d' P' S I1) as [J K]. split; [exact J|]. split; [eapply good_frame; [|exact I2]; intros f O; apply K; intros O'; exact (own_apart c1 c2 f A O' O)|]. intros f O O'. rewrite (K f O). auto.
  - destruct (good_step c2 d0 f2 d Q d' Q' S I2) as [J K]. split; [eapply good_frame; [|exact I1]; intros f O; apply K; intros O'; exact (own_apart c1 c2 f A O O')|]. split; [exact J|]. intros f O O'. rewrite (K f O'). auto.
Qed.
Lemma good_start c d w name : good c d d (start w ws name).
Proof.
  assert (F : fine c d d (fun _ => False)) by (intros f _; left; reflexivity). unfold start. destruct name as [n|]; [|split; [apply incl_refl|exact F]]. destruct (dget exps n) as [e|] eqn:E; [|exact F]. split; [apply dget_In, E|]. split; [intros x []|exact F].
Qed.
End Files.

(* ---- alone: the model of Execute.v ---- *)
Notation only := (alone ha hv hd data run listing second text_of parse).
Lemma only_trans c force ws s s' s'' : only c force ws s s' -> only c force ws s' s'' -> only c force ws s s''.
Proof. intros H. induction H as [s|s s1 s2 S H IH]; intros Q; [exact Q|eapply a_step; [exact S|apply IH, Q]]. Qed.
Lemma write_all c force ws d f t w es : dget d f = Some [] -> only c force ws (d, PWriting f 0 t w es) (dset d f t, PLoop w es).
Proof.
  intros H. assert (S : dset d f t = dset d f (overwrite (content d f) 0 t)). { unfold content. rewrite H. f_equal. change 0 with (List.length (@nil Z)). rewrite overwrite_end. reflexivity. }
  destruct t as [|x t].
  - eapply a_step; [apply p_close|]. assert (Q : dset d f [] = d). { clear - H. induction d as [|[k v] l IH]; [discriminate|]. cbn [dget dset] in *. destruct (eqb_spec f k) as [Q|N]; [injection H as ->; reflexivity|]. rewrite IH by exact H. reflexivity. } rewrite Q. apply a_here.
  - rewrite S. eapply a_step; [|eapply a_step; [apply p_close|apply a_here]]. assert (W := p_write ha hv hd data run listing second text_of parse c force ws d f 0 (x :: t) [] w es ltac:(discriminate)). rewrite app_nil_r in W. exact W.
Qed.
Lemma run_alone c force ws d w n e es w2 os o : execute_one ha hv hd data run second text_of c w ws n e = (w2, (os, o)) -> only c force ws (d, PRun w n e es) (apply_ops d os, match o with Ok _ => PLoop w2 es | Err x => PEnded (Err x) end).
Proof.
  intros H. eapply a_step; [apply p_run|]. unfold execute_one in H. destruct (exec w ws e) as [w1 [l|x]]; [|injection H as <- <- <-; apply a_here]. destruct (dget (pipelines ws) (e_pipeline e)) as [r|]; [|injection H as <- <- <-; apply a_here].
  cbv zeta in *. destruct (text_of (c n) r l) as [t|x]; injection H as <- <- <-; [|apply a_here]. cbn [rbind]. unfold save_ops, apply_ops. cbn [fold_left apply_op]. set (f := version_file n (second (c n))).
  assert (Z : content (dset d f []) f = []) by (unfold content; rewrite dget_dset_same; reflexivity). rewrite Z. cbn [app]. apply write_all, dget_dset_same.
Qed.
Lemma loop_alone c force ws es : known ws es -> forall w d w' os o, execute_loop ha hv hd data run listing second text_of parse c force w ws d es = (w', (os, o)) -> only c force ws (d, PLoop w es) (apply_ops d os, PEnded o).
Proof.
  induction es as [|[n e] es IH]; intros K w d w' os o H; cbn [execute_loop] in H.
  - injection H as <- <- <-. eapply a_step; [apply p_done|apply a_here].
  - assert (K' : known ws es) by (intros m e' I; apply K; right; exact I). destruct (needs_text ha hv hd data listing parse w ws d n) as [w1 b] eqn:B.
    assert (C : only c force ws (d, PLoop w ((n, e) :: es)) (d, checked force w1 n e es b)).
    { unfold needs_text in B. rewrite (K n e (or_introl eq_refl)) in B. eapply a_step; [apply p_list|]. destruct (load_versions (listing d) n) as [[|v vs]|x] eqn:V; [injection B as <- <-; apply a_here| |injection B as <- <-; apply a_here].
      eapply a_step; [apply p_pick|]. rewrite V. eapply a_step; [apply p_read|]. unfold latest, load_latest in B. rewrite V in B. cbn [rbind negb] in B. destruct (rbind (read_file d (version_file n v)) parse) as [l|x]; [|injection B as <- <-; apply a_here]. rewrite B. apply a_here. }
    eapply only_trans; [exact C|]. unfold checked. destruct (caught b) as [b'|x]; [|injection H as <- <- <-; apply a_here]. destruct (negb b' && negb force); [eapply IH; eassumption|].
    destruct (execute_one ha hv hd data run second text_of c w1 ws n e) as [w2 [os1 o1]] eqn:O. assert (R := run_alone c force ws d w1 n e es w2 os1 o1 O). destruct o1 as [u|x]; [|injection H as <- <- <-; exact R].
    destruct (execute_loop ha hv hd data run listing second text_of parse c force w2 ws (apply_ops d os1) es) as [w3 [os2 o2]] eqn:L. injection H as <- <- <-. eapply only_trans; [exact R|]. rewrite apply_ops_app. eapply IH; eassumption.
Qed.
End Facts.
