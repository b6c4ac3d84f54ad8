(* Proofs about the hooks of edge types. *)
From Verif Require Import Base PyDict PyDictFacts Graph GraphSpec GraphFacts GraphInv GraphInv2 GraphInv3 GraphQ GraphMain Actions ActionSpec ActionFacts ActionMain EdgeHooks EdgeHookSpec.

Section Looks.
Context {W : Type} (EH : edge_hooks W).

(* m does to the graph what n does, whatever the hooks' own state is *)
Definition shadows {A} (m : HST (W := W) A) (n : ST A) : Prop :=
  forall w g, exists w', m (w, g) = (w', fst (n g), snd (n g)).

Lemma sh_ret {A} (a : A) : shadows (hret a) (ret a).
Proof. intros w g; exists w; reflexivity. Qed.
Lemma sh_lift {A} (n : ST A) : shadows (hlift n) n.
Proof. intros w g; exists w. unfold hlift; cbn [fst snd]. destruct (n g); reflexivity. Qed.
Lemma sh_bind {A B} (m : HST A) n (k : A -> HST B) l : shadows m n -> (forall a, shadows (k a) (l a)) ->
  shadows (hbind m k) (bind n l).
Proof.
  intros M K w g. destruct (M w g) as [w1 E]. unfold hbind, bind. rewrite E. destruct (n g) as [g1 [a|e]]; cbn [fst snd].
  - apply K.
  - exists w1; reflexivity.
Qed.
Lemma sh_skip {B} (m : HST unit) (k : unit -> HST B) n : shadows m (ret tt) -> shadows (k tt) n ->
  shadows (hbind m k) n.
Proof.
  intros M K w g. destruct (M w g) as [w1 E]. unfold hbind. rewrite E. cbn [fst snd ret]. apply K.
Qed.

Hypothesis look : looks_only EH.

Lemma sh_hook k i : shadows (execute_hook EH k i) (ret tt).
Proof.
  intros w g. unfold execute_hook. destruct (get_edge g (t_u i) (t_v i)) as [e|]; [|exists w; reflexivity].
  assert (L := look (e_type e) k i w g). destruct (EH (e_type e) k i w g) as [[w' g'] r]. cbn [fst snd] in L. subst g'.
  exists w'; reflexivity.
Qed.

Lemma sh_apply i : shadows (apply_hooked EH i) (apply_action i).
Proof.
  unfold apply_hooked, apply_action. apply sh_bind; [apply sh_lift|]. intros g0.
  assert (T : forall k, shadows (hbind (execute_hook EH k i) (fun _ => hret true)) (ret true)).
  { intros k. apply sh_skip; [apply sh_hook|apply sh_ret]. }
  destruct (t_act i).
  - destruct (negb _); [apply sh_ret|]. apply sh_skip; [apply sh_hook|].
    apply sh_bind; [apply sh_lift|intros _]. apply sh_bind; [apply sh_lift|intros _]. apply sh_bind; [apply sh_lift|intros _]. apply T.
  - destruct (negb _); [apply sh_ret|]. apply sh_skip; [apply sh_hook|].
    apply sh_bind; [apply sh_lift|intros _]. apply sh_bind; [apply sh_lift|intros _]. apply T.
  - destruct (negb _); [apply sh_ret|]. apply sh_skip; [apply sh_hook|]. apply sh_lift.
  - destruct (negb _); [apply sh_ret|]. apply sh_skip; [apply sh_hook|]. apply sh_lift.
  - destruct (negb _); [apply sh_ret|]. apply sh_skip; [apply sh_hook|].
    apply sh_bind; [apply sh_lift|intros _]. apply sh_bind; [apply sh_lift|intros _]. apply sh_bind; [apply sh_lift|intros _]. apply T.
  - destruct (negb _ && _); [apply sh_ret|]. apply sh_skip; [apply sh_hook|].
    apply sh_bind; [apply sh_lift|intros _]. apply sh_bind.
    + apply sh_bind; [apply sh_lift|]. intros g1. destruct (edge_exists g1 _ _); [apply sh_lift|apply sh_ret].
    + intros _. apply sh_bind; [apply sh_lift|intros _]. apply T.
  - destruct (edge_exists _ _ _); [apply sh_ret|].
    apply sh_bind; [apply sh_lift|intros _]. apply sh_bind; [apply sh_lift|intros _]. apply sh_bind; [apply sh_lift|intros _]. apply sh_ret.
  - destruct (directed_edge_exists _ _ _); [apply sh_ret|].
    apply sh_bind; [apply sh_lift|intros _]. apply sh_bind; [apply sh_lift|intros _]. apply sh_ret.
  - apply sh_ret.
Qed.

Lemma sh_items dry l : shadows (take_items_hooked EH dry l) (take_items dry l).
Proof.
  induction l as [|i l IH]; [apply sh_ret|]. cbn [take_items_hooked take_items]. apply sh_bind.
  - destruct dry; [apply sh_ret|apply sh_apply].
  - intros b. apply sh_bind; [exact IH|]. intros t. apply sh_ret.
Qed.

Lemma sh_take H dry rs : shadows (take_action_hooked EH H dry rs) (take_action H dry rs).
Proof.
  induction rs as [|[items|] rs IH]; [apply sh_ret| |exact IH]. cbn [take_action_hooked take_action].
  apply sh_bind; [apply sh_lift|]. intros g. destruct (run_pre_hooks H g items) as [items'|e]; [|apply sh_lift].
  apply sh_bind; [apply sh_items|]. intros t. apply sh_bind; [apply sh_lift|]. intros g'.
  destruct (run_post_hooks H g' t); [|apply sh_lift]. apply sh_bind; [exact IH|]. intros p. apply sh_ret.
Qed.

End Looks.

(* ---- hooks that change the graph ---- *)
Section Calls.
Context {W : Type} (EH : edge_hooks W).
Hypothesis calls : by_calls EH.

Definition hsafe {A} (m : HST (W := W) A) : Prop := forall w g, reached g -> reached (snd (fst (m (w, g)))).

Lemma hs_ret {A} (a : A) : hsafe (hret a).
Proof. intros w g R; exact R. Qed.
Lemma hs_op o : (forall g, tame_op g o) -> hsafe (hlift (run_op o)).
Proof.
  intros T w g R. unfold hlift; cbn [fst snd]. assert (X := rd_op g o R (T g)). destruct (run_op o g); exact X.
Qed.
Lemma hs_raise {A} e : hsafe (hlift (raise e) : HST A).
Proof. intros w g R; exact R. Qed.
Lemma hs_get : hsafe (hlift gget).
Proof. intros w g R; exact R. Qed.
Lemma hs_bind {A B} (m : HST A) (k : A -> HST B) : hsafe m -> (forall a, hsafe (k a)) -> hsafe (hbind m k).
Proof.
  intros M K w g R. unfold hbind. assert (X := M w g R). destruct (m (w, g)) as [[w1 g1] [a|e]]; [|exact X].
  apply K. exact X.
Qed.
Lemma hs_hook k i : hsafe (execute_hook EH k i).
Proof.
  intros w g R. unfold execute_hook. destruct (get_edge g (t_u i) (t_v i)) as [e|]; [|exact R].
  assert (X := calls (e_type e) k i w g R). destruct (EH (e_type e) k i w g) as [[w' g'] r]. exact X.
Qed.

Lemma hs_apply i : hsafe (apply_hooked EH i).
Proof.
  unfold apply_hooked. apply hs_bind; [apply hs_get|]. intros g0.
  assert (T : forall k, hsafe (hbind (execute_hook EH k i) (fun _ => hret true))).
  { intros k. apply hs_bind; [apply hs_hook|intros _; apply hs_ret]. }
  assert (Hi : forall u v, hsafe (hlift (add_edge_history u v i))).
  { intros u v. exact (hs_op (OHistory u v i) (fun _ => Logic.I)). }
  destruct (t_act i).
  - destruct (negb _); [apply hs_ret|]. apply hs_bind; [apply hs_hook|intros _].
    apply hs_bind; [exact (hs_op (OUpdate (t_u i) (t_v i) (t_data i) None) (fun _ => Logic.I))|intros _].
    apply hs_bind; [apply Hi|intros _]. apply hs_bind; [apply Hi|intros _]. apply T.
  - destruct (negb _); [apply hs_ret|]. apply hs_bind; [apply hs_hook|intros _].
    apply hs_bind; [exact (hs_op (OUpdateDirected (t_u i) (t_v i) (t_data i) None) (fun _ => Logic.I))|intros _].
    apply hs_bind; [apply Hi|intros _]. apply T.
  - destruct (negb _); [apply hs_ret|]. apply hs_bind; [apply hs_hook|intros _]. apply hs_raise.
  - destruct (negb _); [apply hs_ret|]. apply hs_bind; [apply hs_hook|intros _]. apply hs_raise.
  - destruct (negb _); [apply hs_ret|]. apply hs_bind; [apply hs_hook|intros _].
    apply hs_bind; [exact (hs_op (ORemove (t_u i) (t_v i) true) (fun _ => Logic.I))|intros _].
    apply hs_bind; [apply Hi|intros _]. apply hs_bind; [apply Hi|intros _]. apply T.
  - destruct (negb _ && _); [apply hs_ret|]. apply hs_bind; [apply hs_hook|intros _].
    apply hs_bind; [exact (hs_op (ORemoveDirected (t_u i) (t_v i) true) (fun _ => Logic.I))|intros _].
    apply hs_bind.
    + apply hs_bind; [apply hs_get|]. intros g1. destruct (edge_exists g1 _ _); [|apply hs_ret].
      exact (hs_op (OUpdateDirected (t_v i) (t_u i) None (Some TDirected)) (fun _ => Logic.I)).
    + intros _. apply hs_bind; [apply Hi|intros _]. apply T.
  - destruct (edge_exists _ _ _); [apply hs_ret|].
    apply hs_bind; [exact (hs_op (ORestore (t_u i) (t_v i)) (fun _ => Logic.I))|intros _].
    apply hs_bind; [apply Hi|intros _]. apply hs_bind; [apply Hi|intros _]. apply hs_ret.
  - destruct (directed_edge_exists _ _ _); [apply hs_ret|].
    apply hs_bind; [exact (hs_op (ORestoreDirected (t_u i) (t_v i)) (fun _ => Logic.I))|intros _].
    apply hs_bind; [apply Hi|intros _]. apply hs_ret.
  - apply hs_ret.
Qed.

Lemma hs_items dry l : hsafe (take_items_hooked EH dry l).
Proof.
  induction l as [|i l IH]; [apply hs_ret|]. cbn [take_items_hooked]. apply hs_bind.
  - destruct dry; [apply hs_ret|apply hs_apply].
  - intros b. apply hs_bind; [exact IH|]. intros t. apply hs_ret.
Qed.

Lemma hs_take H dry rs : hsafe (take_action_hooked EH H dry rs).
Proof.
  induction rs as [|[items|] rs IH]; [apply hs_ret| |exact IH]. cbn [take_action_hooked].
  apply hs_bind; [apply hs_get|]. intros g. destruct (run_pre_hooks H g items) as [items'|e]; [|apply hs_raise].
  apply hs_bind; [apply hs_items|]. intros t. apply hs_bind; [apply hs_get|]. intros g'.
  destruct (run_post_hooks H g' t); [|apply hs_raise]. apply hs_bind; [exact IH|]. intros p. apply hs_ret.
Qed.

End Calls.

(* ---- which hooks are called ---- *)
Section Noted.
Variable bad : call -> option exn.
Notation EH := (noting bad).

Lemma noting_looks : looks_only EH.
Proof. intros t k i w g; reflexivity. Qed.

(* m notes cs and otherwise does what n does *)
Definition notes {A} (m : HST (W := list call) A) (n : ST A) (g : graph) (cs : list call) : Prop :=
  forall w, m (w, g) = ((w ++ cs)%list, fst (n g), snd (n g)).

Lemma no_ret {A} (a : A) g : notes (hret a) (ret a) g [].
Proof. intros w. rewrite app_nil_r. reflexivity. Qed.
Lemma no_lift {A} (n : ST A) g : notes (hlift n) n g [].
Proof. intros w. rewrite app_nil_r. unfold hlift; cbn [fst snd]. destruct (n g); reflexivity. Qed.
Lemma no_bind {A B} (m : HST A) n (k : A -> HST B) l g c c' :
  notes m n g c ->
  (forall a, snd (n g) = Ok a -> notes (k a) (l a) (fst (n g)) c') ->
  (forall e, snd (n g) = Err e -> c' = []) ->
  notes (hbind m k) (bind n l) g (c ++ c').
Proof.
  intros M K X w. unfold hbind, bind. rewrite (M w). destruct (n g) as [g1 [a|e]]; cbn [fst snd] in *.
  - rewrite (K a eq_refl). rewrite app_assoc. reflexivity.
  - rewrite (X e eq_refl), app_nil_r. reflexivity.
Qed.
Lemma no_hook k i g : notes (execute_hook EH k i) (ret tt) g (one_call g k i).
Proof.
  intros w. unfold execute_hook, one_call, entry. destruct (get_edge g (t_u i) (t_v i)) as [e|]; [reflexivity|].
  rewrite app_nil_r; reflexivity.
Qed.
Lemma no_pre {B} k i (f : unit -> HST B) n g c : notes (f tt) n g c ->
  notes (hbind (execute_hook EH k i) f) n g (one_call g k i ++ c).
Proof. intros F w. unfold hbind. rewrite (no_hook k i g w). cbn [fst snd ret]. rewrite (F _), app_assoc. reflexivity. Qed.

(* n, then the closing hook if n went through; n never answers False *)
Definition ends (k : ehook) (i : tresult) (h : HST (W := list call) bool) (n : ST bool) : Prop :=
  forall g, notes h n g (match snd (n g) with Ok _ => one_call (fst (n g)) k i | Err _ => [] end) /\ snd (n g) <> Ok false.
Definition quiet_part {A} (h : HST (W := list call) A) (n : ST A) : Prop := forall g, notes h n g [].

Lemma en_base k i : ends k i (hbind (execute_hook EH k i) (fun _ => hret true)) (ret true).
Proof.
  intros g; split; [|discriminate]. intros w. unfold hbind. rewrite (no_hook k i g w). reflexivity.
Qed.
Lemma en_step k i (h0 : HST unit) n0 h n : quiet_part h0 n0 -> ends k i h n ->
  ends k i (hbind h0 (fun _ => h)) (n0 ;;; n).
Proof.
  intros Q F g; split.
  - intros w. unfold hbind, bind. rewrite (Q g w), app_nil_r. destruct (n0 g) as [g1 [[]|e]]; cbn [fst snd].
    + apply F.
    + rewrite app_nil_r. reflexivity.
  - unfold bind. destruct (n0 g) as [g1 [[]|e]]; [apply F|discriminate].
Qed.
Lemma en_raise k i e : ends k i (hlift (raise e)) (raise e).
Proof. intros g; split; [|discriminate]. apply (no_lift (raise e) g). Qed.
Lemma qp_bind {A B} (h : HST A) n (k : A -> HST B) l : quiet_part h n -> (forall a, quiet_part (k a) (l a)) ->
  quiet_part (hbind h k) (bind n l).
Proof.
  intros Q F g w. unfold hbind, bind. rewrite (Q g w), !app_nil_r. destruct (n g) as [g1 [a|e]]; cbn [fst snd].
  - rewrite (F a g1 w), app_nil_r. reflexivity.
  - reflexivity.
Qed.
Lemma no_read {A} (k : graph -> HST A) l g c : notes (k g) (l g) g c -> notes (hbind (hlift gget) k) (bind gget l) g c.
Proof. intros N w. unfold hbind, bind, gget, hlift. cbn [fst snd]. apply N. Qed.
Lemma bind_read {A} (l : graph -> ST A) g : bind gget l g = l g g.
Proof. reflexivity. Qed.
(* an action that is due *)
Lemma no_due k1 k2 i h n g : ends k2 i h n ->
  notes (hbind (execute_hook EH k1 i) (fun _ => h)) n g
    match snd (n g) with Ok true => one_call g k1 i ++ one_call (fst (n g)) k2 i | Ok false => [] | Err _ => one_call g k1 i end.
Proof.
  intros He. destruct (He g) as [He1 Nr]. assert (N := no_pre k1 i (fun _ => h) n g _ He1).
  destruct (snd (n g)) as [[|]|e]; [exact N|congruence|]. rewrite app_nil_r in N. exact N.
Qed.

Lemma noted_read i g : notes (apply_hooked EH i) (apply_action i) g (calls_of i g (fst (apply_action i g)) (snd (apply_action i g))).
Proof.
  assert (QL : forall A (n : ST A), quiet_part (hlift n) n) by (intros A n g1; apply no_lift).
  assert (QR : forall A (a : A), quiet_part (hret a) (ret a)) by (intros A a g1; apply no_ret).
  unfold calls_of. unfold apply_action, apply_hooked. apply no_read. rewrite !bind_read.
  destruct (t_act i); cbn [hooks_of].
  - destruct (negb _); [exact (no_ret false g)|]. apply no_due. repeat (apply en_step; [apply QL|]). apply en_base.
  - destruct (negb _); [exact (no_ret false g)|]. apply no_due. repeat (apply en_step; [apply QL|]). apply en_base.
  - destruct (negb _); [exact (no_ret false g)|]. apply (no_due PreTypeChange PostTypeChange). apply en_raise.
  - destruct (negb _); [exact (no_ret false g)|]. apply (no_due PreTypeChange PostTypeChange). apply en_raise.
  - destruct (negb _); [exact (no_ret false g)|]. apply no_due. repeat (apply en_step; [apply QL|]). apply en_base.
  - destruct (negb _ && _); [exact (no_ret false g)|]. apply no_due. apply en_step; [apply QL|]. apply en_step.
    + apply qp_bind; [apply QL|]. intros g1. destruct (edge_exists g1 _ _); [apply QL|apply QR].
    + apply en_step; [apply QL|]. apply en_base.
  - destruct (edge_exists _ _ _); [exact (no_ret false g)|]. match goal with |- notes ?h ?n g [] => cut (quiet_part h n); [intros QQ; apply QQ|] end. repeat (apply qp_bind; [apply QL|intros _]). apply QR.
  - destruct (directed_edge_exists _ _ _); [exact (no_ret false g)|]. match goal with |- notes ?h ?n g [] => cut (quiet_part h n); [intros QQ; apply QQ|] end. repeat (apply qp_bind; [apply QL|intros _]). apply QR.
  - exact (no_ret false g).
Qed.

Lemma noted_apply i g w g' r : apply_action i g = (g', r) ->
  apply_hooked EH i (w, g) = ((w ++ calls_of i g g' r)%list, g', r).
Proof. intros E. rewrite (noted_read i g w), E. reflexivity. Qed.

Lemma noted_items l : forall g w, exists cs, calls_along g l cs /\
  take_items_hooked EH false l (w, g) = ((w ++ cs)%list, fst (take_items false l g), snd (take_items false l g)).
Proof.
  induction l as [|i l IH]; intros g w.
  - exists []; split; [constructor|]. rewrite app_nil_r. reflexivity.
  - cbn [take_items_hooked take_items]. unfold hbind at 1. unfold bind at 1 3. destruct (apply_action i g) as [g1 [b|e]] eqn:E.
    + rewrite (noted_apply i g w g1 (Ok b) E). unfold hbind, bind.
      destruct (IH g1 (w ++ calls_of i g g1 (Ok b))%list) as (cs & C & T). rewrite T.
      exists (calls_of i g g1 (Ok b) ++ cs)%list; split; [econstructor; eassumption|]. rewrite <- app_assoc.
      destruct (take_items false l g1) as [g2 [t|e]]; reflexivity.
    + rewrite (noted_apply i g w g1 (Err e) E). exists (calls_of i g g1 (Err e)); split; [econstructor; eassumption|]. reflexivity.
Qed.
End Noted.
