(* Particular schedules of a parallel step (graph_model.py:450-472). *)
From Verif Require Import Base PyDict Graph Actions Generators Rules IndepTests Pipeline Parallel PipeMain2.

(* every task of the step is computed on the graph the step starts with; the results arrive in any order *)
Definition early_on (s : step) (P : runner) : Prop := forall dry g es os,
  gen_run (s_gen s g) g = Ok es -> rmap (fun e => rbind (as_args e) (fun ns => call s g ns None)) es = Ok os ->
  exists os', Permutation os' os /\ P s dry g = take_each no_hooks dry os' ([], []) g.
Lemma batch_early s : early_on s (batch_runner no_hooks).
Proof. intros dry g es os G R. exists os. split; [apply Permutation_refl|]. unfold batch_runner. rewrite G, R. reflexivity. Qed.

(* every task sees the newest graph: the result of a task is applied before the next task is handed over *)
Fixpoint fresh_each (H : hooks) (dry : bool) (s : step) (es : list emission) (a : acts2) : ST acts2 :=
  match es with
  | [] => ret a
  | t :: r => g <- gget ;; o <- liftr (rbind (as_args t) (fun ns => call s g ns None)) ;;
              b <- take_action H dry (single_results o) ;; fresh_each H dry s r (plus2 a b)
  end.
Definition fresh_runner (H : hooks) : runner := fun s dry g =>
  match gen_run (s_gen s g) g with
  | Err e => (g, Err e)
  | Ok es => fresh_each H dry s es ([], []) g
  end.
Lemma fresh_work H dry s : forall es past g a, In g past -> par_run H dry s [] es [] past g a (fresh_each H dry s es a g).
Proof.
  induction es as [|t es IH]; intros past g a Hg; cbn [fresh_each]; [apply par_end|]. unfold bind, gget, liftr. cbn [fst snd].
  destruct (rbind (as_args t) (fun ns => call s g ns None)) as [o|e] eqn:C.
  - unfold ret. cbn iota beta. apply (par_work H dry s [] [] t es [] past g a g o _ Hg C). cbn [app].
    destruct (take_action H dry (single_results o) g) as [g' [b|e]] eqn:T.
    + eapply (par_take H dry s [] es [] o []); [exact T|]. apply IH. left; reflexivity.
    + eapply (par_take_error H dry s [] es [] o []); exact T.
  - unfold raise. apply (par_work_error H dry s [] [] t es [] past g a g e Hg C).
Qed.
Lemma fresh_gen H dry s g : forall bs tasks,
  par_run H dry s bs tasks [] [g] g ([], []) match gen_run bs g with Err e => (g, Err e) | Ok es => fresh_each H dry s (tasks ++ es) ([], []) g end.
Proof.
  unfold gen_run; induction bs as [|f bs IH]; intros tasks; cbn [rflat].
  - rewrite app_nil_r. apply fresh_work. left; reflexivity.
  - destruct (f g) as [es|e] eqn:F; cbn [rbind].
    + eapply par_gen; [left; reflexivity|exact F|]. specialize (IH (tasks ++ es)). destruct (rflat _ bs); cbn [rbind]; [|exact IH].
      rewrite <- app_assoc in IH; exact IH.
    + eapply par_gen_error; [left; reflexivity|exact F].
Qed.
Lemma fresh_pool H : pool_runner H (fresh_runner H).
Proof. intros s dry g. apply (fresh_gen H dry s g (s_gen s g) []). Qed.
