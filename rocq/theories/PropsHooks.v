(* Property C94 (graph update hooks). *)
From Verif Require Import Base PyDict Graph GraphSpec Actions ActionSpec ActionMain Generators Rules IndepTests Pipeline Parallel
  PipeSpec PipeMain PipeMain2 GraphMain GraphCheck Toy PropsPipe HookSpec HookFacts.
Open Scope string_scope.
Open Scope list_scope.

(* Everything a run appends to the action history has gone through the pre-update hooks: whatever the
   tests propose, the schedule, and whether the run fails. *)
Theorem C94_recorded : forall fuel P H l Q g g' r, pool_runner H P -> reached g -> guarded_by Q H ->
  execute_pipeline fuel P H l g = (g', r) ->
  exists hs, ahist g' = ahist g ++ hs /\ Forall (passed Q) hs.
Proof.
  intros fuel P H l Q g g' r HP R G E.
  destruct (pipeline_grown Q H (fun g l l' => guarded_pre Q H g l l' G) (ahist g) fuel P l HP g) as [(_ & X) _].
  - split; [apply reached_WF; exact R|]. exists []; split; [rewrite app_nil_r; reflexivity|constructor].
  - rewrite E in X. exact X.
Qed.
Print Assumptions C94_recorded.

(* An edge direction whose removal a pre-update hook never lets through survives every run. *)
Theorem C94_protected : forall fuel P H l x y g g' r, pool_runner H P -> reached g ->
  guarded_by (fun i => ~ removes x y i) H -> directed_edge_exists g x y = true ->
  execute_pipeline fuel P H l g = (g', r) -> directed_edge_exists g' x y = true.
Proof.
  intros fuel P H l x y g g' r HP R G D E.
  destruct (protected_main fuel P H l x y g HP G (conj (reached_WF _ R) D)) as [_ X]. rewrite E in X. exact X.
Qed.
Print Assumptions C94_protected.

(* If the pre-update hooks let nothing through, a run changes no edge, no value and no edge history. *)
Theorem C94_nothing_passes : forall fuel P H l g g' r, pool_runner H P -> reached g -> guarded_by (fun _ => False) H ->
  execute_pipeline fuel P H l g = (g', r) ->
  nodes g' = nodes g /\ (forall p, history g' p = history g p) /\
  forall u v, directed_edge_exists g' u v = directed_edge_exists g u v /\
    (directed_edge_exists g u v = true -> entry g' u v = entry g u v).
Proof.
  intros fuel P H l g g' r HP R G E. assert (X := dropped_main fuel P H l g HP G (reached_WF _ R)). rewrite E in X. exact (proj2 X).
Qed.
Print Assumptions C94_nothing_passes.

(* Post-update hooks are told of actions that have been carried out: hooks that raise on anything else
   never raise, so the run is the run without them.  Missing: pipelines with ApplyActionsTogether, for
   which it is false. *)
Theorem C94_told_partial : forall fuel P pre post l g, reached g -> Forall not_together l -> Forall sequential l ->
  (forall h g t, In h post -> carried_out g t -> h g t = Ok tt) ->
  execute_pipeline fuel P (mkHooks pre post) l g = execute_pipeline fuel P (mkHooks pre []) l g.
Proof. intros fuel P pre post l g R N S Hp. apply (told_pipeline pre post Hp); [exact N|exact S|apply reached_WF; exact R]. Qed.
Print Assumptions C94_told_partial.
(* the same for one parallel step, whatever the schedule *)
Theorem C94_told_parallel : forall pre post s g r, reached g ->
  (forall h g t, In h post -> carried_out g t -> h g t = Ok tt) ->
  par_exec (mkHooks pre post) s false g r -> par_exec (mkHooks pre []) s false g r.
Proof. intros pre post s g r R Hp E. apply (told_par pre post Hp); [exact E|apply reached_WF; exact R]. Qed.
Print Assumptions C94_told_parallel.

(* ---- concrete hooks ---- *)
Definition removesb (x y : id) (i : tresult) : bool :=
  match t_act i with
  | REMOVE_EDGE_DIRECTED => String.eqb (t_u i) x && String.eqb (t_v i) y
  | REMOVE_EDGE_UNDIRECTED => (String.eqb (t_u i) x && String.eqb (t_v i) y) || (String.eqb (t_u i) y && String.eqb (t_v i) x)
  | _ => false
  end.
(* a hook that keeps the edge between x and y *)
Definition protect (x y : id) : graph -> list tresult -> res (list tresult) :=
  fun _ l => Ok (filter (fun i => negb (removesb x y i || removesb y x i)) l).
Definition drop_all : graph -> list tresult -> res (list tresult) := fun _ _ => Ok [].
(* a post-update hook that raises if it is told of an action of a kind that the edge history of the pair lacks *)
Definition audit : graph -> list tresult -> res unit := fun g t =>
  if forallb (fun i => existsb (fun j => taction_eqb (t_act j) (t_act i)) (history g (t_u i, t_v i))) t then Ok tt else Err AssertionError.

Lemma removesb_iff x y i : removes x y i -> removesb x y i = true.
Proof.
  unfold removes, removesb. intros [(-> & -> & ->)|(-> & [(-> & ->)|(-> & ->)])]; rewrite !String.eqb_refl; try reflexivity; apply orb_true_r.
Qed.
Lemma protect_guards x y post : guarded_by (fun i => ~ removes x y i) (mkHooks [protect x y] post).
Proof.
  exists [], (protect x y), []. split; [reflexivity|]. split; [|intros h []].
  intros g l l' E. injection E as <-. apply Forall_forall. intros i Hi R. apply filter_In in Hi. destruct Hi as [_ Hi].
  apply removesb_iff in R. rewrite R in Hi. discriminate.
Qed.
Lemma taction_eqb_refl a : taction_eqb a a = true.
Proof. destruct a; reflexivity. Qed.
Lemma audit_ok h g t : In h [audit] -> carried_out g t -> h g t = Ok tt.
Proof.
  intros [<-|[]] C. unfold audit. replace (forallb _ t) with true; [reflexivity|]. symmetry. apply forallb_forall. intros i Hi.
  apply existsb_exists. exists i. split; [apply C; exact Hi|apply taction_eqb_refl].
Qed.

(* ApplyActionsTogether: the post-update hooks run when the actions are collected, before any of them is
   carried out.  The skeleton phase of PCStable with a hook that accepts every carried out action: *)
Theorem C94_told_refuted : exists post l g, reached g /\ shipped_pipeline false l /\ Forall sequential l /\
  (forall h g t, In h post -> carried_out g t -> h g t = Ok tt) /\
  is_ok (snd (execute_pipeline 5 (batch_runner no_hooks) (mkHooks [] []) l g)) = true /\
  snd (execute_pipeline 5 (batch_runner no_hooks) (mkHooks [] post) l g) = Err AssertionError.
Proof.
  exists [audit], (pc_stable_skeleton dedup (toy path4)), (toy_start names4).
  split; [exact names4_reached|]. split.
  { intros p s Hp Hs. left. cbn in Hp. repeat (destruct Hp as [<-|Hp]; [cbn in Hs; repeat (destruct Hs as [<-|Hs]; [constructor|]); destruct Hs|]). destruct Hp. }
  split.
  { repeat constructor; intros s Hs; cbn in Hs; repeat (destruct Hs as [<-|Hs]; [reflexivity|]); destruct Hs. }
  split; [exact audit_ok|]. split; vm_compute; reflexivity.
Qed.
Print Assumptions C94_told_refuted.

(* ... and every action passes the pre-update hooks twice: a hook that reverses the direction of an action
   has no effect at all.  The step orients one edge; with the hook it orients it the other way round, but
   not inside an ApplyActionsTogether. *)
Definition reverse_hook : graph -> list tresult -> res (list tresult) :=
  fun _ l => Ok (map (fun i => mkT (t_v i) (t_u i) (t_act i) (t_data i)) l).
Definition orient_ab : step :=
  mkStep "orient" (fun _ => [fun _ => Ok [One ["a"; "b"]]]) false false false false
    (fun _ ns _ => match ns with [u; v] => Ok (Some [mkT u v REMOVE_EDGE_DIRECTED None]) | _ => Err ValueError end).
Theorem C94_once_refuted : exists H s g x y, reached g /\ s_parallel s = false /\ post_hooks H = [] /\
  let run K p := fst (execute_pipeline 1 (batch_runner K) K [p] g) in
  only_directed_edge_exists (run no_hooks (PStep s)) x y = true /\
  only_directed_edge_exists (run no_hooks (PTogether "t" [s])) x y = true /\
  only_directed_edge_exists (run H (PStep s)) y x = true /\
  only_directed_edge_exists (run H (PTogether "t" [s])) x y = true.
Proof.
  exists (mkHooks [reverse_hook] []), orient_ab, (toy_start names4), "b", "a".
  split; [exact names4_reached|]. split; [reflexivity|]. split; [reflexivity|]. cbn zeta.
  repeat (split; [vm_compute; reflexivity|]). vm_compute; reflexivity.
Qed.
Print Assumptions C94_once_refuted.

(* PC on a -> c <- b, c - d: without hooks the edge a - b is removed, with the hook it survives; with the
   auditing hook the run is the same as without; with the hook that drops everything nothing happens. *)
Example C94_nonvacuous :
  let run H l := execute_pipeline 5 (batch_runner H) H l (toy_start names4) in
  let Hp := mkHooks [protect "a" "b"] [] in
  reached (toy_start names4) /\ pool_runner Hp (batch_runner Hp) /\
  guarded_by (fun i => ~ removes "a" "b" i) Hp /\ guarded_by (fun _ => False) (mkHooks [drop_all] []) /\
  directed_edge_exists (toy_start names4) "a" "b" = true /\
  directed_edge_exists (fst (run no_hooks (pc dedup (toy fork4)))) "a" "b" = false /\
  is_ok (snd (run Hp (pc dedup (toy fork4)))) = true /\
  directed_edge_exists (fst (run Hp (pc dedup (toy fork4)))) "a" "b" = true /\
  directed_edge_exists (fst (run Hp (pc dedup (toy fork4)))) "a" "d" = false /\
  is_ok (snd (run (mkHooks [drop_all] []) (pc dedup (toy fork4)))) = false /\
  is_ok (snd (run (mkHooks [protect "a" "b"] [audit]) (pc dedup (toy fork4)))) = true /\
  Forall not_together (pc dedup (toy fork4)) /\ Forall sequential (pc dedup (toy fork4)).
Proof.
  cbn zeta. split; [exact names4_reached|]. split; [apply batch_pool|]. split; [apply protect_guards|]. split.
  { exists [], drop_all, []. split; [reflexivity|]. split; [intros g l l' E; injection E as <-; constructor|intros h []]. }
  repeat (split; [vm_compute; reflexivity|]). split.
  - repeat constructor.
  - repeat constructor; intros s Hs; cbn in Hs; repeat (destruct Hs as [<-|Hs]; [reflexivity|]); destruct Hs.
Qed.
