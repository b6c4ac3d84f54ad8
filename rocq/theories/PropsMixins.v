(* Properties C95 (queries added by edge types and extensions) and C96 (inducing paths). *)
From Verif Require Import Base PyDict Graph GraphSpec GraphPaths Dag PathSpec GraphCheck PropsPaths Mixins MixinSpec MixinFacts Inducing InducingFacts Chordal.
Open Scope string_scope.
Open Scope list_scope.

(* With the edge types and extensions of causy, no call of the factory fails because of the mixins, whatever the
   order in which sets are iterated; every query means what its class says; and the queries of a mixin are
   available exactly when some model with it has been created. *)
Theorem C95_shipped_partial : forall calls so ms,
  Forall (fun c => lists_set (fst c) /\ incl (snd c) shipped_mixins) calls -> lists_set so -> incl ms shipped_mixins ->
  let bases := factory_calls causy_classes calls graph_bases in
  snd (extend_graph_class causy_classes so ms bases) = Ok tt /\
  (forall m, In m base_queries -> graph_query causy_classes bases m = Ok "GraphBaseAccessMixin") /\
  (forall d m, In d shipped_mixins -> In m (c_defs (causy_classes d)) ->
     ((exists c, In c calls /\ In d (snd c)) -> graph_query causy_classes bases m = Ok d) /\
     (~ (exists c, In c calls /\ In d (snd c)) -> graph_query causy_classes bases m = Err AttributeError)).
Proof.
  intros calls so ms F S M bases. assert (K : state_ok calls bases) by (apply (state_calls calls F [] graph_bases state_start)).
  split; [apply (state_step calls bases so ms K S M)|]. split.
  - intros m Hm. rewrite (query_owner calls bases "GraphBaseAccessMixin" m K); [|vm_compute; auto|exact Hm].
    destruct K as (_ & _ & G & _). replace (mem "GraphBaseAccessMixin" bases) with true; [reflexivity|]. symmetry. apply mem_In, G. right; left; reflexivity.
  - intros d m Hd Hm. rewrite (query_owner calls bases d m K); [|apply in_app_iff; right; exact Hd|exact Hm]. destruct K as (_ & _ & _ & D).
    destruct (mem d bases) eqn:Mb.
    + apply mem_In in Mb. split; [reflexivity|]. intros N. destruct N. apply (D d Hd); exact Mb.
    + apply mem_not_In in Mb. split; [|reflexivity]. intros X. destruct Mb. apply (D d Hd); exact X.
Qed.
Print Assumptions C95_shipped_partial.

(* Whatever classes users add: a query that exists once exists for the rest of the process. *)
Theorem C95_kept : forall C calls more m a, Forall (fun c => lists_set (fst c)) more ->
  is_ok (linearize C "Graph" graph_bases) = true ->
  let bases := factory_calls C calls graph_bases in
  graph_query C bases m = Ok a -> exists b, graph_query C (factory_calls C more bases) m = Ok b.
Proof. intros C calls more m a S L bases. apply kept_main; [exact S|apply calls_linear; exact L]. Qed.
Print Assumptions C95_kept.

(* ... and the order of the set does not matter for a query that a single class defines. *)
Theorem C95_order : forall C so so' ms bases m, lists_set so -> lists_set so' ->
  (forall x, In x (distinct (bases ++ contributed C ms)) -> In x (c_mro (C x))) -> ~ In m (c_defs (C "Graph")) ->
  one_owner C (distinct (bases ++ contributed C ms)) m ->
  snd (extend_graph_class C so ms bases) = Ok tt -> snd (extend_graph_class C so' ms bases) = Ok tt ->
  graph_query C (fst (extend_graph_class C so ms bases)) m = graph_query C (fst (extend_graph_class C so' ms bases)) m.
Proof.
  intros C so so' ms bases m S S' R G U E E'. unfold extend_graph_class in *.
  set (l := distinct (bases ++ contributed C ms)) in *.
  destruct (linearize C "Graph" (so l)) as [o|e] eqn:L; [|discriminate]. destruct (linearize C "Graph" (so' l)) as [o'|e] eqn:L'; [|discriminate].
  cbn [fst]. apply order_main.
  - apply (Permutation_trans (S l)), Permutation_sym, S'.
  - intros x Hx. apply R. apply (Permutation_in x (S l) Hx).
  - exact G.
  - intros a b (x & Hx & Ha) (y & Hy & Hb). apply U; [exists x|exists y]; (split; [|assumption]); apply (Permutation_in _ (S l)); assumption.
  - unfold linear; rewrite L; reflexivity.
  - unfold linear; rewrite L'; reflexivity.
Qed.
Print Assumptions C95_order.

(* model.graph does not have the queries at all, only model.graph.graph has them *)
Theorem C95_manager_refuted : exists d m, In d shipped_mixins /\ In m (c_defs (causy_classes d)) /\
  (forall calls so ms, Forall (fun c => lists_set (fst c) /\ incl (snd c) shipped_mixins) calls -> lists_set so -> incl ms shipped_mixins -> In d ms ->
     graph_query causy_classes (factory_calls causy_classes (calls ++ [(so, ms)]) graph_bases) m = Ok d) /\
  manager_query causy_classes m = Err AttributeError.
Proof.
  exists directed_mixin, "only_directed_edge_exists". split; [left; reflexivity|]. split; [left; reflexivity|]. split; [|vm_compute; reflexivity].
  intros calls so ms F S M Hd.
  assert (F' : Forall (fun c => lists_set (fst c) /\ incl (snd c) shipped_mixins) (calls ++ [(so, ms)])) by (apply Forall_app; split; [exact F|]; constructor; [split; assumption|constructor]).
  destruct (C95_shipped_partial _ so ms F' S M) as (_ & _ & K). apply (K directed_mixin "only_directed_edge_exists"); [left; reflexivity|left; reflexivity|].
  exists (so, ms). split; [apply in_app_iff; right; left; reflexivity|exact Hd].
Qed.
Print Assumptions C95_manager_refuted.

(* the queries of other algorithms appear on the graphs of an algorithm without them *)
Theorem C95_leak_refuted : exists own other m, incl own shipped_mixins /\ incl other shipped_mixins /\
  graph_query causy_classes (factory_calls causy_classes [(fun l => l, own)] graph_bases) m = Err AttributeError /\
  is_ok (graph_query causy_classes (factory_calls causy_classes [(fun l => l, own); (fun l => l, other)] graph_bases) m) = true.
Proof.
  exists [plain_edge_mixin], [directed_mixin], "directed_paths". split; [intros x [<-|[]]; vm_compute; auto|]. split; [intros x [<-|[]]; vm_compute; auto|].
  split; vm_compute; reflexivity.
Qed.
Print Assumptions C95_leak_refuted.

(* An edge type of a user that brings its own edge_exists: the iteration order of the set decides whether it is used. *)
Definition with_class (C : classes) (n : string) (c : pyclass) : classes := fun x => if eqb x n then c else C x.
Definition overriding : classes := with_class causy_classes "Own.GraphAccessMixin" (mkClass ["Own.GraphAccessMixin"; "object"] ["edge_exists"] false).
Theorem C95_override_refuted : exists so so', lists_set so /\ lists_set so' /\
  let q s := graph_query overriding (factory_calls overriding [(s, ["Own.GraphAccessMixin"])] graph_bases) "edge_exists" in
  q so = Ok "GraphBaseAccessMixin" /\ q so' = Ok "Own.GraphAccessMixin".
Proof.
  exists (fun l => l), (@rev string). split; [intros l; apply Permutation_refl|]. split; [intros l; apply Permutation_sym, Permutation_rev|].
  split; vm_compute; reflexivity.
Qed.
Print Assumptions C95_override_refuted.
(* An edge type whose mixin extends that of DirectedEdge: the order decides whether the model can be created. *)
Definition extending : classes :=
  with_class causy_classes "Own.GraphAccessMixin" (mkClass ["Own.GraphAccessMixin"; directed_mixin; "object"] ["directed_paths"] false).
Theorem C95_subclass_refuted : exists so so', lists_set so /\ lists_set so' /\
  let f s := snd (extend_graph_class extending s [directed_mixin; "Own.GraphAccessMixin"] graph_bases) in
  f so = Err TypeError /\ f so' = Ok tt.
Proof.
  exists (fun l => l), (@rev string). split; [intros l; apply Permutation_refl|]. split; [intros l; apply Permutation_sym, Permutation_rev|].
  split; vm_compute; reflexivity.
Qed.
Print Assumptions C95_subclass_refuted.

(* PC, then a user's model with the mixin of inducing paths *)
Definition two_calls : list ((list string -> list string) * list string) :=
  [(fun l => l, [directed_mixin; plain_edge_mixin; plain_extension_mixin]); (@rev string, [plain_edge_mixin; inducing_mixin])].
Example C95_nonvacuous : Forall (fun c => lists_set (fst c) /\ incl (snd c) shipped_mixins) two_calls /\
  graph_query causy_classes (factory_calls causy_classes two_calls graph_bases) "directed_paths" = Ok directed_mixin /\
  graph_query causy_classes (factory_calls causy_classes two_calls graph_bases) "inducing_path_exists" = Ok inducing_mixin /\
  graph_query causy_classes (factory_calls causy_classes two_calls graph_bases) "bidirected_edge_exists" = Err AttributeError /\
  manager_query causy_classes "edge_exists" = Ok "GraphBaseAccessMixin" /\ manager_query causy_classes "add_edge" = Ok "GraphManager" /\
  one_owner overriding (distinct (graph_bases ++ contributed overriding ["Own.GraphAccessMixin"])) "edge_value".
Proof.
  split.
  { constructor; [|constructor; [|constructor]]; (split; cbn [fst snd];
      [intros l; first [apply Permutation_refl|apply Permutation_sym, Permutation_rev]|
       intros x Hx; apply mem_In; revert x Hx; apply forallb_forall; vm_compute; reflexivity]). }
  repeat (split; [vm_compute; reflexivity|]).
  intros a b (x & Hx & Ha) (y & Hy & Hb). vm_compute in Hx, Hy.
  assert (K : forall z c, In z ["BaseModel"; "GraphBaseAccessMixin"; "Own.GraphAccessMixin"] -> In c (c_mro (overriding z)) -> In "edge_value" (c_defs (overriding c)) -> c = "GraphBaseAccessMixin").
  { intros z c Hz Hc Hm. destruct Hz as [<-|[<-|[<-|[]]]]; vm_compute in Hc; repeat (destruct Hc as [<-|Hc]; [apply mem_In in Hm; vm_compute in Hm; first [discriminate|reflexivity]|]); destruct Hc. }
  intros Hm Hm'. rewrite (K x a Hx Ha Hm), (K y b Hy Hb Hm'); reflexivity.
Qed.

(* C96.  What inducing_path_exists answers on the graph of an acyclic model. *)
Theorem C96_outcome_partial : forall calls call fuel g u v,
  Forall (fun c => lists_set (fst c) /\ incl (snd c) shipped_mixins) calls -> (exists c, In c calls /\ In directed_mixin (snd c)) ->
  reachable g -> all_live g -> acyclic (arrow g) -> List.length (nodes g) < fuel -> (exists w, edge_exists g u w = true) ->
  let answer := inducing_path_exists causy_classes (factory_calls causy_classes calls graph_bases) call fuel g u v in
  ((forall p, listed_path g u v p -> List.length p < 4) -> answer = Ok false) /\
  ((exists p, listed_path g u v p /\ 4 <= List.length p) -> answer = Err AttributeError).
Proof.
  intros calls call fuel g u v F D R L A Hf Hw answer. unfold answer, inducing_path_exists.
  destruct (C16_directed_path_exists g u v fuel R L A Hf Hw) as (b & -> & Hb). cbn [rbind].
  destruct (C95_shipped_partial calls (fun l => l) [] F (fun l => Permutation_refl l) (fun x H => match H with end)) as (_ & _ & K).
  destruct (K directed_mixin "directed_paths") as [K1 _]; [left; reflexivity|right; right; left; reflexivity|]. rewrite (K1 D). cbn [rbind].
  assert (Q : graph_query causy_classes (factory_calls causy_classes calls graph_bases) "bidirected_edge_exists" = Err AttributeError).
  { assert (S : state_ok calls (factory_calls causy_classes calls graph_bases)) by (apply (state_calls calls F [] graph_bases state_start)).
    destruct S as (N & I & _). destruct (query_cases causy_classes _ "bidirected_edge_exists" (shipped_linear _ N I)) as (o & E & ->).
    apply lookup_missing. intros c Hc Hm. apply (linearize_In _ _ _ _ E) in Hc.
    assert (V : In c ("Graph" :: "ABC" :: "object" :: universe)) by (destruct Hc as [->|Hc]; [left; reflexivity|right; apply (above_universe _ c I Hc)]).
    revert c V Hm Hc. intros c V Hm _. assert (X : forallb (fun c => negb (mem "bidirected_edge_exists" (c_defs (causy_classes c)))) ("Graph" :: "ABC" :: "object" :: universe) = true) by (vm_compute; reflexivity).
    rewrite forallb_forall in X. specialize (X c V). apply mem_In in Hm. rewrite Hm in X. discriminate. }
  rewrite Q. cbn [rbind].
  destruct (C17_directed_paths_partial g u v fuel R A Hf Hw) as (ps & -> & Hps). cbn [rbind]. split.
  - intros H. destruct b; cbn [negb]; [|reflexivity]. apply loop_short. intros q Hq. apply Hps in Hq. destruct Hq as (p & Hp & ->).
    specialize (H p Hp). rewrite pairs_length. lia.
  - intros (p & Hp & Hl). assert (b = true) as ->.
    { apply Hb. destruct Hp as ((q & Eq) & (q' & E') & Ch & L2 & _). destruct q as [|y q]; [subst p; cbn in L2; lia|]. subst p.
      destruct q' as [|z q']; [discriminate|]. injection E' as -> E'. rewrite E' in Ch. apply (chain_plus _ z q' v []). exact Ch. }
    cbn [negb]. apply loop_long. exists (pairs_of p). split; [apply Hps; exists p; auto|]. rewrite pairs_length. lia.
Qed.
Print Assumptions C96_outcome_partial.

(* It never answers True, on any graph and after any calls of the factory. *)
Theorem C96_never : forall calls call fuel g u v,
  Forall (fun c => lists_set (fst c) /\ incl (snd c) shipped_mixins) calls ->
  inducing_path_exists causy_classes (factory_calls causy_classes calls graph_bases) call fuel g u v <> Ok true.
Proof.
  intros calls call fuel g u v F. unfold inducing_path_exists.
  destruct (directed_path_exists fuel g u v) as [[]|e]; cbn [rbind negb]; try discriminate.
  destruct (graph_query causy_classes _ "directed_paths"); cbn [rbind]; [|discriminate]. destruct (directed_paths fuel g u v) as [ps|e]; cbn [rbind]; [|discriminate].
  assert (Q : graph_query causy_classes (factory_calls causy_classes calls graph_bases) "bidirected_edge_exists" = Err AttributeError).
  { assert (S : state_ok calls (factory_calls causy_classes calls graph_bases)) by (apply (state_calls calls F [] graph_bases state_start)).
    destruct S as (N & I & _). destruct (query_cases causy_classes _ "bidirected_edge_exists" (shipped_linear _ N I)) as (o & E & ->).
    apply lookup_missing. intros c Hc Hm. apply (linearize_In _ _ _ _ E) in Hc.
    assert (V : In c ("Graph" :: "ABC" :: "object" :: universe)) by (destruct Hc as [->|Hc]; [left; reflexivity|right; apply (above_universe _ c I Hc)]).
    clear Hc. assert (X : forallb (fun c => negb (mem "bidirected_edge_exists" (c_defs (causy_classes c)))) ("Graph" :: "ABC" :: "object" :: universe) = true) by (vm_compute; reflexivity).
    rewrite forallb_forall in X. specialize (X c V). apply mem_In in Hm. rewrite Hm in X. discriminate. }
  rewrite Q. cbn [rbind]. destruct (loop_cases AttributeError ps) as [X|X]; rewrite X; discriminate.
Qed.
Print Assumptions C96_never.

(* The docstring: a directed path on which all mediators are colliders.  In a DAG that is an edge from u to v. *)
Theorem C96_docstring : forall g u v, acyclic (arrow g) ->
  ((exists p, directed_path g u v p /\ forall a b c, triple_on p a b c -> collider (arrow g) a b c) <-> arrow g u v).
Proof.
  intros g u v A. split.
  - intros (p & ((q & ->) & (q' & E') & Ch & L) & K). destruct q as [|y q]; [cbn in L; lia|]. destruct q as [|z q].
    + destruct q' as [|a [|b q']]; [discriminate| |destruct q'; discriminate]. injection E' as -> ->. inversion Ch; assumption.
    + destruct (K u y z) as [_ Hzy]; [exists [], q; reflexivity|]. exfalso. inversion Ch as [| |? ? ? _ Ch']; subst. inversion Ch' as [| |? ? ? Hyz _]; subst.
      apply (A y). exists z. split; [exact Hyz|]. econstructor; [exact Hzy|constructor].
  - intros H. exists [u; v]. split.
    + split; [exists [v]; reflexivity|]. split; [exists [u]; reflexivity|]. split; [constructor; [exact H|constructor]|cbn; lia].
    + intros a b c (p1 & p2 & E). exfalso. apply (f_equal (@List.length id)) in E. rewrite app_length in E. cbn in E. lia.
Qed.
Print Assumptions C96_docstring.
(* ... so the answer is wrong for every edge, False or an exception *)
Theorem C96_edge_refuted : exists g u v, reachable g /\ all_live g /\ acyclic (arrow g) /\ arrow g u v /\
  forall calls call fuel, Forall (fun c => lists_set (fst c) /\ incl (snd c) shipped_mixins) calls -> (exists c, In c calls /\ In directed_mixin (snd c)) ->
  List.length (nodes g) < fuel ->
  inducing_path_exists causy_classes (factory_calls causy_classes calls graph_bases) call fuel g u v = Ok false.
Proof.
  exists gT, "u", "v". destruct gT_ok as (R & D & L). split; [exact R|]. split; [exact L|]. split; [apply (dg_acyclic _ D)|]. split; [vm_compute; reflexivity|].
  intros calls call fuel F Hd Hf. apply (C96_outcome_partial calls call fuel gT "u" "v" F Hd R L (dg_acyclic _ D) Hf).
  - exists "v". vm_compute; reflexivity.
  - destruct (C17_directed_paths_partial gT "u" "v" 5 R (dg_acyclic _ D)) as (ps & E & H); [vm_compute; lia|exists "v"; vm_compute; reflexivity|].
    intros p Hp. assert (I : In (pairs_of p) ps) by (apply H; exists p; auto). vm_compute in E. injection E as <-.
    assert (P := pairs_length p). destruct I as [I|[]]. rewrite <- I in P. cbn in P. lia.
Qed.
Print Assumptions C96_edge_refuted.
(* a -> b -> c -> d: the call fails *)
Definition gLine : graph := build ["a"; "b"; "c"; "d"] [("a", "b"); ("b", "c"); ("c", "d")] [].
Lemma gLine_ok : reachable gLine /\ dag_graph gLine /\ all_live gLine.
Proof. split; [apply build_reachable|split; [apply check_dag_ok|apply check_live_ok]; vm_compute; reflexivity]. Qed.
Theorem C96_long_refuted : exists g u v, reachable g /\ all_live g /\ acyclic (arrow g) /\ edge_exists g u v = false /\
  forall calls call fuel, Forall (fun c => lists_set (fst c) /\ incl (snd c) shipped_mixins) calls -> (exists c, In c calls /\ In directed_mixin (snd c)) ->
  List.length (nodes g) < fuel ->
  inducing_path_exists causy_classes (factory_calls causy_classes calls graph_bases) call fuel g u v = Err AttributeError.
Proof.
  exists gLine, "a", "d". destruct gLine_ok as (R & D & L). split; [exact R|]. split; [exact L|]. split; [apply (dg_acyclic _ D)|]. split; [vm_compute; reflexivity|].
  intros calls call fuel F Hd Hf. apply (C96_outcome_partial calls call fuel gLine "a" "d" F Hd R L (dg_acyclic _ D) Hf).
  - exists "b". vm_compute; reflexivity.
  - destruct (C17_directed_paths_partial gLine "a" "d" 5 R (dg_acyclic _ D)) as (ps & E & H); [vm_compute; lia|exists "b"; vm_compute; reflexivity|].
    vm_compute in E. injection E as <-. destruct (proj1 (H _) (or_introl eq_refl)) as (p & Hp & Ep). exists p. split; [exact Hp|].
    assert (P := pairs_length p). rewrite <- Ep in P. cbn in P. lia.
Qed.
Print Assumptions C96_long_refuted.
Example C96_nonvacuous : Forall (fun c => lists_set (fst c) /\ incl (snd c) shipped_mixins) two_calls /\ (exists c, In c two_calls /\ In directed_mixin (snd c)) /\
  reachable gLine /\ all_live gLine /\ acyclic (arrow gLine) /\ List.length (nodes gLine) < 5 /\ edge_exists gLine "a" "b" = true /\
  inducing_path_exists causy_classes (factory_calls causy_classes two_calls graph_bases) (fun _ _ => Ok true) 5 gLine "a" "c" = Ok false /\
  inducing_path_exists causy_classes (factory_calls causy_classes two_calls graph_bases) (fun _ _ => Ok true) 5 gLine "a" "d" = Err AttributeError.
Proof.
  split; [apply C95_nonvacuous|]. split; [exists (hd (fun l => l, []) two_calls); split; [left; reflexivity|left; reflexivity]|].
  destruct gLine_ok as (R & D & L). split; [exact R|]. split; [exact L|]. split; [apply (dg_acyclic _ D)|].
  split; [vm_compute; lia|]. repeat (split; [vm_compute; reflexivity|]). vm_compute; reflexivity.
Qed.
