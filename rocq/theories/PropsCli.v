(* The commands `causy execute` and `causy eject`: C114. *)
From Coq Require Import Ascii.
From Verif Require Import Base PyDict PyDictFacts PyStr Graph GraphSpec GraphFacts GraphInv GraphInv2 GraphInv3 GraphQ Actions ActionSpec ActionFacts ActionMain Generators GenSpec Rules IndepTests
  Pipeline Parallel PipeSpec PipeFacts PipeMain RuleFacts PipeMain2 Construct ConstructSpec ConstructFacts SkelStart SkelSpec Toy PropsPipe PropsAgain GraphCheck SkelSpec Dag Ideal OrientSpec OrientTop PropsCpdag TypeSpec TypeFacts PropsTypes PropsListing GraphMain PropsGraph
  JsonText JsonTextSpec JsonTextFacts JsonTextMain PropsJsonText DataFile Workspace Execute ResultText ResultTextSpec ResultTextFacts PropsResult GraphResult GraphResultSpec GraphResultFacts PropsGraphResult Cli CliSpec.
From Verif Require Variables Json Config ConfigClasses Eject.
Open Scope string_scope.
Open Scope list_scope.

(* ---- nodes of a table are named by their columns ---- *)
Definition own_names (n : dict id Graph.node) : Prop := forall k x, dget n k = Some x -> n_name x = k.
Lemma own_add l : forall g g', own_names (nodes g) -> add_columns l g = (g', Ok tt) -> own_names (nodes g').
Proof.
  induction l as [|[k vs] l IH]; intros g g' O R; [injection R as <-; exact O|]. cbn [add_columns] in R. unfold bind in R. unfold add_node in R at 1.
  destruct (dmem (nodes g) k); [discriminate R|]. destruct (tensor vs) as [t|]; [|discriminate R]. apply (IH _ g') in R; [exact R|]. intros i x D. cbn [nodes with_nodes] in D.
  destruct (string_dec i k) as [->|Ne]; [rewrite dget_dset_same in D; injection D as <-; reflexivity|]. rewrite dget_dset_other in D by congruence. exact (O i x D).
Qed.
Lemma own_new l g : new_graph (add_columns l) = Ok g -> own_names (nodes g).
Proof. unfold new_graph. destruct (add_columns l empty_graph) as [g' [[]|e]] eqn:R; [|discriminate]. intros E; injection E as <-. apply (own_add l empty_graph g'); [intros k x D; discriminate D|exact R]. Qed.
Lemma own_start d g : start_graph d = Ok g -> own_names (nodes g).
Proof.
  unfold start_graph. intros S. destruct (create_graph_from_data d) as [g1|e] eqn:C; [|discriminate S]. cbn [rbind] in S.
  assert (O : own_names (nodes g1)).
  { assert (FD : forall c, graph_from_dict c = Ok g1 -> own_names (nodes g1)) by (intros c; apply own_new).
    assert (FL : forall l, graph_from_list l = Ok g1 -> own_names (nodes g1)).
    { intros [|r l] E; [discriminate|]. unfold graph_from_list in E. destruct (columns _ _); cbn in E; [|discriminate]. eapply own_new; exact E. }
    destruct d as [c|l|l]; cbn [create_graph_from_data] in C; [apply (FD _ C)|apply (FL _ C)|]. unfold graph_from_loader in C.
    destruct (split_loader None l) as [[[|r rs]|e]|c]; [discriminate|apply (FL _ C)|discriminate|apply (FD _ C)]. }
  assert (W := reached_WF _ (created_reached d g1 C)). change (create_all_possible_edges g1) with (add_edges (ordered_pairs (dkeys (nodes g1))) g1) in S.
  destruct (add_edges_ok (ordered_pairs (dkeys (nodes g1))) g1 W) as (g2 & R2 & _ & Nn & _).
  { intros u v H. apply ordered_pairs_In in H. destruct H as (A & B & Ne). rewrite !dmem_In. auto. }
  rewrite R2 in S. injection S as <-. rewrite Nn. exact O.
Qed.

Lemma given_none o : given o = None <-> unused o.
Proof. unfold given, unused. destruct o as [s|]; [|tauto]. destruct (eqb_spec s "") as [->|Ne]; [tauto|]. split; [discriminate|]. intros [H|H]; congruence. Qed.
Lemma given_some o s : given o = Some s <-> asks o s.
Proof. unfold given, asks. destruct o as [t|]; [|split; [discriminate|intros [H _]; discriminate]]. destruct (eqb_spec t "") as [->|Ne]; [split; [discriminate|intros [H1 H2]; congruence]|]. split; [intros H; injection H as ->; auto|intros [H _]; exact H]. Qed.

(* ---- printing ---- *)
Lemma print_all g l : (forall p, In p l -> exists x, line_of g p = Ok x) -> exists ls, print_lines g l = (ls, Ok tt) /\ Forall2 (fun p x => line_of g p = Ok x) l ls.
Proof.
  induction l as [|p l IH]; intros H; [exists []; split; [reflexivity|constructor]|]. destruct (H p (or_introl eq_refl)) as (x & X). destruct IH as (ls & R & L); [intros q Q; apply H; right; exact Q|].
  exists (x :: ls). cbn [print_lines]. rewrite X, R. split; [reflexivity|constructor; assumption].
Qed.
Lemma forall2_names g l ls : own_names (nodes g) -> Forall2 (fun p x => line_of g p = Ok x) l ls ->
  map fst ls = l /\ forall u v e, In (u, v, e) ls <-> In (u, v) l /\ dmem (nodes g) u = true /\ dmem (nodes g) v = true /\ dget2 (edges g) u v = Some e.
Proof.
  intros O. induction 1 as [|[a b] [[n m] e0] l ls L _ [IH1 IH2]]; [split; [reflexivity|]; intros; cbn; tauto|].
  unfold line_of in L. cbn [fst snd] in L. destruct (dget (nodes g) a) as [x|] eqn:A; [|discriminate L]. destruct (dget (nodes g) b) as [y|] eqn:B; [|discriminate L].
  destruct (dget2 (edges g) a b) as [e|] eqn:E; [|discriminate L]. injection L as <- <- <-. rewrite (O _ _ A), (O _ _ B). split; [cbn [map fst]; rewrite IH1; reflexivity|].
  intros u v e1. cbn [In]. rewrite IH2. split.
  - intros [H|H]; [injection H as -> -> ->; unfold dmem; rewrite A, B; auto|tauto].
  - intros ([H|H] & D1 & D2 & D3); [injection H as -> ->; left; congruence|right; auto].
Qed.
Lemma prints g : WF g -> own_names (nodes g) -> (forall u v, directed_edge_is_soft_deleted g u v = false) -> exists ls, print_lines g (graph_utils_retrieve_edges g) = (ls, Ok tt) /\ prints_exactly ls g.
Proof.
  intros W O S. assert (WE := wf_e _ W). assert (I : forall u v, In (u, v) (graph_utils_retrieve_edges g) <-> exists e, dget2 (edges g) u v = Some e).
  { intros u v. unfold graph_utils_retrieve_edges. rewrite in_map_iff. split.
    - intros ([[a b] e] & Q & H). cbn in Q. injection Q as -> ->. exists e. apply all_entries_In; assumption.
    - intros (e & E). exists (u, v, e). split; [reflexivity|]. apply all_entries_In; assumption. }
  destruct (print_all g (graph_utils_retrieve_edges g)) as (ls & R & L).
  { intros [u v] H. apply I in H. destruct H as (e & E). destruct (wf_fwd _ W _ _ _ E) as (A & B & _). unfold dmem in A, B. unfold line_of. cbn [fst snd]. rewrite E.
    destruct (dget (nodes g) u); [|discriminate A]. destruct (dget (nodes g) v); [|discriminate B]. eauto. }
  destruct (forall2_names g _ _ O L) as [M1 M2]. exists ls. split; [exact R|]. split; [rewrite M1; apply NoDup_all_entries, WE|].
  intros u v e. rewrite M2, I. unfold get_edge. split.
  - intros (_ & A & B & E). split; [|rewrite E; reflexivity]. unfold directed_edge_exists. rewrite A, B, S. unfold dmem2. rewrite E. reflexivity.
  - intros (D & E). destruct (dget2 (edges g) u v) as [x|] eqn:Q; [|discriminate E]. injection E as ->. destruct (wf_fwd _ W _ _ _ Q) as (A & B & _). eauto.
Qed.

Lemma data_start data_float of_int d f g0 : data_graph data_float of_int d f = Ok g0 -> exists rd, start_graph rd = Ok g0.
Proof.
  unfold data_graph. destruct (dget d f) as [t|]; [|discriminate]. unfold graph_from_stream. destruct (read_stream of_int None (json_stream data_float t)) as [[[|r l]|e]|j]; try discriminate.
  - intros H. exists (DList (r :: l)). exact H.
  - destruct j as [| | | | |?|c]; try discriminate. intros H. exists (DDict (columns_of of_int c)). exact H.
Qed.
Lemma available_discovery so N sh sh' coin l : l = pc so N \/ l = pc_parallel so sh sh' coin N -> discovery_pipeline l.
Proof.
  intros H p s Hp Hs. destruct H as [-> | ->]; cbn in Hp; repeat (destruct Hp as [<-|Hp]; [cbn in Hs; repeat (destruct Hs as [<-|Hs]; [constructor; discriminate|]); destruct Hs|]); destruct Hp.
Qed.
Lemma available_purged so N sh sh' coin l : l = pc so N \/ l = pc_parallel so sh sh' coin N -> exists k s, l = k ++ [PStep s].
Proof. intros [-> | ->]; unfold pc, pc_parallel; rewrite app_assoc; eauto. Qed.

Section Command.
Context {F : Type}.
Variables (num : Z -> Z + F) (other_type : string -> bool * ustr) (duration : list nat -> option F) (float_text : F -> ustr) (read_float : ustr -> F) (is_date : ustr -> bool).
Variables (data_float : ustr -> Z) (of_int : Z -> option Z) (fuel : nat) (P : runner) (so : list id -> list id) (N : numerics).
Variables (sh sh' : nat * id * id -> list (list id) -> list (list id)) (coin : nat -> nat -> bool).
Variable coerce : Variables.vtype -> Variables.scalar -> res Variables.scalar.
Variable config : string -> res (Json.json Variables.fl).
Variable factory : Config.spec -> res (list pstep).
Hypothesis floats_back : forall f, float_ok float_text read_float f.
Hypothesis pool : pool_runner no_hooks P.
Notation command := (cli_execute num other_type duration float_text data_float of_int fuel P so N sh sh' coin coerce config factory).
Notation pick := (choose so N sh sh' coin coerce config factory).
Notation table := (data_graph data_float of_int).
Notation run := (execute_pipeline fuel P no_hooks).
(* loading the text of a file as a result *)
Definition load_text (t : ustr) : res (rresult F (jval F)) := rbind (loads read_float t) (load_result is_date).

Lemma chosen pipeline algorithm l r : pick pipeline algorithm = Ok (l, r) -> (forall a k, factory a = Ok k -> discovery_pipeline k) -> discovery_pipeline l /\ exists s, fst r = lit s.
Proof.
  unfold choose. intros C H. destruct (given pipeline) as [p|].
  - destruct (config p) as [j|]; [|discriminate C]. cbn [rbind] in C. destruct (Config.load_spec _ _ j) as [a|]; [|discriminate C]. cbn [rbind] in C. destruct (factory a) as [k|] eqn:Fa; [|discriminate C].
    cbn [rbind] in C. injection C as <- <-. split; [exact (H a k Fa)|eexists; reflexivity].
  - destruct (given algorithm) as [a|]; [|discriminate C]. destruct (eqb a "PC"); [injection C as <- <-; split; [apply (available_discovery so N sh sh' coin); auto|eexists; reflexivity]|].
    destruct (eqb a "ParallelPC"); [|discriminate C]. injection C as <- <-. split; [apply (available_discovery so N sh sh' coin); auto|eexists; reflexivity].
Qed.
Lemma extras_cli created (r : ustr * rreftype) : sound_string created -> is_date created = true -> (exists s, fst r = lit s) -> extras_sound float_text read_float is_date (cli_extras created r).
Proof.
  intros S D (s & R). unfold extras_sound, cli_extras. cbn. rewrite R. split; [apply lit_sound|]. do 2 (split; [assumption|]). do 3 (split; [intros ? Q; discriminate Q|]). exists None. split; [constructor|exact Logic.I].
Qed.
(* the text of the result of a graph, and its beginnings *)
Lemma graph_written x g : minv g -> types_match g -> extras_sound float_text read_float is_date x -> exists r r', result_of num other_type duration x g = Ok r /\ result_written r r' /\ sound_result float_text read_float r'.
Proof.
  intros (W & M & L) T (X1 & X2 & X3 & X4 & X5 & X6 & vs & V1 & V2). destruct (retrieve_wf g W) as (es & R & ND & Ins & Alls).
  assert (Two : forall e, In e es -> directed_edge_exists g (e_u e) (e_v e) = true /\ get_edge g (e_u e) (e_v e) = Ok e /\ ((e_type e = TDirected /\ one_way g (e_u e) (e_v e)) \/ (e_type e = TUndirected /\ two_way g (e_u e) (e_v e)))).
  { intros e He. apply Ins in He. destruct He as [D E]. split; [exact D|]. split; [exact E|]. exact (types_two g _ _ e W T D E). }
  assert (Met : forall e, In e es -> exists d, e_meta e = Some d /\ basic_meta d).
  { intros e He. apply Ins in He. destruct He as [_ E]. unfold get_edge in E. destruct (dget2 (edges g) (e_u e) (e_v e)) as [e'|] eqn:Q; [|discriminate E]. injection E as ->. exact (M _ _ e Q). }
  eexists. exists (wresult num other_type duration x vs g es). split; [unfold result_of; rewrite R; reflexivity|]. split.
  - repeat (split; [reflexivity|]). split; [apply edges_w|]. split; [|split; [exact V1|repeat split]]. cbn [rr_history]. apply numbered_2. intros k h _. apply step_w.
  - split; [exact X1|]. split; [exact X2|]. split; [cbn [rr_nodes wresult]; apply (nodup_lit (nodes g) (fun p => node_ref g (fst p))); exact (wf_nodes _ W)|]. split; [cbn [rr_nodes wresult]; apply Forall_forall; intros q Q; apply in_map_iff in Q; destruct Q as (p & <- & _); split; [apply lit_sound|apply node_ref_s]|].
    split; [|split; [|repeat (split; [assumption|]); assumption]].
    + cbn [rr_edges wresult]. apply Forall_forall. intros q Q. apply in_map_iff in Q. destruct Q as (e & <- & He). split; [apply node_ref_s|]. split; [apply node_ref_s|]. destruct (Two e He) as (_ & _ & TY). destruct (Met e He) as (d & Ed & [Nd _]). unfold wedge. cbn [re_type re_meta].
      split; [destruct TY as [[-> _]|[-> _]]; apply lit_sound|]. split; [destruct TY as [[-> _]|[-> _]]; apply lit_sound|]. rewrite Ed. apply data_s; assumption.
    + cbn [rr_history wresult]. apply numbered_all. intros k h H. apply step_s; [exact other_type|exact floats_back|]. rewrite Forall_forall in L. apply L, H.
Qed.
Lemma graph_text x g : minv g -> types_match g -> extras_sound float_text read_float is_date x -> exists r t r', result_of num other_type duration x g = Ok r /\ dumps float_text (dump_result r) = Ok t /\
  load_text t = Ok r' /\ file_shows num r' g /\ (rr_reference r' = x_ref x /\ rr_reftype r' = x_reftype x /\ rr_created r' = x_created x) /\ forall p q, t = p ++ q -> q <> [] -> load_text p = Err ValueError.
Proof.
  intros Mi T X. destruct (graph_loaded num other_type duration float_text read_float is_date floats_back x g Mi T X) as (r' & L & Sh).
  destruct (graph_written x g Mi T X) as (r & w & R & Wr & So). unfold saved_and_loaded in L. rewrite R in L. cbn [rbind] in L. unfold save_and_load in L.
  destruct (dumps float_text (dump_result r)) as [t|] eqn:Dt; [|discriminate L]. cbn [rbind] in L. exists r, t, r'. do 2 (split; [first [reflexivity|assumption]|]). split; [exact L|]. split; [exact Sh|]. split.
  { assert (Rr : rr_reference r = x_ref x /\ rr_reftype r = x_reftype x /\ rr_created r = x_created x) by (unfold result_of in R; destruct (retrieve_edges g); [|discriminate R]; injection R as <-; auto).
    assert (S := saved_load float_text read_float is_date r w Wr So). unfold save_and_load in S. rewrite Dt in S. cbn [rbind] in S. rewrite L in S. destruct Wr as (W1 & W2 & W3 & _).
    assert (Dd : is_date (rr_created w) = true) by (rewrite <- W3; destruct Rr as (_ & _ & ->); apply X). rewrite (result_l is_date w Dd) in S. destruct (all_of _ (map jedge (rr_edges w))) as [ts|]; [|discriminate S]. cbn [rbind] in S.
    destruct (all_of load_edge ts) as [es|]; [|discriminate S]. injection S as ->. cbn [rr_reference rr_reftype rr_created]. rewrite <- W1, <- W2, <- W3. exact Rr. }
  intros p q E Q. exact (C75_torn float_text read_float is_date r w t p q Wr So Dt E Q).
Qed.

Section Run.
Variables (created : ustr) (d : dir ustr) (data_file : string) (pipeline algorithm output : option string).
Hypothesis created_sound : sound_string created.
Hypothesis created_date : is_date created = true.
Hypothesis shipped : forall a k, factory a = Ok k -> discovery_pipeline k.

(* everything up to printing *)
Lemma after_run l r g0 g : pick pipeline algorithm = Ok (l, r) -> table d data_file = Ok g0 -> run l g0 = (g, Ok tt) ->
  WF g /\ own_names (nodes g) /\ exists x t r', result_of num other_type duration (cli_extras created r) g = Ok x /\ dumps float_text (dump_result x) = Ok t /\
  load_text t = Ok r' /\ file_shows num r' g /\ (rr_reference r' = fst r /\ rr_reftype r' = snd r /\ rr_created r' = created) /\ forall p q, t = p ++ q -> q <> [] -> load_text p = Err ValueError.
Proof.
  intros C D R. destruct (chosen pipeline algorithm l r C shipped) as [Di Re]. destruct (data_start _ _ _ _ _ D) as (rd & S).
  assert (W0 : WF g0) by exact (cp_wf _ (complete_start rd g0 S)). assert (X := pipeline_n fuel P no_hooks l g0 pool W0). rewrite R in X. destruct X as [W Nn]. cbn [fst] in W, Nn.
  split; [exact W|]. split; [rewrite Nn; exact (own_start rd g0 S)|]. apply (graph_text (cli_extras created r)).
  - destruct (run_minv P fuel l pool Di g0 (start_minv rd g0 S)) as [Mi _]. rewrite R in Mi. exact Mi.
  - exact (C67_types fuel P rd g0 l g (Ok tt) S pool (discovery_shipped l Di) R).
  - apply extras_cli; assumption.
Qed.

Lemma print_ok g : WF g -> exists ls, print_lines g (graph_utils_retrieve_edges g) = (ls, Ok tt).
Proof.
  intros W. destruct (print_all g (graph_utils_retrieve_edges g)) as (ls & R & _); [|eauto].
  intros [u v] H. unfold graph_utils_retrieve_edges in H. apply in_map_iff in H. destruct H as ([[a b] e] & Q & H). cbn in Q. injection Q as -> ->. apply (all_entries_In _ _ _ _ (wf_e _ W)) in H.
  destruct (wf_fwd _ W _ _ _ H) as (A & B & _). unfold dmem in A, B. unfold line_of. cbn [fst snd]. rewrite H. destruct (dget (nodes g) u); [|discriminate A]. destruct (dget (nodes g) v); [|discriminate B]. eauto.
Qed.
(* what the command does when the run ends *)
Lemma command_ends l r g0 g : pick pipeline algorithm = Ok (l, r) -> table d data_file = Ok g0 -> run l g0 = (g, Ok tt) ->
  exists ls t r', print_lines g (graph_utils_retrieve_edges g) = (ls, Ok tt) /\ load_text t = Ok r' /\ file_shows num r' g /\ (rr_reference r' = fst r /\ rr_reftype r' = snd r /\ rr_created r' = created) /\ (forall p q, t = p ++ q -> q <> [] -> load_text p = Err ValueError) /\
  command created d data_file pipeline algorithm output = mkOutcome ls match given output with Some f => save_ops f (Ok t) | None => [] end (Ok tt).
Proof.
  intros C D R. destruct (after_run l r g0 g C D R) as (W & O & x & t & r' & X & Dt & L & Sh & Rf & To). destruct (print_ok g W) as (ls & Pl). exists ls, t, r'. do 5 (split; [assumption|]).
  unfold cli_execute. rewrite C, D. unfold run_and_report. rewrite R, Pl, X. destruct (given output); [rewrite Dt|]; reflexivity.
Qed.
Lemma save_spec f t : dget (apply_ops d (save_ops f (Ok t))) f = Some t /\ same_but f d (apply_ops d (save_ops f (Ok t))).
Proof.
  unfold apply_ops, save_ops. cbn [fold_left apply_op]. assert (C : content (dset d f []) f = []) by (unfold content; rewrite dget_dset_same; reflexivity). rewrite C. cbn [app]. split; [apply dget_dset_same|].
  intros k Hk. rewrite !dget_dset_other by congruence. reflexivity.
Qed.

(* C114: with the name of an algorithm, the command prints the directions of the discovered graph, each once and nothing else,
   and the file it writes is loaded as a result that shows this graph; other files stay as they are *)
Theorem C114_execute : forall ls ops, unused pipeline -> command created d data_file pipeline algorithm output = mkOutcome ls ops (Ok tt) ->
  exists a l g0 g, asks algorithm a /\ (a = "PC" /\ l = pc so N \/ a = "ParallelPC" /\ l = pc_parallel so sh sh' coin N) /\
    table d data_file = Ok g0 /\ run l g0 = (g, Ok tt) /\ prints_exactly ls g /\
    (unused output /\ ops = [] \/
     exists f t r, asks output f /\ dget (apply_ops d ops) f = Some t /\ same_but f d (apply_ops d ops) /\ load_text t = Ok r /\ file_shows num r g /\ rr_reference r = lit a /\ rr_reftype r = RtName /\ rr_created r = created).
Proof.
  intros ls ops Hp E. apply given_none in Hp. assert (E' := E). unfold cli_execute in E. destruct (pick pipeline algorithm) as [[l r]|e] eqn:C; [|discriminate E]. destruct (table d data_file) as [g0|e] eqn:D; [|discriminate E].
  unfold run_and_report in E. destruct (run l g0) as [g [[]|e]] eqn:R; [|discriminate E]. clear E. destruct (command_ends l r g0 g C D R) as (ls' & t & r' & Pl & L & Sh & Rf & _ & E). rewrite E in E'. injection E' as -> <-.
  assert (W0 := after_run l r g0 g C D R). destruct W0 as (W & O & _).
  unfold choose in C. rewrite Hp in C. destruct (given algorithm) as [a|] eqn:Ga; [|discriminate C]. exists a, l, g0, g. split; [apply given_some; exact Ga|].
  assert (Rn : r = (lit a, RtName)) by (destruct (eqb a "PC"); [injection C as _ <-; reflexivity|]; destruct (eqb a "ParallelPC"); [injection C as _ <-; reflexivity|discriminate C]).
  assert (A : a = "PC" /\ l = pc so N \/ a = "ParallelPC" /\ l = pc_parallel so sh sh' coin N).
  { destruct (eqb a "PC") eqn:A1; [injection C as <- _; left; split; [destruct (eqb_spec a "PC"); [assumption|discriminate]|reflexivity]|].
    destruct (eqb a "ParallelPC") eqn:A2; [|discriminate C]. injection C as <- _. right. split; [destruct (eqb_spec a "ParallelPC"); [assumption|discriminate]|reflexivity]. }
  split; [exact A|]. do 2 (split; [first [reflexivity|assumption]|]). split.
  - destruct (data_start _ _ _ _ _ D) as (rd & S).
    assert (A' : l = pc so N \/ l = pc_parallel so sh sh' coin N) by tauto. destruct (available_purged so N sh sh' coin l A') as (k & s & El). rewrite El in R.
    destruct (prints g W O (c40_main fuel P no_hooks k s g0 g (start_reached rd g0 S) pool R)) as (ls2 & P2 & Ex). congruence.
  - destruct (given output) as [f|] eqn:Go; [|left; split; [apply given_none; exact Go|reflexivity]]. apply given_some in Go. right. destruct (save_spec f t) as [S1 S2]. exists f, t, r'. rewrite Rn in Rf. tauto.
Qed.
(* a command that fails, whatever pipeline it was given, has not touched any file and printed nothing, and it fails only when the
   pipeline, the data or the run does *)
Theorem C114_failed : forall ls ops e, command created d data_file pipeline algorithm output = mkOutcome ls ops (Err e) -> ls = [] /\ ops = [] /\
  (pick pipeline algorithm = Err e \/ exists l r, pick pipeline algorithm = Ok (l, r) /\ (table d data_file = Err e \/ exists g0, table d data_file = Ok g0 /\ snd (run l g0) = Err e)).
Proof.
  intros ls ops e E. assert (E' := E). unfold cli_execute in E. destruct (pick pipeline algorithm) as [[l r]|e1] eqn:C; [|injection E as <- <- <-; auto]. destruct (table d data_file) as [g0|e1] eqn:D; [|injection E as <- <- <-; eauto 10].
  unfold run_and_report in E. destruct (run l g0) as [g [[]|e1]] eqn:R; [|injection E as <- <- <-; split; [reflexivity|]; split; [reflexivity|]; right; exists l, r; split; [reflexivity|]; right; exists g0; rewrite R; auto].
  destruct (command_ends l r g0 g C D R) as (ls' & t & r' & _ & _ & _ & _ & _ & X). rewrite X in E'. discriminate E'.
Qed.
(* killed at any moment, the command leaves all other files as they are; the output file is as before, or complete, or it is the
   beginning of the complete text, which is not accepted as a result *)
Theorem C114_killed : forall ls ops f d', command created d data_file pipeline algorithm output = mkOutcome ls ops (Ok tt) -> asks output f -> killed d ops d' ->
  same_but f d d' /\ (dget d' f = dget d f \/ exists t, dget d' f = Some t /\ (dget (apply_ops d ops) f = Some t \/ load_text t = Err ValueError)).
Proof.
  intros ls ops f d' E Hf K. apply given_some in Hf. assert (E' := E). unfold cli_execute in E. destruct (pick pipeline algorithm) as [[l r]|e] eqn:C; [|discriminate E]. destruct (table d data_file) as [g0|e] eqn:D; [|discriminate E].
  unfold run_and_report in E. destruct (run l g0) as [g [[]|e]] eqn:R; [|discriminate E]. clear E. destruct (command_ends l r g0 g C D R) as (ls' & t & r' & _ & L & _ & _ & To & E). rewrite E in E'. injection E' as _ <-.
  rewrite Hf in *. destruct (save_spec f t) as [S1 S2].
  assert (Pre : forall p q, t = p ++ q -> dget (apply_ops d (save_ops f (Ok t))) f = Some p \/ load_text p = Err ValueError).
  { intros p q Q. destruct q as [|c q]; [left; rewrite app_nil_r in Q; subst p; exact S1|right; apply (To p (c :: q) Q); discriminate]. }
  unfold save_ops in K. inversion K as [| |? ? ? ? K1]; subst.
  - split; [intros k _; reflexivity|left; reflexivity].
  - assert (G : forall p, dget (apply_op (apply_op d (Trunc f)) (Append f p)) f = Some p /\ same_but f d (apply_op (apply_op d (Trunc f)) (Append f p))).
    { intros p. cbn [apply_op]. assert (Ce : content (dset d f []) f = []) by (unfold content; rewrite dget_dset_same; reflexivity). rewrite Ce. cbn [app]. split; [apply dget_dset_same|]. intros k Hk. rewrite !dget_dset_other by congruence. reflexivity. }
    assert (G0 : dget (apply_op d (Trunc f)) f = Some [] /\ same_but f d (apply_op d (Trunc f))).
    { cbn [apply_op]. split; [apply dget_dset_same|]. intros k Hk. rewrite dget_dset_other by congruence. reflexivity. }
    inversion K1 as [|? ? p q ? Q|? ? ? ? K2]; subst.
    + split; [apply G0|]. right. exists []. split; [apply G0|]. apply (Pre [] t). reflexivity.
    + split; [apply G|]. right. exists p. split; [apply G|]. apply (Pre p q). reflexivity.
    + inversion K2; subst. split; [apply G|]. right. exists t. split; [apply G|]. apply (Pre t []). symmetry. apply app_nil_r.
Qed.
End Run.
End Command.
Print Assumptions C114_execute.
Print Assumptions C114_failed.
Print Assumptions C114_killed.

(* ---- a concrete command ---- *)
Definition demo_data : ustr := lit "{""a"": [1], ""b"": [2], ""c"": [3], ""d"": [4]}".
Definition demo_dir : dir ustr := [("data.json", demo_data); ("notes.txt", lit "keep")].
(* the tests of PCStable without its rules, as a pipeline without edge types *)
Definition demo_steps : res (list Config.item) :=
  rbind (ConfigClasses.make_item ConfigClasses.m_pearson (ConfigClasses.named "Calculate Pearson Correlations")) (fun p =>
  rbind (Config.all_res (fun q => ConfigClasses.make_item (fst q) (ConfigClasses.at_threshold (snd q)))
    [(ConfigClasses.m_coefficient, "Correlation Coefficient Test"); (ConfigClasses.m_partial, "Partial Correlation Test"); (ConfigClasses.m_matrix, "Extended Partial Correlation Test Matrix")]) (fun l =>
  rbind (Config.init_logic ConfigClasses.causy_classes ConfigClasses.m_together l None (Config.PStr "Skeleton")) (fun t => Ok [p; t]))).
Definition demo_config (f : string) : res (Json.json Variables.fl) :=
  if eqb f "skeleton.json" then rbind demo_steps (fun l => Ok (Config.dump_spec (Config.mkSpec "Skeleton" l [] [])))
  else if eqb f "PC.json" then Eject.eject "PC" else Err FileNotFound.
Definition demo_factory (a : Config.spec) : res (list pstep) := rbind (Config.factory_types a) (fun _ => Ok (pc_stable_skeleton dedup (toy path4))).
Definition demo_command : dir ustr -> string -> option string -> option string -> option string -> outcome :=
  cli_execute toy_num no_type toy_duration toy_text (fun _ => 0%Z) Some 27 (batch_runner no_hooks) dedup (toy path4) (fun _ l => l) (fun _ l => l) (fun _ _ => true) (fun _ v => Ok v) demo_config demo_factory (lit "2024-01-01T00:00:00").
Lemma demo_shipped a k : demo_factory a = Ok k -> discovery_pipeline k.
Proof.
  unfold demo_factory. destruct (Config.factory_types a); [|discriminate]. intros E. injection E as <-. intros p s Hp Hs. cbn in Hp.
  repeat (destruct Hp as [<-|Hp]; [cbn in Hs; repeat (destruct Hs as [<-|Hs]; [first [constructor; discriminate|constructor]|]); destruct Hs|]). destruct Hp.
Qed.
Example C114_nonvacuous : exists ls t, demo_command demo_dir "data.json" None (Some "PC") (Some "out.json") = mkOutcome ls (save_ops "out.json" (Ok t)) (Ok tt) /\
  List.length ls = 4%nat /\ (exists e, In ("a", "b", e) ls) /\ sound_string (lit "2024-01-01T00:00:00") /\ toy_date (lit "2024-01-01T00:00:00") = true /\
  (forall f, float_ok toy_text toy_read f) /\ pool_runner no_hooks (batch_runner no_hooks) /\ (forall a k, demo_factory a = Ok k -> discovery_pipeline k) /\
  killed demo_dir (save_ops "out.json" (Ok t)) (dset demo_dir "out.json" []) /\
  demo_command demo_dir "missing.json" None (Some "PC") (Some "out.json") = mkOutcome [] [] (Err FileNotFound).
Proof.
  eexists. eexists. split; [vm_compute; reflexivity|]. split; [reflexivity|]. split; [eexists; cbn [In]; left; reflexivity|]. split; [apply lit_sound|]. split; [reflexivity|]. split; [exact toy_float_ok|]. split; [apply batch_pool|].
  split; [exact demo_shipped|]. split; [|vm_compute; reflexivity]. apply (k_step demo_dir (Trunc "out.json")). apply k_stop.
Qed.

(* a pipeline from a file may end with a logic step: then the command also prints directions that the run has removed *)
Theorem C114_printed_refuted : exists l r g0 g ls e, choose dedup (toy path4) (fun _ l => l) (fun _ l => l) (fun _ _ => true) (fun _ v => Ok v) demo_config demo_factory (Some "skeleton.json") None = Ok (l, r) /\
  (forall a k, demo_factory a = Ok k -> discovery_pipeline k) /\ pool_runner no_hooks (batch_runner no_hooks) /\
  data_graph (fun _ => 0%Z) Some demo_dir "data.json" = Ok g0 /\ execute_pipeline 27 (batch_runner no_hooks) no_hooks l g0 = (g, Ok tt) /\
  demo_command demo_dir "data.json" (Some "skeleton.json") None None = mkOutcome ls [] (Ok tt) /\ In ("a", "c", e) ls /\ directed_edge_exists g "a" "c" = false.
Proof.
  do 6 eexists. split; [vm_compute; reflexivity|]. split; [exact demo_shipped|]. split; [apply batch_pool|]. split; [vm_compute; reflexivity|]. split; [vm_compute; reflexivity|]. split; [vm_compute; reflexivity|].
  split; [cbn [In]; right; left; reflexivity|]. vm_compute. reflexivity.
Qed.
(* an ejected algorithm is never accepted as a pipeline, whatever was ejected and whatever else is given *)
Theorem C114_eject_refuted : (forall name, (exists v, Eject.eject name = Ok v) <-> name = "PC" \/ name = "ParallelPC") /\
  forall (F : Type) num other_type duration (float_text : F -> ustr) data_float of_int fuel P so N sh sh' coin coerce config factory created d data_file algorithm output name v f,
  Eject.eject name = Ok v -> config f = Ok v -> f <> "" ->
  cli_execute num other_type duration float_text data_float of_int fuel P so N sh sh' coin coerce config factory created d data_file (Some f) algorithm output = mkOutcome [] [] (Err TypeError).
Proof.
  assert (Ej : forall name v, Eject.eject name = Ok v -> name = "PC" \/ name = "ParallelPC").
  { intros name v H. unfold Eject.eject, Eject.available in H. destruct (eqb_spec name "PC") as [->|]; [auto|]. destruct (eqb_spec name "ParallelPC") as [->|]; [auto|]. discriminate H. }
  split.
  - intros name. split; [intros (v & H); exact (Ej name v H)|]. intros [-> | ->]; eexists; vm_compute; reflexivity.
  - intros F num other_type duration float_text data_float of_int fuel P so N sh sh' coin coerce config factory created d data_file algorithm output name v f H C Nf.
    assert (L : Config.load_spec ConfigClasses.causy_classes coerce v = Err TypeError).
    { destruct (Ej name v H) as [-> | ->]; vm_compute in H; injection H as <-; vm_compute; reflexivity. }
    unfold cli_execute, choose. assert (G : given (Some f) = Some f) by (unfold given; destruct (eqb_spec f ""); [contradiction|reflexivity]). rewrite G, C. cbn [rbind]. rewrite L. reflexivity.
Qed.
Print Assumptions C114_printed_refuted.
Print Assumptions C114_eject_refuted.
Example C114_eject_nonvacuous : exists v, Eject.eject "PC" = Ok v /\ demo_config "PC.json" = Ok v.
Proof. eexists. split; vm_compute; reflexivity. Qed.
