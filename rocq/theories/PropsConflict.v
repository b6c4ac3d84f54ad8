(* Contradicting colliders: C99. *)
From Verif Require Import Base PyDict PyDictFacts Graph GraphSpec GraphInv GraphCheck Actions ActionSpec ActionMain Generators GenSpec Rules IndepTests Pipeline PipeSpec PipeMain2 Parallel
  Construct ConstructFacts PathSpec Dag SkelSpec Ideal OrientSpec ColliderFacts PropsPC PropsCollider ConflictSpec ConflictFacts.
Open Scope string_scope.
Open Scope list_scope.
Open Scope nat_scope.

(* C99: with KEEP_FIRST every unshielded triple that looks like a collider is either oriented as a collider or reported as a
   conflict in the log of the step.  A reported one contradicts such a triple of an earlier pair, and every arrow belongs to
   such a triple. *)
Theorem C99_first_partial : forall fuel P so g, reached g -> skeleton g -> readable g -> set_order so ->
  exists g' taken props, run_pstep fuel P no_hooks (PStep (collider_step KEEP_FIRST so)) g = (g', Ok tt) /\
  ahist g' = ahist g ++ [HStep "ColliderTest" taken props []] /\
  (forall x z y, candidate g x z y -> (one_way g' x z /\ one_way g' y z) \/ reported props x z y) /\
  (forall x z y, reported props x z y -> candidate g x z y /\
     exists x' z' y', candidate g x' z' y' /\ before (node_pairs (dkeys (nodes g))) (x', y') (x, y) /\ contradict x z y x' z' y') /\
  (forall a b, one_way g' a b -> exists c, candidate g a b c \/ candidate g c b a).
Proof. intros fuel P so g R SK RD SO. exact (first_main g (reached_WF _ R) SK RD so SO fuel P). Qed.
Print Assumptions C99_first_partial.
(* with KEEP_LAST a collider that no later one contradicts is oriented *)
Theorem C99_last : forall fuel P so g, reached g -> skeleton g -> readable g -> set_order so ->
  exists g' taken props, run_pstep fuel P no_hooks (PStep (collider_step KEEP_LAST so)) g = (g', Ok tt) /\
  ahist g' = ahist g ++ [HStep "ColliderTest" taken props []] /\
  (forall x z y, candidate g x z y ->
     (forall x' z' y', candidate g x' z' y' -> before (node_pairs (dkeys (nodes g))) (x, y) (x', y') -> ~ contradict x z y x' z' y') -> one_way g' x z /\ one_way g' y z) /\
  (forall a b, one_way g' a b -> exists c, candidate g a b c \/ candidate g c b a).
Proof. intros fuel P so g R SK RD SO. exact (last_main g (reached_WF _ R) SK RD so SO fuel P). Qed.
Print Assumptions C99_last.

Definition readable_b (g : graph) : bool :=
  forallb (fun x => dmem (edges g) x) (dkeys (nodes g)) &&
  forallb (fun p => forallb (fun i => negb (taction_eqb (t_act i) REMOVE_EDGE_UNDIRECTED) ||
    match t_data i with None => false | Some d => match dget d "separatedBy" with None => true | Some (MNodes _) => true | Some _ => false end end) (snd p)) (ehist g).
Lemma readable_check g : readable_b g = true -> readable g.
Proof.
  unfold readable_b. rewrite andb_true_iff, !forallb_forall. intros [H1 H2]. split; [exact H1|]. intros x y i Hi A. unfold history in Hi.
  destruct (dget (ehist g) (x, y)) as [l|] eqn:E; [|destruct Hi]. apply dget_In in E. specialize (H2 _ E). cbn [snd] in H2. rewrite forallb_forall in H2. specialize (H2 i Hi). rewrite A in H2. cbn in H2.
  destruct (t_data i) as [d|]; [|discriminate]. exists d. split; [reflexivity|]. destruct (dget d "separatedBy") as [[]|]; try discriminate; eauto.
Qed.
Definition sepset_b (g : graph) (x y z : id) : bool :=
  existsb (fun i => taction_eqb (t_act i) REMOVE_EDGE_UNDIRECTED && match t_data i with None => false | Some d => match dget d "separatedBy" with Some (MNodes s) => mem z s | _ => false end end) (history g (x, y)).
Lemma sepset_check g x y z : sepset_b g x y z = false -> ~ in_sepset g x y z.
Proof.
  intros H (i & d & s & Hi & A & D & S & Z). unfold sepset_b in H. assert (Q : existsb (fun i => taction_eqb (t_act i) REMOVE_EDGE_UNDIRECTED && match t_data i with None => false | Some d => match dget d "separatedBy" with Some (MNodes s) => mem z s | _ => false end end) (history g (x, y)) = true); [|congruence].
  apply existsb_exists. exists i. split; [exact Hi|]. rewrite A, D, S. cbn. apply mem_In. exact Z.
Qed.

(* a - b - c - d and b - e; a and e are separated by b, every other pair by nothing.  a -> b <- c is drawn first, so that
   b -> c <- d is a conflict; the record of this conflict makes c -> b <- e a conflict too, although c -> b is already there *)
Definition names5k : list id := ["a"; "b"; "c"; "d"; "e"].
Definition adj5k : list (id * id) := [("a", "b"); ("b", "c"); ("c", "d"); ("b", "e")].
Definition sep5k (a b : id) (S : list id) : bool :=
  if mem (a, b) adj5k || mem (b, a) adj5k then false
  else if (eqb a "a" && eqb b "e") || (eqb a "e" && eqb b "a") then mem "b" S else true.
Definition skel5k : graph := match start_graph (ideal_data names5k) with
  | Ok g => fst (execute_pipeline 9 (batch_runner no_hooks) no_hooks (pc_skeleton dedup (told names5k sep5k)) g)
  | Err _ => empty_graph end.
Lemma skel5k_reached : reached skel5k.
Proof.
  unfold skel5k. destruct (start_graph (ideal_data names5k)) as [g|] eqn:E; [|apply rd_empty]. apply start_reached in E. apply pipeline_reached; [apply batch_pool|exact E].
Qed.
Theorem C99_phantom_refuted : exists g g' taken props x z y, reached g /\ skeleton g /\ readable g /\
  run_pstep 9 (batch_runner no_hooks) no_hooks (PStep (collider_step KEEP_FIRST dedup)) g = (g', Ok tt) /\ ahist g' = ahist g ++ [HStep "ColliderTest" taken props []] /\
  candidate g x z y /\ one_way g' x z /\ two_way g' y z /\ reported props x z y.
Proof.
  exists skel5k. eexists. eexists. eexists. exists "c", "b", "e". split; [exact skel5k_reached|]. split; [apply all_edges_skeleton; vm_compute; reflexivity|]. split; [apply readable_check; vm_compute; reflexivity|].
  split; [vm_compute; reflexivity|]. split; [vm_compute; reflexivity|]. split.
  { split; [vm_compute; tauto|]. split; [vm_compute; reflexivity|]. split; [vm_compute; reflexivity|]. split; [vm_compute; reflexivity|]. apply sepset_check. vm_compute. reflexivity. }
  split; [vm_compute; reflexivity|]. split; [vm_compute; reflexivity|].
  exists (mkT "b" "c" DO_NOTHING (Some (conflict "c" "e" "b"))), (conflict "c" "e" "b"). split; [cbn; tauto|]. repeat (split; [reflexivity|]). split; [left; reflexivity|]. repeat split.
Qed.
Print Assumptions C99_phantom_refuted.
(* KEEP_LAST gives up colliders without a report *)
Theorem C99_silent_refuted : exists g g' taken props x z y, reached g /\ skeleton g /\ readable g /\
  run_pstep 9 (batch_runner no_hooks) no_hooks (PStep (collider_step KEEP_LAST dedup)) g = (g', Ok tt) /\ ahist g' = ahist g ++ [HStep "ColliderTest" taken props []] /\
  candidate g x z y /\ ~ one_way g' y z /\ (forall x z y, ~ reported props x z y).
Proof.
  exists chain4. eexists. eexists. eexists. exists "a", "b", "c". split; [exact chain4_reached|]. split; [apply all_edges_skeleton; vm_compute; reflexivity|]. split; [apply readable_check; vm_compute; reflexivity|].
  split; [vm_compute; reflexivity|]. split; [vm_compute; reflexivity|]. split.
  { split; [vm_compute; tauto|]. split; [vm_compute; reflexivity|]. split; [vm_compute; reflexivity|]. split; [vm_compute; reflexivity|]. apply sepset_check. vm_compute. reflexivity. }
  split; [vm_compute; discriminate|]. intros x z y (i & d & Hi & A & _). cbn in Hi. repeat (destruct Hi as [Hi|Hi]; [rewrite <- Hi in A; discriminate A|]). destruct Hi.
Qed.
Print Assumptions C99_silent_refuted.
Example C99_nonvacuous : reached skel5k /\ skeleton skel5k /\ readable skel5k /\ candidate skel5k "a" "b" "c" /\ candidate skel5k "b" "c" "d" /\ candidate skel5k "c" "b" "e" /\
  before (node_pairs (dkeys (nodes skel5k))) ("a", "c") ("b", "d") /\ contradict "b" "c" "d" "a" "b" "c".
Proof.
  split; [exact skel5k_reached|]. split; [apply all_edges_skeleton; vm_compute; reflexivity|]. split; [apply readable_check; vm_compute; reflexivity|].
  assert (K : forall x z y, In (x, y) (node_pairs (dkeys (nodes skel5k))) -> edge_exists skel5k x y = false -> edge_exists skel5k x z = true -> edge_exists skel5k y z = true -> sepset_b skel5k x y z = false -> candidate skel5k x z y).
  { intros x z y H1 H2 H3 H4 H5. repeat (split; [assumption|]). apply sepset_check. exact H5. }
  do 3 (split; [apply K; [vm_compute; tauto|vm_compute; reflexivity|vm_compute; reflexivity|vm_compute; reflexivity|vm_compute; reflexivity]|]). split.
  - exists [("a", "b")], [("a", "d"); ("a", "e"); ("b", "c")], [("b", "e"); ("c", "d"); ("c", "e"); ("d", "e")]. vm_compute. reflexivity.
  - split; [left; reflexivity|right; reflexivity].
Qed.
