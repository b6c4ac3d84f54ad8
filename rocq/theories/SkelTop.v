(* The skeleton theorems in the vocabulary of SkelSpec. *)
From Verif Require Import Base PyDict PyDictFacts Graph GraphSpec GraphFacts GraphInv GraphQ PathSpec Actions Generators GenSpec GenFacts Rules IndepTests Pipeline Parallel
  PipeFacts PipeMain2 Construct ConstructSpec ConstructFacts Dag DagFacts DagSep SkelSpec SkelFacts SkelStart SkelSteps SkelMatrix SkelMain Schedules SkelMain2 DsepDec Ideal.
Open Scope list_scope.

Lemma perfect_exists_main ns D : NoDup ns -> dag_over ns D -> exists N d g0 c, start_graph d = Ok g0 /\ Permutation (dkeys (nodes g0)) ns /\
  dag_over (dkeys (nodes g0)) D /\ perfect_tests N (values_of g0) (dkeys (nodes g0)) D c.
Proof. intros ND DG. destruct (ideal_exists ns D ND DG) as (g0 & H). exists (ideal ns D), (ideal_data ns), g0, (ideal_corr ns). exact H. Qed.

Lemma dag_by_order_main ns D : NoDup ns -> forallb (fun e => mem (fst e) ns && mem (snd e) ns && Z.ltb (number ns (fst e)) (number ns (snd e))) D = true -> dag_over ns D.
Proof.
  intros ND H. rewrite forallb_forall in H. assert (Hh : forall x y, In (x, y) D -> In x ns /\ In y ns /\ (number ns x < number ns y)%Z).
  { intros x y Hxy. specialize (H _ Hxy). cbn [fst snd] in H. rewrite !andb_true_iff, !mem_In, Z.ltb_lt in H. tauto. }
  split; [intros x y Hxy; destruct (Hh x y Hxy) as (A & B & _); auto|]. assert (RR : forall x y, reach (edge_in D) x y -> (number ns x <= number ns y)%Z).
  { intros x y R. induction R as [x|x y z Hxy R IH]; [lia|]. destruct (Hh x y Hxy) as (_ & _ & L). lia. }
  intros x (y & Hxy & R). destruct (Hh x y Hxy) as (_ & _ & L). specialize (RR _ _ R). lia.
Qed.

Section Top.
Variable g0 : graph.
Variable D : list (id * id).
Variable c : id -> id -> Z.
Notation sk := (skel g0 D c (good_sep g0 D)).
Lemma sk_ee g x y : sk g -> edge_exists g x y = directed_edge_exists g x y.
Proof. intros K. apply (skel_ee g0 D c (good_sep g0 D) g x y K). Qed.
Lemma sk_und g x y : sk g -> undirected_edge_exists g x y = directed_edge_exists g x y.
Proof. intros K. unfold undirected_edge_exists. rewrite (skel_sym_eq g0 D c (good_sep g0 D) g y x K). destruct (directed_edge_exists g x y); reflexivity. Qed.
Lemma sk_separators g : sk g -> separators_right g (dkeys (nodes g0)) D.
Proof.
  intros K x y Hx Hy Ne G. rewrite sk_ee in G by exact K. apply (node_In g0) in Hx, Hy.
  destruct (skel_separator g0 D c g x y K Hx Hy Ne G) as (S & R & GS & N1 & N2 & Ds). exists S. split; [exact R|]. split; [|auto].
  intros z Hz. apply (node_In g0). auto.
Qed.
Lemma found_skeleton g : dag_over (dkeys (nodes g0)) D -> found g0 D c g -> skeleton_is g D.
Proof.
  intros DG F x y. destruct F as [K U]. rewrite sk_ee, sk_und by exact K. assert (X := found_adjacent g0 D c DG g (conj K U) x y). auto.
Qed.
End Top.

Theorem c26_pc fuel P so d g0 D N c : start_graph d = Ok g0 -> dag_over (dkeys (nodes g0)) D ->
  perfect_tests N (values_of g0) (dkeys (nodes g0)) D c -> set_order so ->
  exists g, execute_pipeline fuel P no_hooks (pc_skeleton so N) g0 = (g, Ok tt) /\
    skeleton_is g D /\ separators_right g (dkeys (nodes g0)) D.
Proof.
  intros S0 DG PT SO. destruct (pc_found g0 D N c so (complete_start d g0 S0) DG PT SO fuel P) as (g & R & F). exists g. split; [exact R|].
  split; [exact (found_skeleton g0 D c g DG F)|]. destruct F as [K _]. exact (sk_separators g0 D c g K).
Qed.
Theorem c26_classic fuel P so d g0 D N c : start_graph d = Ok g0 -> dag_over (dkeys (nodes g0)) D ->
  perfect_tests N (values_of g0) (dkeys (nodes g0)) D c -> set_order so ->
  exists g, execute_pipeline fuel P no_hooks (pc_classic_skeleton so N) g0 = (g, Ok tt) /\
    skeleton_is g D /\ separators_right g (dkeys (nodes g0)) D.
Proof.
  intros S0 DG PT SO. destruct (classic_found g0 D N c so (complete_start d g0 S0) DG PT SO fuel P) as (g & R & F). exists g. split; [exact R|].
  split; [exact (found_skeleton g0 D c g DG F)|]. destruct F as [K _]. exact (sk_separators g0 D c g K).
Qed.
Theorem c33_skeleton fuel P so d g0 D N c : start_graph d = Ok g0 -> dag_over (dkeys (nodes g0)) D ->
  perfect_tests N (values_of g0) (dkeys (nodes g0)) D c -> set_order so ->
  exists g, execute_pipeline fuel P no_hooks (pc_stable_skeleton so N) g0 = (g, Ok tt) /\
    skeleton_is g D /\ separators_right g (dkeys (nodes g0)) D.
Proof.
  intros S0 DG PT SO. destruct (stable_found g0 D N c so (complete_start d g0 S0) DG PT SO fuel P) as (g & R & F). exists g. split; [exact R|].
  split; [exact (found_skeleton g0 D c g DG F)|]. destruct F as [K _]. exact (sk_separators g0 D c g K).
Qed.
Theorem c34_any fuel P so sh sh' coin d g0 D N c : start_graph d = Ok g0 -> dag_over (dkeys (nodes g0)) D ->
  perfect_tests N (values_of g0) (dkeys (nodes g0)) D c -> set_order so -> is_shuffle (Some sh) -> is_shuffle (Some sh') -> pool_runner no_hooks P ->
  exists g, execute_pipeline fuel P no_hooks (pc_parallel_skeleton so sh sh' coin N) g0 = (g, Ok tt) /\
    (forall x y, adjacent (edge_in D) x y -> undirected_edge_exists g x y = true) /\
    separators_right g (dkeys (nodes g0)) D /\
    (forall x y, In x (dkeys (nodes g0)) -> In y (dkeys (nodes g0)) -> x <> y -> ~ adjacent (edge_in D) x y -> ~ reach (edge_in D) x y ->
       (forall z, ~ (forall w, edge_in D w x <-> w = z)) -> edge_exists g x y = false).
Proof.
  intros S0 DG PT SO SH SH' HP. destruct (parallel_found g0 D N c so (complete_start d g0 S0) DG PT SO sh sh' coin SH SH' P HP fuel) as (g & R & K & U).
  exists g. split; [exact R|]. split; [intros x y A; rewrite (sk_und g0 D c g x y K); apply (sk_adj _ _ _ _ _ K); exact A|].
  split; [exact (sk_separators g0 D c g K)|]. intros x y Hx Hy Ne NA NR NZ. rewrite (sk_ee g0 D c g x y K). apply (node_In g0) in Hx, Hy.
  apply (U x y (conj Hx (conj Hy (conj Ne (conj NA NR))))). intros L. destruct (pars D x) as [|z [|? ?]] eqn:Pz; try discriminate.
  apply (NZ z). intros w. rewrite <- (pars_In D x w), Pz. cbn. intuition.
Qed.
Theorem c34_early fuel P so sh sh' coin d g0 D N c : start_graph d = Ok g0 -> dag_over (dkeys (nodes g0)) D ->
  perfect_tests N (values_of g0) (dkeys (nodes g0)) D c -> set_order so -> is_shuffle (Some sh) -> is_shuffle (Some sh') -> pool_runner no_hooks P ->
  early_on (partial_step true N) P ->
  exists g, execute_pipeline fuel P no_hooks (pc_parallel_skeleton so sh sh' coin N) g0 = (g, Ok tt) /\
    skeleton_is g D /\ separators_right g (dkeys (nodes g0)) D.
Proof.
  intros S0 DG PT SO SH SH' HP Ea. destruct (early_found g0 D N c so (complete_start d g0 S0) DG PT SO sh sh' coin SH SH' P HP Ea fuel) as (g & R & F).
  exists g. split; [exact R|]. split; [exact (found_skeleton g0 D c g DG F)|]. destruct F as [K _]. exact (sk_separators g0 D c g K).
Qed.
