(* C83: the data of edges and the recorded data when dictionaries are shared. *)
From Verif Require Import Base PyDict PyDictFacts Graph Alias AliasSpec.
Open Scope string_scope.
Open Scope list_scope.

Lemma turn_turn p : turn (turn p) = p.
Proof. destruct p; reflexivity. Qed.
Lemma pair_dec (p q : pair) : {p = q} + {p <> q}.
Proof. decide equality; apply string_dec. Qed.
Lemma update_length l : forall i f, List.length (update l i f) = List.length l.
Proof. induction l as [|c l IH]; intros [|i] f; cbn; auto. Qed.
Lemma update_nth l : forall i j f, nth_error (update l i f) j = if Nat.eqb i j then option_map f (nth_error l j) else nth_error l j.
Proof.
  induction l as [|c l IH]; intros [|i] [|j] f; cbn [update nth_error Nat.eqb]; try reflexivity; [destruct (Nat.eqb i j); reflexivity|apply IH].
Qed.
(* references are to cells, and edges share a dictionary only with their opposite *)
Definition apart (m : mem) : Prop := (forall p i, dget (slots m) p = Some i -> i < List.length (cells m)) /\ (forall i, In i (past m) -> i < List.length (cells m)) /\
  forall p q i, dget (slots m) p = Some i -> dget (slots m) q = Some i -> q = p \/ q = turn p.

(* what writing under k leaves of a dictionary: the same, or the same with a new value under k *)
Definition noted (k : string) (c c' : meta) : Prop := c' = c \/ exists x, c' = dset c k x.
Lemma process_spec k p x m m' c : apart m -> process k p x m = Ok (m', c) ->
  slots m' = slots m /\ past m' = past m /\ c = List.length (cells m) /\ List.length (cells m') = S (List.length (cells m)) /\
  (exists i old, dget (slots m) p = Some i /\ nth_error (cells m) i = Some old /\ nth_error (cells m') c = Some (dset old k x) /\
   forall j, j < List.length (cells m) -> nth_error (cells m') j = if Nat.eqb i j then Some (dset old k x) else nth_error (cells m) j).
Proof.
  intros (A & _) H. unfold process in H. destruct (dget (slots m) p) as [i|] eqn:S; [|discriminate]. rewrite update_nth, Nat.eqb_refl in H. specialize (A p i S). destruct (nth_error (cells m) i) as [old|] eqn:O; [|discriminate]. cbn [option_map] in H. injection H as <- <-. cbn [slots past cells].
  rewrite app_length, update_length. cbn [List.length]. repeat (split; [first [reflexivity|lia]|]). exists i, old. split; [reflexivity|]. split; [exact O|]. split; [rewrite nth_error_app2, update_length, Nat.sub_diag by (rewrite update_length; lia); reflexivity|].
  intros j L. rewrite nth_error_app1 by (rewrite update_length; exact L). rewrite update_nth. destruct (Nat.eqb_spec i j) as [->|N]; [rewrite O; reflexivity|reflexivity].
Qed.
Lemma separate_tail p ps : separate (p :: ps) -> separate ps.
Proof. intros [A B]. split; [intros u v I; apply A; right; exact I|]. intros i j q r I J N. apply (B (S i) (S j)); auto. Qed.
Lemma separate_head p ps q : separate (p :: ps) -> In q ps -> q <> p /\ q <> turn p.
Proof. intros [_ B] I. apply In_nth_error in I. destruct I as [i I]. destruct (B (S i) 0 q p I eq_refl) as [X Y]; [discriminate|]. auto. Qed.
Lemma separate_turn p ps : separate (p :: ps) -> turn p <> p.
Proof. intros [A _] Q. destruct p as [u v]. injection Q as Q1 Q2. apply (A u v); [left; reflexivity|congruence]. Qed.

(* all pairs processed: the slots are as before; each pair has its number in its dictionary and in the copy; a recorded
   dictionary and that of another pair have changed at most under k, the latter only if the opposite is processed *)
Lemma process_all_spec k ps : forall m m' l, apart m -> separate (map fst ps) -> process_all k ps m = Ok (m', l) ->
  slots m' = slots m /\ past m' = past m /\ List.length (cells m) <= List.length (cells m') /\ map fst l = map fst ps /\
  Forall2 (fun px a => exists i old, fst a = fst px /\ dget (slots m) (fst px) = Some i /\ nth_error (cells m) i = Some old /\ nth_error (cells m') i = Some (dset old k (snd px)) /\
                       nth_error (cells m') (snd a) = Some (dset old k (snd px)) /\ List.length (cells m) <= snd a < List.length (cells m')) ps l /\
  NoDup (map snd l) /\
  (forall i c, nth_error (cells m) i = Some c -> exists c', nth_error (cells m') i = Some c' /\ noted k c c') /\
  (forall i, i < List.length (cells m) -> (forall p, In p (map fst ps) -> dget (slots m) p <> Some i) -> nth_error (cells m') i = nth_error (cells m) i).
Proof.
  induction ps as [|[p x] ps IH]; intros m m' l AP SE H; cbn [process_all] in H.
  - injection H as <- <-. repeat (split; [first [reflexivity|lia|constructor]|]). split; [|reflexivity]. intros i c C. exists c. split; [exact C|left; reflexivity].
  - destruct (process k p x m) as [[m1 c1]|] eqn:P; [|discriminate]. cbn [rbind fst snd] in H. destruct (process_all k ps m1) as [[m2 l2]|] eqn:R; [|discriminate]. cbn [rbind fst snd] in H. injection H as <- <-.
    destruct (process_spec k p x m m1 c1 AP P) as (S1 & PA1 & -> & L1 & i & old & SI & O & C1 & W). pose proof AP as (A1 & A2 & A3).
    assert (AP1 : apart m1). { split; [|split]; rewrite ?S1, ?PA1, ?L1; intros; [apply Nat.lt_lt_succ_r; eapply A1; eassumption|apply Nat.lt_lt_succ_r; auto|eapply A3; eassumption]. }
    cbn [map fst] in SE. destruct (IH m1 m2 l2 AP1 (separate_tail _ _ SE) R) as (S2 & PA2 & L2 & M2 & F2 & N2 & G2 & U2). assert (IL : i < List.length (cells m)) by (eapply A1; exact SI).
    assert (KEEP : forall q, In q (map fst ps) -> dget (slots m1) q <> Some i).
    { intros q Q E. rewrite S1 in E. destruct (A3 p q i SI E) as [->| ->]; destruct (separate_head _ _ _ SE Q); congruence. }
    assert (IO : nth_error (cells m2) i = Some (dset old k x)). { rewrite (U2 i); [|lia|exact KEEP]. rewrite (W i IL), Nat.eqb_refl. reflexivity. }
    split; [congruence|]. split; [congruence|]. split; [lia|]. cbn [map fst snd]. split; [congruence|]. split; [|split; [|split]].
    + constructor.
      * cbn [fst snd]. exists i, old. split; [reflexivity|]. split; [exact SI|]. split; [exact O|]. split; [exact IO|]. split; [|lia]. rewrite (U2 (List.length (cells m))); [exact C1|lia|]. intros q _ E. rewrite S1 in E. apply A1 in E. lia.
      * clear - F2 S1 W KEEP L1 A1. induction F2 as [|[q y] [q' c] ps l H F IHF]; [constructor|]. constructor; [|apply IHF].
        -- destruct H as (j & o & SAME & E & N & K & C & LL). cbn [fst snd] in *. assert (NE : i <> j). { intros ->. apply (KEEP q); [left; reflexivity|exact E]. }
           rewrite S1 in E. exists j. destruct (Nat.lt_ge_cases j (List.length (cells m))) as [JL|JL].
           ++ rewrite (W j JL) in N. destruct (Nat.eqb_spec i j) as [B|_]; [contradiction|]. exists o. split; [exact SAME|]. split; [exact E|]. split; [exact N|]. split; [exact K|]. split; [exact C|lia].
           ++ exfalso. apply A1 in E. lia.
        -- intros r R. apply KEEP. right; exact R.
    + constructor; [|exact N2]. intros I. apply in_map_iff in I. destruct I as ((q & c) & Q & I). cbn [snd] in Q. subst c. clear - F2 I L1. induction F2 as [|px [q' c'] ps l H F IHF]; [destruct I|]. destruct I as [I|I]; [|apply IHF, I]. destruct H as (j & o & _ & _ & _ & _ & _ & LL). injection I as -> ->. cbn [snd] in LL. lia.
    + intros j c E. assert (JL : j < List.length (cells m)) by (apply nth_error_Some; congruence). pose proof (W j JL) as WJ. destruct (Nat.eqb_spec i j) as [<-|NE].
      * exists (dset old k x). split; [exact IO|]. right. exists x. congruence.
      * rewrite E in WJ. apply (G2 j c WJ).
    + intros j JL NP. rewrite (U2 j); [|lia|intros q Q; rewrite S1; apply NP; right; exact Q]. rewrite (W j JL). destruct (Nat.eqb_spec i j) as [<-|NE]; [|reflexivity]. destruct (NP p); [left; reflexivity|exact SI].
Qed.

Lemma take_slots both l : forall m, separate (map fst l) ->
  let m' := fold_left (fun m a => take both a m) l m in
  cells m' = cells m /\ past m' = past m ++ map snd l /\
  (forall p c, In (p, c) l -> dget (slots m') p = Some c /\ (both = true -> dget (slots m') (turn p) = Some c)) /\
  (forall q, ~ In q (map fst l) -> (both = true -> ~ In (turn q) (map fst l)) -> dget (slots m') q = dget (slots m) q).
Proof.
  induction l as [|[p c] l IH]; intros m SE; cbn [fold_left map snd].
  - split; [reflexivity|]. split; [rewrite app_nil_r; reflexivity|]. split; [intros p c []|reflexivity].
  - cbn [map fst] in SE. destruct (IH (take both (p, c) m) (separate_tail _ _ SE)) as (A & B & C & D). split; [rewrite A; reflexivity|]. split; [rewrite B; cbn [take past snd]; rewrite <- app_assoc; reflexivity|].
    assert (HD : forall q, dget (slots (take both (p, c) m)) q = if eqb q p then Some c else if both && eqb q (turn p) then Some c else dget (slots m) q).
    { intros q. cbn [take slots fst snd]. destruct both; cbn [andb]; rewrite ?dget_dset; destruct (eqb_spec q p) as [->|N]; try reflexivity. destruct (eqb_spec p (turn p)); reflexivity. }
    assert (NP : ~ In p (map fst l)) by (intros I; destruct (separate_head _ _ _ SE I); congruence). assert (NT : ~ In (turn p) (map fst l)) by (intros I; destruct (separate_head _ _ _ SE I); congruence). split.
    + intros q d [I|I]; [|apply C, I]. injection I as <- <-. rewrite (D p NP (fun _ => NT)), HD, eqb_refl. split; [reflexivity|]. intros ->. rewrite (D (turn p) NT) by (rewrite turn_turn; auto). rewrite HD, eqb_refl. cbn [andb]. destruct (eqb (turn p) p); reflexivity.
    + cbn [map fst]. intros q NI NJ. rewrite D; [|intros I; apply NI; right; exact I|intros X I; apply (NJ X); right; exact I]. rewrite HD. destruct (eqb_spec q p) as [->|_]; [destruct NI; left; reflexivity|]. destruct both; cbn [andb]; [|reflexivity]. destruct (eqb_spec q (turn p)) as [->|_]; [|reflexivity]. destruct (NJ eq_refl). rewrite turn_turn. left; reflexivity.
Qed.
Lemma forall2_pairs {A B} (P : A -> B -> Prop) l m b : Forall2 P l m -> In b m -> exists a, In a l /\ P a b.
Proof. intros F. induction F as [|x y l m H F IH]; intros I; [destruct I|]. destruct I as [->|I]; [exists x; split; [left; reflexivity|exact H]|]. destruct (IH I) as (a & J & K). exists a. split; [right; exact J|exact K]. Qed.
Lemma forall2_pairs_l {A B} (P : A -> B -> Prop) l m a : Forall2 P l m -> In a l -> exists b, In b m /\ P a b.
Proof. intros F. induction F as [|x y l m H F IH]; intros I; [destruct I|]. destruct I as [->|I]; [exists y; split; [left; reflexivity|exact H]|]. destruct (IH I) as (b & J & K). exists b. split; [right; exact J|exact K]. Qed.
Lemma separate_in ps p q : separate ps -> In p ps -> In q ps -> p = q \/ (p <> q /\ p <> turn q).
Proof.
  intros [_ S] I J. apply In_nth_error in I, J. destruct I as [i I], J as [j J]. destruct (Nat.eq_dec i j) as [->|N]; [left; congruence|right; apply (S i j); assumption].
Qed.
Lemma nodup_snd {A B} (l : list (A * B)) a a' b : NoDup (map snd l) -> In (a, b) l -> In (a', b) l -> a = a'.
Proof.
  induction l as [|[x y] l IH]; intros N I J; [destruct I|]. cbn [map snd] in N. inversion N as [|? ? NI N']; subst. destruct I as [I|I], J as [J|J].
  - congruence.
  - injection I as -> ->. destruct NI. apply (in_map snd) in J. exact J.
  - injection J as -> ->. destruct NI. apply (in_map snd) in I. exact I.
  - apply IH; assumption.
Qed.
Lemma step_apart apply both k ps m m' : apart m -> separate (map fst ps) -> step apply both k ps m = Ok m' -> apart m'.
Proof.
  intros AP SE H. unfold step in H. destruct (process_all k ps m) as [[m1 l]|] eqn:P; [|discriminate]. cbn [rbind fst snd] in H. injection H as <-. destruct (process_all_spec k ps m m1 l AP SE P) as (S1 & PA & L1 & ML & F & ND & _ & _). pose proof AP as (A1 & A2 & A3).
  assert (AP1 : apart m1). { split; [|split]; rewrite ?S1, ?PA; intros; [eapply Nat.lt_le_trans; [eapply A1; eassumption|exact L1]|eapply Nat.lt_le_trans; [apply A2; assumption|exact L1]|eapply A3; eassumption]. }
  destruct apply; [|exact AP1]. rewrite <- ML in SE. destruct (take_slots both l m1 SE) as (C & B & T & U). set (m2 := fold_left (fun m a => take both a m) l m1) in *.
  assert (NEW : forall p c, In (p, c) l -> List.length (cells m) <= c < List.length (cells m1)). { intros p c I. destruct (forall2_pairs _ _ _ _ F I) as (px & _ & i & old & _ & _ & _ & _ & _ & LL). exact LL. }
  assert (ORI : forall q i, dget (slots m2) q = Some i -> (exists p, In (p, i) l /\ (q = p \/ q = turn p)) \/ dget (slots m) q = Some i).
  { intros q i Q. destruct (in_dec pair_dec q (map fst l)) as [I|I].
    - apply in_map_iff in I. destruct I as ((p & c) & E & I). cbn [fst] in E. subst p. destruct (T q c I) as [X _]. left. exists q. split; [congruence|auto].
    - destruct (in_dec pair_dec (turn q) (map fst l)) as [J|J].
      + apply in_map_iff in J. destruct J as ((p & c) & E & J). cbn [fst] in E. subst p. destruct both.
        * destruct (T (turn q) c J) as [_ X]. specialize (X eq_refl). rewrite turn_turn in X. left. exists (turn q). rewrite turn_turn. split; [congruence|auto].
        * right. rewrite U in Q; [congruence|exact I|discriminate].
      + right. rewrite U in Q; [congruence|exact I|auto]. }
  split; [|split].
  - intros q i Q. rewrite C. destruct (ORI q i Q) as [(p & I & _)|O]; [apply NEW in I; lia|]. apply A1 in O. lia.
  - intros i I. rewrite B in I. rewrite C. apply in_app_or in I. destruct I as [I|I]; [apply AP1; exact I|]. apply in_map_iff in I. destruct I as ((p & c) & E & I). cbn [snd] in E. subst c. apply NEW in I. lia.
  - intros p q i E1 E2. destruct (ORI p i E1) as [(a & I & X)|O1], (ORI q i E2) as [(b & J & Y)|O2].
    + assert (a = b) by (eapply nodup_snd; eassumption). subst b. destruct X as [->| ->], Y as [->| ->]; rewrite ?turn_turn; auto.
    + apply NEW in I. apply A1 in O2. lia.
    + apply NEW in J. apply A1 in O1. lia.
    + eapply A3; eassumption.
Qed.
Lemma new_apart p x m : apart m -> apart (new_edge p x m).
Proof.
  intros (A & B & C). unfold new_edge. split; [|split]; cbn [cells slots past]; rewrite ?app_length; cbn [List.length].
  - intros q i. rewrite dget_dset. destruct (eqb q p); intros Q; [injection Q as <-; lia|apply A in Q; lia].
  - intros i I. apply B in I. lia.
  - intros q r i. rewrite !dget_dset. destruct (eqb_spec q p) as [->|N], (eqb_spec r p) as [->|M]; intros Q R; [auto|injection Q as <-; apply A in R; lia|injection R as <-; apply A in Q; lia|eapply C; eassumption].
Qed.
Lemma run_apart os : forall m m', apart m -> Forall fair os -> run_ops os m = Ok m' -> apart m'.
Proof.
  induction os as [|o os IH]; intros m m' AP F H; cbn [run_ops] in H; [injection H as <-; exact AP|]. inversion F as [|? ? FO FR]; subst. destruct (run_op o m) as [m1|] eqn:O; [|discriminate]. cbn [rbind] in H. apply (IH m1 m'); [|exact FR|exact H].
  destruct o as [p x|apply both k ps]; cbn [run_op] in O; [injection O as <-; apply new_apart, AP|eapply step_apart; eassumption].
Qed.
Lemma reached_apart m : reached m -> apart m.
Proof. intros (os & F & H). eapply run_apart; [|exact F|exact H]. repeat split; cbn; intros; try discriminate; contradiction. Qed.

(* C83: a step that writes a number under k.  Carried out for both directions, both have the old data of the edge that was
   looked at with the number under k; for one direction, that direction has, and the opposite one has its old data, except
   that the number may have got into it as well; all edges that are not concerned keep their data. *)
Theorem C83_step : forall both k ps m m', reached m -> separate (map fst ps) -> step true both k ps m = Ok m' ->
  (forall p x, In (p, x) ps -> exists c, data m p = Some c /\ data m' p = Some (dset c k x) /\
     (both = true -> data m' (turn p) = Some (dset c k x)) /\
     (both = false -> data m' (turn p) = data m (turn p) \/ data m (turn p) = Some c /\ data m' (turn p) = Some (dset c k x))) /\
  (forall q, ~ touched (map fst ps) q -> data m' q = data m q).
Proof.
  intros both k ps m m' R SE H. apply reached_apart in R. unfold step in H. destruct (process_all k ps m) as [[m1 l]|] eqn:P; [|discriminate]. cbn [rbind fst snd] in H. injection H as <-. destruct (process_all_spec k ps m m1 l R SE P) as (S1 & PA & L1 & ML & F & ND & _ & KEEP). pose proof R as (A1 & A2 & A3).
  pose proof SE as SE'. rewrite <- ML in SE'. destruct (take_slots both l m1 SE') as (C & B & T & U). set (m2 := fold_left (fun m a => take both a m) l m1) in *. split.
  - intros p x I. destruct (forall2_pairs_l _ _ _ _ F I) as ((p' & c) & J & i & old & SAME & SI & O & W & CC & LL). cbn [fst snd] in *. subst p'. destruct (T p c J) as [T1 T2]. exists old. unfold data. rewrite SI, T1, C. split; [exact O|]. split; [exact CC|]. split.
    + intros X. rewrite (T2 X). exact CC.
    + intros X. assert (IP : In p (map fst ps)) by (apply (in_map fst) in I; exact I). assert (NT : ~ In (turn p) (map fst ps)).
      { intros Q. destruct (separate_in _ _ _ SE IP Q) as [E|[_ E]]; [|rewrite turn_turn in E; congruence]. destruct SE as [NL _]. destruct p as [u v]. injection E as E1 E2. apply (NL u v); [exact IP|congruence]. }
      rewrite U by (rewrite ?ML; congruence). rewrite S1. destruct (dget (slots m) (turn p)) as [j|] eqn:Q; [|auto]. destruct (Nat.eq_dec i j) as [<-|N]; [right; split; [exact O|exact W]|left]. apply KEEP; [eapply A1; exact Q|].
      intros q QI E. destruct (A3 _ _ _ Q E) as [->|E']; [contradiction|]. rewrite turn_turn in E'. subst q. congruence.
  - intros q NT. unfold data. assert (NI : ~ In q (map fst l)) by (rewrite ML; intros I; apply NT; left; exact I). assert (NJ : ~ In (turn q) (map fst l)) by (rewrite ML; intros I; apply NT; right; exact I). rewrite (U q NI (fun _ => NJ)), S1, C. destruct (dget (slots m) q) as [i|] eqn:Q; [|reflexivity].
    apply KEEP; [eapply A1; exact Q|]. intros p I E. destruct (A3 q p i Q E) as [->| ->]; [apply NT; left; exact I|apply NT; right; exact I].
Qed.
Print Assumptions C83_step.

Lemma noted_trans k c c' k0 : noted k c c' -> k0 <> k -> dget c' k0 = dget c k0.
Proof. intros [->|(x & ->)] N; [reflexivity|apply dget_dset_other, N]. Qed.
(* what is recorded changes only under the keys that later steps write *)
Theorem C83_recorded : forall os m m' j c, reached m -> Forall fair os -> run_ops os m = Ok m' -> recorded m j = Some c ->
  exists c', recorded m' j = Some c' /\ forall k, (forall o, In o os -> ~ writes o k) -> dget c' k = dget c k.
Proof.
  intros os m m' j c R. apply reached_apart in R. revert m c R. induction os as [|o os IH]; intros m c R F H RC; cbn [run_ops] in H.
  - injection H as <-. exists c. auto.
  - inversion F as [|? ? FO FR]; subst. destruct (run_op o m) as [m1|] eqn:O; [|discriminate]. cbn [rbind] in H. assert (AP : apart m1) by (apply (run_apart [o] m m1 R); [constructor; [exact FO|constructor]|cbn [run_ops]; rewrite O; reflexivity]).
    assert (ONE : exists c1, recorded m1 j = Some c1 /\ forall k, ~ writes o k -> dget c1 k = dget c k).
    { unfold recorded in *. destruct (nth_error (past m) j) as [i|] eqn:PJ; [|discriminate]. destruct o as [p x|apply both k ps]; cbn [run_op] in O.
      - injection O as <-. cbn [new_edge past cells]. rewrite PJ. exists c. split; [|auto]. rewrite nth_error_app1; [exact RC|]. apply nth_error_Some. congruence.
      - cbn [fair] in FO. unfold step in O. destruct (process_all k ps m) as [[m2 l]|] eqn:P; [|discriminate]. cbn [rbind fst snd] in O. injection O as <-. destruct (process_all_spec k ps m m2 l R FO P) as (S1 & PA & L1 & ML & _ & _ & G & _). destruct (G i c RC) as (c' & C' & N). exists c'. split.
        + destruct apply; [|rewrite PA, PJ; exact C']. rewrite <- ML in FO. destruct (take_slots both l m2 FO) as (C & B & _). rewrite C, B, PA. rewrite nth_error_app1 by (apply nth_error_Some; congruence). rewrite PJ. exact C'.
        + intros k0 W. eapply noted_trans; [exact N|exact W]. }
    destruct ONE as (c1 & RC1 & E1). destruct (IH m1 c1 AP FR H RC1) as (c' & RC' & E). exists c'. split; [exact RC'|]. intros k W. rewrite (E k), (E1 k); [reflexivity|apply W; left; reflexivity|intros o' I; apply W; right; exact I].
Qed.
Print Assumptions C83_recorded.

(* two edges, then correlations of both, then the effect of a on b *)
Definition ab : pair := ("a", "b").
Definition bc : pair := ("b", "c").
Definition prepared : list op := [NewEdge ab []; NewEdge (turn ab) []; NewEdge bc []; NewEdge (turn bc) []].
Definition correlations : op := Step true true "correlation" [(ab, MNum 5); (bc, MNum 7)].
Definition effects : op := Step true false "direct_effect" [(ab, MNum 9)].
Definition seen (os : list op) : option (list (option meta) * list (option meta)) :=
  match run_ops os (mkMem [] [] []) with Ok m => Some (map (data m) [ab; turn ab; bc; turn bc], map (recorded m) (seq 0 (List.length (past m)))) | Err _ => None end.
Lemma separate_two p q : fst p <> snd p -> fst q <> snd q -> p <> q -> p <> turn q -> separate [p; q].
Proof.
  intros P Q A B. assert (A' : q <> p) by congruence. assert (B' : q <> turn p) by (intros ->; rewrite turn_turn in B; congruence). split.
  - intros u v [->|[->|[]]]; assumption.
  - intros [|[|i]] [|[|j]] x y I J N; cbn in I, J; try (destruct i; discriminate); try (destruct j; discriminate); try contradiction; injection I as <-; injection J as <-; split; assumption.
Qed.
Lemma separate_one p : fst p <> snd p -> separate [p].
Proof.
  intros P. split; [intros u v [->|[]]; exact P|]. intros [|i] [|j] x y I J N; cbn in I, J; try (destruct i; discriminate); try (destruct j; discriminate). contradiction.
Qed.
Lemma all_fair : Forall fair (prepared ++ [correlations; effects]).
Proof.
  unfold prepared. cbn [app]. do 4 (constructor; [cbn [fair]; try exact Logic.I; try discriminate|]). constructor; [apply separate_two; discriminate|]. constructor; [apply separate_one; discriminate|constructor].
Qed.
Example C83_nonvacuous : Forall fair (prepared ++ [correlations; effects]) /\
  seen (prepared ++ [correlations]) = Some ([Some [("correlation", MNum 5)]; Some [("correlation", MNum 5)]; Some [("correlation", MNum 7)]; Some [("correlation", MNum 7)]], [Some [("correlation", MNum 5)]; Some [("correlation", MNum 7)]]).
Proof. split; [apply all_fair|vm_compute; reflexivity]. Qed.
(* The record of the correlation step shows the effect that was computed by a later step; the opposite direction, too. *)
Theorem C83_recorded_refuted : exists os o m m' c c', Forall fair (os ++ [o]) /\ run_ops os (mkMem [] [] []) = Ok m /\ run_ops (os ++ [o]) (mkMem [] [] []) = Ok m' /\
  recorded m 0 = Some c /\ recorded m' 0 = Some c' /\ dget c "direct_effect" = None /\ dget c' "direct_effect" = Some (MNum 9) /\ data m' (turn ab) = Some c'.
Proof.
  exists (prepared ++ [correlations]), effects. do 4 eexists. split; [apply all_fair|]. split; [vm_compute; reflexivity|]. split; [vm_compute; reflexivity|]. repeat split; vm_compute; reflexivity.
Qed.
Print Assumptions C83_recorded_refuted.
(* A step whose actions are not to be applied changes the data of edges nevertheless. *)
Theorem C83_dry_refuted : exists m m', reached m /\ step false true "correlation" [(ab, MNum 5)] m = Ok m' /\ data m ab = Some [] /\ data m' ab = Some [("correlation", MNum 5)].
Proof.
  do 2 eexists. split; [exists prepared; split; [pose proof all_fair as F; apply Forall_app in F; apply F|vm_compute; reflexivity]|]. split; [vm_compute; reflexivity|]. split; vm_compute; reflexivity.
Qed.
Print Assumptions C83_dry_refuted.
