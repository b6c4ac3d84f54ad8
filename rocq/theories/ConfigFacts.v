(* Proofs about dumping and loading pipeline configurations. *)
From Coq Require Import QArith.
From Verif Require Import Base PyDict PyDictFacts PyStr Json Variables VariableSpec VariableFacts Config ConfigSpec.
Close Scope Q_scope.
Open Scope string_scope.
Open Scope list_scope.

Section Facts.
Variable lookup : string -> option class.
Hypothesis GC : good_classes lookup.
Definition raw (p : pv) : pv := of_json (to_json p).
Lemma raw_deser p : plain_value p -> deser_pv (raw p) = Ok p.
Proof. destruct p; cbn; intros H; try reflexivity; destruct H. Qed.
Lemma plain_deser p : plain_value p -> deser_pv p = Ok p.
Proof. destruct p; cbn; intros H; try reflexivity; destruct H. Qed.
Lemma raw_truthy p : plain_value p -> truthy (raw p) = truthy p.
Proof. destruct p; cbn; intros H; try reflexivity; destruct H. Qed.
Lemma if_truthy_plain g d : plain_value g -> plain_value d -> plain_value (if_truthy g d).
Proof. unfold if_truthy. destruct (truthy g); auto. Qed.
Lemma if_given_plain g d : plain_value g -> plain_value d -> plain_value (if_given g d).
Proof. destruct g; cbn; auto. Qed.
(* an attribute set by the constructor is set to the same value, or its dictionary, when it is given again *)
Lemma again_truthy g d : plain_value g -> plain_value d -> deser_pv (if_truthy (raw (if_truthy g d)) d) = Ok (if_truthy g d).
Proof.
  intros Pg Pd. unfold if_truthy at 1. rewrite raw_truthy by (apply if_truthy_plain; assumption). destruct (truthy (if_truthy g d)) eqn:E; [apply raw_deser, if_truthy_plain; assumption|].
  unfold if_truthy in *. destruct (truthy g) eqn:T; [congruence|]. apply plain_deser, Pd.
Qed.
Lemma again_given g d : plain_value g -> plain_value d -> deser_pv (if_given (raw (if_given g d)) d) = Ok (if_given g d).
Proof.
  intros Pg Pd. assert (P := if_given_plain g d Pg Pd). destruct (if_given g d) eqn:E; cbn in *; try reflexivity; try (destruct P).
  destruct g; cbn in E; try discriminate. subst d. reflexivity.
Qed.
Lemma settings_again c : built_settings lookup c -> load_settings lookup (dump_settings c) = Ok (Some c).
Proof.
  intros ((a & b & L) & H1 & H2). destruct c as [cls mn mx]. cbn in *. destruct mn; try destruct H1; destruct mx; try destruct H2; vm_compute; rewrite L; reflexivity.
Qed.
Lemma deser_settings_id c : int_value (se_min c) -> int_value (se_max c) -> deser_settings c = Ok c.
Proof. destruct c as [cls mn mx]; cbn. intros H1 H2. destruct mn; try destruct H1; destruct mx; try destruct H2; reflexivity. Qed.

(* ---- generators ---- *)
Fixpoint gen_rect' (P : gen -> Prop) (H : forall cls cs ch ev sh cz inner, (forall g, inner = ObjGen g -> P g) -> P (Gen cls cs ch ev sh cz inner)) (g : gen) : P g.
Proof.
  destruct g as [cls cs ch ev sh cz inner]. apply H. intros g E. destruct inner as [|g'|j]; try discriminate. injection E as <-. apply gen_rect'. exact H.
Defined.
Lemma find_generator (l : list (string * jv)) (f : jv -> res gen) :
  (fix find (l : list (string * jv)) : res ginner :=
     match l with [] => Ok NoGen | (key, x) :: r => if eqb "generator" key then match x with JNull => Ok NoGen | _ => rbind (f x) (fun g => Ok (ObjGen g)) end else find r end) l =
  match dget l "generator" with None | Some JNull => Ok NoGen | Some x => rbind (f x) (fun g => Ok (ObjGen g)) end.
Proof.
  induction l as [|[k x] r IH]; [reflexivity|]. cbn [dget]. destruct (eqb "generator" k); [destruct x; reflexivity|exact IH].
Qed.
Lemma load_gen_dict l : load_gen lookup (JDict l) =
  rbind (class_name l) (fun n =>
      match lookup n with
      | Some (CGen k _ _ _) =>
          if negb (only_keys (["comparison_settings"; "chunked"; "every_nth"; "generator"; "shuffle_combinations"] ++ match k with GEdges _ => ["chunk_size"] | _ => [] end) l) then Err TypeError else
          rbind (match dget l "comparison_settings" with Some c => load_settings lookup c | None => Ok None end) (fun cs =>
          rbind (match k with
                 | GSample => match dget l "generator" with None | Some JNull => Ok NoGen | Some x => rbind (load_gen lookup x) (fun g => Ok (ObjGen g)) end
                 | _ => Ok (match dget l "generator" with None | Some JNull => NoGen | Some x => RawGen x end)
                 end) (fun inner =>
          init_gen lookup n cs (arg l "chunked") (arg l "every_nth") (arg l "shuffle_combinations") (option_map of_json (dget l "chunk_size")) inner))
      | Some _ => Err TypeError
      | None => Err AttributeError
      end).
Proof.
  cbn [load_gen]. destruct (class_name l) as [n|]; [|reflexivity]. cbn [rbind]. destruct (lookup n) as [[| k ? ? ?| | |]|]; try reflexivity.
  destruct (negb _); [reflexivity|]. destruct (match dget l "comparison_settings" with Some c => _ | None => _ end); [|reflexivity]. cbn [rbind]. destruct k; try reflexivity. rewrite find_generator. reflexivity.
Qed.
Theorem gen_again g : built_gen lookup g -> exists g1, load_gen lookup (dump_gen g) = Ok g1 /\ deser_gen g1 = Ok (reloaded_gen lookup g).
Proof.
  induction g as [cls0 cs0 ch0 ev0 sh0 cz0 inner0 IH] using gen_rect'. intros B.
  inversion B as [cls cs ch ev sh cz inner g Bcs Pch Pev Psh Pcz Bin E Eg]; subst g.
  unfold init_gen in E. destruct (lookup cls) as [[| k dc de ds| | |]|] eqn:L; try discriminate. destruct (GC cls _ L) as (Pdc & Pde & Pds & Pk).
  assert (CS : forall c, cs = Some c -> deser_settings c = Ok c) by (intros c Hc; destruct (Bcs c Hc) as (_ & S1 & S2); apply deser_settings_id; assumption).
  assert (CSL : (match (match cs with Some c => dump_settings c | None => JNull end) with j => load_settings lookup j end) = Ok cs).
  { destruct cs as [c|]; [apply settings_again, Bcs; reflexivity|reflexivity]. }
  assert (DCS : deser_opt deser_settings cs = Ok cs) by (destruct cs as [c|]; [cbn; rewrite (CS c eq_refl); reflexivity|reflexivity]).
  assert (EC : cls0 = cls /\ cs0 = cs /\ inner0 = inner) by (destruct k, cz; try discriminate; try (destruct inner; discriminate); try (destruct inner; try discriminate); injection E; auto).
  destruct EC as (-> & -> & ->).
  (* the arguments that are given again *)
  pose (l := [("comparison_settings", match cs with Some c => dump_settings c | None => JNull end); ("chunked", to_json ch0); ("every_nth", to_json ev0);
             ("generator", match inner with NoGen => JNull | ObjGen g' => dump_gen g' | RawGen j => j end); ("shuffle_combinations", to_json sh0); ("name", JStr cls)] : list (string * jv)).
  change (dump_gen (Gen cls cs ch0 ev0 sh0 cz0 inner)) with (JDict l : jv). rewrite load_gen_dict.
  assert (CN : class_name l = Ok cls) by reflexivity. rewrite CN. cbn [rbind]. rewrite L.
  assert (OK : only_keys (["comparison_settings"; "chunked"; "every_nth"; "generator"; "shuffle_combinations"] ++ match k with GEdges _ => ["chunk_size"] | _ => [] end) l = true) by (destruct k; reflexivity).
  rewrite OK. cbn [negb].
  assert (A1 : match dget l "comparison_settings" with Some c => load_settings lookup c | None => Ok None end = Ok cs) by exact CSL. rewrite A1. cbn [rbind].
  assert (A2 : arg l "chunked" = raw ch0) by reflexivity. assert (A3 : arg l "every_nth" = raw ev0) by reflexivity. assert (A4 : arg l "shuffle_combinations" = raw sh0) by reflexivity.
  assert (A5 : option_map of_json (dget l "chunk_size") = None) by reflexivity.
  assert (A6 : dget l "generator" = Some (match inner with NoGen => JNull | ObjGen g' => dump_gen g' | RawGen j => j end)) by reflexivity.
  rewrite A2, A3, A4, A5, A6. clearbody l. clear CN OK A1 A2 A3 A4 A5 A6.
  assert (DG : forall g', exists q, dump_gen g' = JDict q) by (intros []; eexists; reflexivity).
  assert (SM : samples lookup cls = match k with GSample => true | _ => false end) by (unfold samples; rewrite L; destruct k; reflexivity).
  assert (CC : class_chunk lookup cls = match k with GEdges d => Some d | _ => None end) by (unfold class_chunk; rewrite L; destruct k; reflexivity).
  cbn [reloaded_gen]. rewrite SM, CC. unfold init_gen. rewrite L.
  destruct k as [|d|].
  - destruct cz; [discriminate|]. injection E as <- <- <- <-.
    destruct Bin as [->|(g' & -> & _)]; [|destruct (DG g') as (q & Q); rewrite Q]; cbn [rbind]; (eexists; split; [reflexivity|]); cbn [deser_gen]; rewrite DCS; cbn [rbind];
      rewrite (again_given ch dc), (again_given ev de), (again_given sh ds) by assumption; reflexivity.
  - injection E as <- <- <- <-.
    destruct Bin as [->|(g' & -> & _)]; [|destruct (DG g') as (q & Q); rewrite Q]; cbn [rbind]; (eexists; split; [reflexivity|]); cbn [deser_gen]; rewrite DCS; cbn [rbind];
      rewrite (raw_deser ch), (again_given ev de), (again_given sh ds) by assumption; cbn [rbind deser_opt]; rewrite (plain_deser d) by assumption; reflexivity.
  - destruct cz; [discriminate|]. destruct Bin as [->|(g' & -> & Bg)]; [discriminate|]. injection E as <- <- <- <-.
    destruct (IH g' eq_refl Bg) as (g1 & E1 & E2). destruct (DG g') as (q & Q). rewrite Q in *. rewrite E1. cbn [rbind]. eexists; split; [reflexivity|].
    cbn [deser_gen]. rewrite DCS. cbn [rbind]. rewrite (again_given ch dc), (again_given ev de) by assumption. cbn [rbind]. rewrite E2. cbn [rbind]. rewrite (again_given sh ds) by assumption. reflexivity.
Qed.

(* ---- steps ---- *)
Lemma dget_app {V} (a b : list (string * V)) k : dget (a ++ b) k = match dget a k with Some v => Some v | None => dget b k end.
Proof. induction a as [|[k' v] a IH]; [reflexivity|]. cbn [app dget]. destruct (eqb k k'); [reflexivity|exact IH]. Qed.
Lemma dget_map {V W} (f : V -> W) l k : dget (map (fun p => (fst p, f (snd p))) l) k = option_map f (dget l k).
Proof. induction l as [|[k' v] l IH]; [reflexivity|]. cbn [map dget fst snd]. destruct (eqb k k'); [reflexivity|exact IH]. Qed.
Lemma extra_plain l : (forall k v, In (k, v) l -> plain_value v) -> deser_extra l = Ok l.
Proof.
  induction l as [|[k v] l IH]; intros H; [reflexivity|]. cbn [deser_extra]. rewrite plain_deser by (apply (H k); left; reflexivity). cbn [rbind]. rewrite IH by (intros; eapply H; right; eassumption). reflexivity.
Qed.
Lemma extra_raw l : (forall k v, In (k, v) l -> plain_value v) -> deser_extra (map (fun p => (fst p, raw (snd p))) l) = Ok l.
Proof.
  induction l as [|[k v] l IH]; intros H; [reflexivity|]. cbn [deser_extra map fst snd]. rewrite raw_deser by (apply (H k); left; reflexivity). cbn [rbind]. rewrite IH by (intros; eapply H; right; eassumption). reflexivity.
Qed.
Lemma extra_enum l : (forall k v, In (k, v) l -> plain_value v \/ is_enum v = true) -> deser_extra l = if existsb (fun p => is_enum (snd p)) l then Err TypeError else Ok l.
Proof.
  induction l as [|[k v] l IH]; intros H; [reflexivity|]. cbn [deser_extra existsb snd]. destruct (H k v (or_introl eq_refl)) as [P|P].
  - rewrite plain_deser by exact P. cbn [rbind]. rewrite IH by (intros; eapply H; right; eassumption). assert (N : is_enum v = false) by (destruct v; try reflexivity; destruct P). rewrite N. cbn [orb]. destruct (existsb _ l); reflexivity.
  - rewrite P. cbn [orb]. destruct v; try discriminate. reflexivity.
Qed.
Lemma plain_noenum l : (forall k v, In (k, v) l -> plain_value v) -> existsb (fun p : string * pv => is_enum (snd p)) l = false.
Proof.
  induction l as [|[k v] l IH]; intros H; [reflexivity|]. cbn [existsb snd]. rewrite IH by (intros; eapply H; right; eassumption). assert (P := H k v (or_introl eq_refl)). destruct v; try reflexivity; destruct P.
Qed.
Lemma map_const {V} (f : string * V -> V) l : (forall k v, In (k, v) l -> f (k, v) = v) -> map (fun p => (fst p, f p)) l = l.
Proof. induction l as [|[k v] l IH]; intros H; [reflexivity|]. cbn [map fst]. rewrite (H k v) by (left; reflexivity). f_equal. apply IH. intros; apply H; right; assumption. Qed.
Theorem step_again s : built_item lookup (IStep s) -> load_item lookup (dump_step s) = if step_enum s then Err TypeError else Ok (IStep (reloaded_step lookup s)).
Proof.
  intros B. inversion B as [cls a s' Bg P1 P2 P3 P4 P5 PK E Es|cls steps exit display i H1 H2 H3 E Es]; subst.
  2: { unfold init_logic in E. destruct (lookup cls) as [[]|]; discriminate. }
  unfold init_step in E. destruct (lookup cls) as [[| | d settable| |]|] eqn:L; try discriminate. destruct (GC cls _ L) as (GD & D1 & D2 & D3 & D4 & D5 & D6 & ND & DE).
  set (ex := if settable then map (fun p => (fst p, match dget (a_kwargs a) (fst p) with Some v => v | None => snd p end)) (s_extra d) else s_extra d) in E.
  assert (KE : map fst ex = map fst (s_extra d)) by (unfold ex; destruct settable; [rewrite map_map; reflexivity|reflexivity]).
  assert (NF : forall k, In k (map fst ex) -> ~ In k field_names).
  { intros k. rewrite KE. intros I. apply in_map_iff in I. destruct I as ([k' v] & <- & I). exact (proj1 (DE k' v I)). }
  assert (NDx : NoDup (map fst ex)) by (rewrite KE; exact ND).
  assert (PX : forall k v, In (k, v) ex -> plain_value v \/ settable = false /\ is_enum v = true).
  { intros k v I. unfold ex in I. destruct settable; [left|exact (proj2 (DE k v I))]. apply in_map_iff in I. destruct I as ([k' v'] & E' & I). cbn [fst snd] in E'. injection E' as <- <-.
    destruct (dget (a_kwargs a) k') as [w|] eqn:G; [apply dget_In in G; exact (PK _ _ G)|]. destruct (proj2 (DE k' v' I)) as [X|[X _]]; [exact X|discriminate]. }
  injection E as <-.
  (* the dictionary *)
  cbn [s_class s_gen s_threshold s_chunk s_parallel s_display s_needs s_sync s_extra dump_step reloaded_step step_enum]. unfold dump_step, reloaded_step, step_enum. cbn [s_class s_gen s_threshold s_chunk s_parallel s_display s_needs s_sync s_extra].
  set (g := match a_gen a with Some g => Some g | None => s_gen d end). set (t := if_truthy (a_threshold a) _). set (c := if_truthy (a_chunk a) _). set (p := if_truthy (a_parallel a) _). set (dn := if_truthy (a_display a) _). set (sy := if_truthy (a_sync a) _).
  set (pre := [("generator", _); ("threshold", to_json t); _; _; _; _; _]).
  set (l := pre ++ map (fun p => (fst p, to_json (snd p))) ex ++ [("name", JStr cls)]).
  assert (NX : forall k, In k field_names -> dget (map (fun p => (fst p, to_json (snd p))) ex) k = None).
  { intros k I. rewrite dget_map. destruct (dget ex k) as [v|] eqn:G; [|reflexivity]. apply dget_In in G. exfalso. apply (NF k); [apply in_map_iff; exists (k, v); auto|exact I]. }
  assert (CN : class_name l = Ok cls).
  { unfold class_name, l. rewrite !dget_app. change (dget pre "name") with (@None jv). rewrite NX by (cbn; auto 10). reflexivity. }
  assert (A1 : arg l "threshold" = raw t) by reflexivity. assert (A2 : arg l "chunk_size_parallel_processing" = raw c) by reflexivity. assert (A3 : arg l "parallel" = raw p) by reflexivity.
  assert (A4 : arg l "display_name" = raw dn) by reflexivity. assert (A5 : arg l "apply_synchronous" = raw sy) by reflexivity.
  assert (A6 : dget l "generator" = Some (match g with Some g => dump_gen g | None => JNull end)) by reflexivity.
  assert (AX : forall k v, In (k, v) ex -> dget l k = Some (to_json v)).
  { intros k v I. unfold l. rewrite !dget_app. assert (N : ~ In k field_names) by (apply NF; apply in_map_iff; exists (k, v); auto).
    assert (Np : dget pre k = None). { apply dget_None. intros J. apply N. cbn in J |- *. tauto. }
    rewrite Np, dget_map, (NoDup_dget ex k v NDx I). reflexivity. }
  assert (GG : exists g1, load_gen_arg lookup (Some (match g with Some g => dump_gen g | None => JNull end)) = Ok g1 /\
     deser_opt deser_gen (match g1 with Some x => Some x | None => s_gen d end) = Ok (option_map (reloaded_gen lookup) g)).
  { destruct g as [g0|] eqn:Eg.
    - assert (Bg0 : built_gen lookup g0) by (unfold g in Eg; destruct (a_gen a) as [ga|]; [injection Eg as ->; apply Bg; reflexivity|apply GD; exact Eg]).
      destruct (gen_again g0 Bg0) as (g1 & G1 & G2). destruct (dump_gen g0) as [| | | | | |[|q0 q]] eqn:Q; try (destruct g0; discriminate). unfold load_gen_arg. rewrite G1. cbn [rbind]. exists (Some g1). split; [reflexivity|]. cbn [deser_opt]. rewrite G2. reflexivity.
    - exists None. split; [reflexivity|]. unfold g in Eg. destruct (a_gen a); [discriminate|]. rewrite Eg. reflexivity. }
  destruct GG as (g1 & G1 & G2).
  cbn [load_item]. rewrite CN. cbn [rbind]. rewrite L. unfold load_step. rewrite A6.
  rewrite G1.
  cbn [rbind]. rewrite A1, A2, A3, A4, A5. unfold init_step. rewrite L. cbn [a_gen a_threshold a_chunk a_parallel a_display a_sync a_kwargs rbind].
  cbn [deser_item]. unfold deser_step. cbn [s_class s_gen s_threshold s_chunk s_parallel s_display s_needs s_sync s_extra]. rewrite G2. cbn [rbind].
  unfold t, c, p, dn, sy. rewrite !again_truthy by assumption. cbn [rbind]. rewrite (plain_deser (s_needs d)) by assumption. cbn [rbind].
  assert (EX : deser_extra (if settable then map (fun p => (fst p, match dget (map (fun p => (fst p, of_json (snd p))) l) (fst p) with Some v => v | None => snd p end)) (s_extra d) else s_extra d) =
     if existsb (fun p => is_enum (snd p)) ex then Err TypeError else Ok ex).
  { clear -AX PX NDx KE. destruct settable eqn:ST.
    - assert (PP : forall k v, In (k, v) ex -> plain_value v) by (intros k v I; destruct (PX k v I) as [X|[X _]]; [exact X|discriminate]).
      rewrite (plain_noenum ex PP). rewrite <- (extra_raw ex PP). f_equal.
      assert (H : forall (l1 : list (string * pv)) l2, map fst l1 = map fst l2 -> (forall k v, In (k, v) l1 -> In (k, v) ex) ->
         map (fun p => (fst p, match dget (map (fun p => (fst p, of_json (snd p))) l) (fst p) with Some v => v | None => snd p end)) l2 = map (fun p => (fst p, raw (snd p))) l1).
      { induction l1 as [|[k v] l1 IH]; intros [|[k' v'] l2] EK HI; try discriminate; [reflexivity|]. cbn [map fst snd] in *. injection EK as <- EK. rewrite dget_map, (AX k v) by (apply HI; left; reflexivity). cbn [option_map].
        f_equal. apply IH; [exact EK|]. intros; apply HI; right; assumption. }
      apply H; auto.
    - unfold ex. apply extra_enum. intros k v I. destruct (PX k v I) as [X|[_ X]]; auto. }
  rewrite EX. destruct (existsb _ ex); [reflexivity|]. reflexivity.
Qed.

(* ---- loading the references a second time changes nothing ---- *)
Lemma bind_ok {A B} (r : res A) (f : A -> res B) b : rbind r f = Ok b -> exists a, r = Ok a /\ f a = Ok b.
Proof. destruct r as [a|]; cbn; [|discriminate]. intros H. exists a; auto. Qed.
Lemma deser_pv_idem p q : deser_pv p = Ok q -> deser_pv q = Ok q.
Proof.
  destruct p as [|b|z|f|s|n|s|[| | | | |l|l]]; cbn [deser_pv]; intros H; try (injection H as <-; reflexivity); [discriminate|].
  destruct (dget l "type") as [[| | | |t| |]|] eqn:T; try (injection H as <-; cbn [deser_pv]; rewrite T; reflexivity).
  destruct (eqb t "reference") eqn:R; [|injection H as <-; cbn [deser_pv]; rewrite T, R; reflexivity]. destruct (dget l "name") as [[| | | |n| |]|]; try discriminate. injection H as <-. reflexivity.
Qed.
Lemma deser_opt_idem {A} (f : A -> res A) o o' : (forall x y, f x = Ok y -> f y = Ok y) -> deser_opt f o = Ok o' -> deser_opt f o' = Ok o'.
Proof. intros I. destruct o as [x|]; cbn; intros H; [|injection H as <-; reflexivity]. apply bind_ok in H. destruct H as (y & Hy & H). injection H as <-. cbn. rewrite (I x y Hy). reflexivity. Qed.
Lemma deser_settings_idem c c' : deser_settings c = Ok c' -> deser_settings c' = Ok c'.
Proof.
  unfold deser_settings. intros H. apply bind_ok in H. destruct H as (a & Ha & H). apply bind_ok in H. destruct H as (b & Hb & H). injection H as <-. cbn [se_min se_max se_class].
  rewrite (deser_pv_idem _ _ Ha), (deser_pv_idem _ _ Hb). reflexivity.
Qed.
Lemma deser_gen_idem : forall g g', deser_gen g = Ok g' -> deser_gen g' = Ok g'.
Proof.
  induction g as [cls cs ch ev sh cz inner IH] using gen_rect'. intros g' H. cbn [deser_gen] in H.
  apply bind_ok in H. destruct H as (cs1 & H1 & H). apply bind_ok in H. destruct H as (ch1 & H2 & H). apply bind_ok in H. destruct H as (ev1 & H3 & H). apply bind_ok in H. destruct H as (in1 & H4 & H).
  apply bind_ok in H. destruct H as (sh1 & H5 & H). apply bind_ok in H. destruct H as (cz1 & H6 & H). injection H as <-. cbn [deser_gen].
  rewrite (deser_opt_idem _ _ _ deser_settings_idem H1), (deser_pv_idem _ _ H2), (deser_pv_idem _ _ H3), (deser_pv_idem _ _ H5), (deser_opt_idem _ _ _ deser_pv_idem H6). cbn [rbind].
  destruct inner as [|g|j]; try (injection H4 as <-; reflexivity). apply bind_ok in H4. destruct H4 as (g1 & G1 & H4). injection H4 as <-. rewrite (IH g eq_refl g1 G1). reflexivity.
Qed.
Lemma deser_extra_idem l l' : deser_extra l = Ok l' -> deser_extra l' = Ok l'.
Proof.
  revert l'; induction l as [|[k v] l IH]; intros l' H; cbn [deser_extra] in H; [injection H as <-; reflexivity|]. apply bind_ok in H. destruct H as (v1 & H1 & H). apply bind_ok in H. destruct H as (r & H2 & H). injection H as <-.
  cbn [deser_extra]. rewrite (deser_pv_idem _ _ H1). cbn [rbind]. rewrite (IH r H2). reflexivity.
Qed.
Lemma deser_step_idem s s' : deser_step s = Ok s' -> deser_step s' = Ok s'.
Proof.
  unfold deser_step. intros H. repeat (apply bind_ok in H; let x := fresh "x" in let Hx := fresh "Hx" in destruct H as (x & Hx & H)). injection H as <-. cbn [s_class s_gen s_threshold s_chunk s_parallel s_display s_needs s_sync s_extra].
  rewrite (deser_opt_idem _ _ _ deser_gen_idem Hx), (deser_pv_idem _ _ Hx0), (deser_pv_idem _ _ Hx1), (deser_pv_idem _ _ Hx2), (deser_pv_idem _ _ Hx3), (deser_pv_idem _ _ Hx4), (deser_pv_idem _ _ Hx5), (deser_extra_idem _ _ Hx6). reflexivity.
Qed.
Lemma deser_logic c steps e d : deser_item (ILogic c steps e d) = rbind (deser_pv d) (fun d => rbind (all_res deser_item steps) (fun steps => Ok (ILogic c steps e d))).
Proof. reflexivity. Qed.
Fixpoint item_rect' (P : item -> Prop) (Hs : forall s, P (IStep s)) (Hl : forall c steps e d, (forall x, In x steps -> P x) -> P (ILogic c steps e d)) (i : item) : P i.
Proof.
  destruct i as [s|c steps e d]; [apply Hs|]. apply Hl. induction steps as [|y steps IH]; intros x I; [destruct I|]. destruct I as [<-|I]; [apply item_rect'; assumption|apply IH; exact I].
Defined.
Lemma deser_item_idem : forall i i', deser_item i = Ok i' -> deser_item i' = Ok i'.
Proof.
  induction i as [s|c steps e d IH] using item_rect'; intros i' H.
  - cbn [deser_item] in H. apply bind_ok in H. destruct H as (s' & H1 & H). injection H as <-. cbn [deser_item]. rewrite (deser_step_idem s s' H1). reflexivity.
  - rewrite deser_logic in H. apply bind_ok in H. destruct H as (d' & H1 & H). apply bind_ok in H. destruct H as (st & H2 & H). injection H as <-. rewrite deser_logic, (deser_pv_idem _ _ H1). cbn [rbind].
    assert (E : all_res deser_item st = Ok st); [|rewrite E; reflexivity]. revert st H2. induction steps as [|x steps IHs]; intros st H; cbn [all_res] in H; [injection H as <-; reflexivity|].
    apply bind_ok in H. destruct H as (y & Hy & H). apply bind_ok in H. destruct H as (ys & Hys & H). injection H as <-. cbn [all_res]. rewrite (IH x (or_introl eq_refl) y Hy). cbn [rbind].
    rewrite (IHs (fun z I => IH z (or_intror I)) ys Hys). reflexivity.
Qed.

(* ---- entries of a pipeline ---- *)
Lemma load_items_all js : load_items lookup js = all_res (load_item lookup) js.
Proof. reflexivity. Qed.
Lemma all_again steps : (forall x, In x steps -> load_item lookup (dump_item x) = if item_enum x then Err TypeError else Ok (reloaded lookup x)) ->
  all_res (load_item lookup) (map dump_item steps) = if existsb item_enum steps then Err TypeError else Ok (map (reloaded lookup) steps).
Proof.
  induction steps as [|x steps IH]; intros H; [reflexivity|]. cbn [map all_res existsb]. rewrite (H x) by (left; reflexivity). destruct (item_enum x); [reflexivity|]. cbn [rbind orb].
  rewrite IH by (intros; apply H; right; assumption). destruct (existsb item_enum steps); reflexivity.
Qed.
Lemma dump_item_dict i : exists p q, dump_item i = JDict (p :: q).
Proof. destruct i; eexists; eexists; reflexivity. Qed.
Theorem item_again : forall i, built_item lookup i -> load_item lookup (dump_item i) = if item_enum i then Err TypeError else Ok (reloaded lookup i).
Proof.
  induction i as [s|c steps e d IH] using item_rect'; intros B; [apply step_again; exact B|].
  inversion B as [cls a s Bg P1 P2 P3 P4 P5 PK E Es|cls st exit display i Bst Bex Pd E Es]; subst. unfold init_logic in E. destruct (lookup cls) as [[]|] eqn:L; try discriminate. injection E as <- <- <- <-.
  assert (AG := all_again st (fun x I => IH x I (Bst x I))).
  pose (l := [("pipeline_steps", JList (map dump_item st)); ("exit_condition", match exit with Some c => JDict [("name", JStr c)] | None => JNull end); ("display_name", to_json (if_truthy display PNone)); ("name", JStr cls)] : list (string * jv)).
  change (dump_item (ILogic cls st exit (if_truthy display PNone))) with (JDict l : jv).
  assert (FD : load_item lookup (JDict l) = rbind (rbind (load_exit lookup (match exit with Some c => JDict [("name", JStr c)] | None => JNull end)) (fun ex =>
     rbind (match map dump_item st with [] | JDict _ :: _ => all_res (load_item lookup) (map dump_item st) | _ => Err AttributeError end) (fun steps => init_logic lookup cls steps ex (raw (if_truthy display PNone))))) deser_item).
  { cbn [load_item]. assert (CN : class_name l = Ok cls) by reflexivity. rewrite CN. cbn [rbind]. rewrite L. reflexivity. }
  rewrite FD. clear FD.
  assert (LE : load_exit lookup (match exit with Some c => JDict [("name", JStr c)] | None => JNull end) = Ok exit).
  { destruct exit as [c|]; [|reflexivity]. unfold load_exit. change (class_name [("name", JStr c : jv)]) with (Ok c). cbn [rbind]. rewrite (Bex c eq_refl). reflexivity. }
  rewrite LE. cbn [rbind].
  assert (LS : match map dump_item st with [] | JDict _ :: _ => all_res (load_item lookup) (map dump_item st) | _ => Err AttributeError end = all_res (load_item lookup) (map dump_item st)).
  { destruct st as [|x st]; [reflexivity|]. cbn [map]. destruct (dump_item_dict x) as (p & q & Q). rewrite Q. reflexivity. }
  rewrite LS, AG. cbn [item_enum reloaded]. destruct (existsb item_enum st) eqn:EN; [reflexivity|]. cbn [rbind]. unfold init_logic. rewrite L. cbn [rbind]. rewrite deser_logic.
  rewrite again_truthy by (try exact Pd; exact Logic.I). cbn [rbind].
  assert (DA : all_res deser_item (map (reloaded lookup) st) = Ok (map (reloaded lookup) st)); [|rewrite DA; reflexivity].
  assert (DI : forall x, In x st -> deser_item (reloaded lookup x) = Ok (reloaded lookup x)).
  { intros x I. assert (Ex : item_enum x = false).
    { destruct (item_enum x) eqn:Q; [|reflexivity]. assert (existsb item_enum st = true) by (apply existsb_exists; exists x; auto). congruence. }
    assert (A := IH x I (Bst x I)). rewrite Ex in A. destruct (dump_item_dict x) as (p & q & Q). rewrite Q in A. cbn [load_item] in A. apply bind_ok in A. destruct A as (y & _ & A). eapply deser_item_idem. exact A. }
  clear -DI. induction st as [|x st IHs]; [reflexivity|]. cbn [map all_res]. rewrite (DI x) by (left; reflexivity). cbn [rbind]. rewrite IHs by (intros; apply DI; right; assumption). reflexivity.
Qed.
Theorem items_again steps : (forall x, In x steps -> built_item lookup x) -> load_items lookup (map dump_item steps) = if existsb item_enum steps then Err TypeError else Ok (map (reloaded lookup) steps).
Proof. intros H. rewrite load_items_all. apply all_again. intros x I. apply item_again, H, I. Qed.

(* ---- what comes back unchanged ---- *)
Lemma portable_gen_same : forall g, portable_gen lookup g -> reloaded_gen lookup g = g.
Proof.
  induction g as [cls cs ch ev sh cz inner IH] using gen_rect'. intros P. inversion P as [c1 c2 c3 c4 c5 i1 H]; subst. cbn [reloaded_gen]. destruct H as [->|(S & g & -> & Pg)]; [reflexivity|]. rewrite S, (IH g eq_refl Pg). reflexivity.
Qed.
Lemma same_portable_gen : forall g, built_gen lookup g -> reloaded_gen lookup g = g -> portable_gen lookup g.
Proof.
  induction g as [cls cs ch ev sh cz inner IH] using gen_rect'. intros B E. cbn [reloaded_gen] in E. injection E as <- E. constructor.
  inversion B as [cls1 cs1 ch1 ev1 sh1 cz1 inner1 g _ _ _ _ _ Bin EI Eg]; subst. assert (inner1 = inner).
  { unfold init_gen in EI. destruct (lookup cls1) as [[| k ? ? ?| | |]|]; try discriminate. destruct k, cz1; try discriminate; try (injection EI; auto); destruct inner1; try discriminate; injection EI; auto. }
  subst inner1. destruct Bin as [->|(g' & -> & Bg)]; [left; reflexivity|]. right. destruct (samples lookup cls); [|discriminate]. split; [reflexivity|]. exists g'. split; [reflexivity|]. injection E as E. apply IH; auto.
Qed.
Lemma portable_same : forall i, portable lookup i -> reloaded lookup i = i /\ item_enum i = false.
Proof.
  induction i as [s|c steps e d IH] using item_rect'; intros P; inversion P as [s' Hg Hn|c' st' e' d' H]; subst.
  - cbn [reloaded item_enum]. split; [|exact Hn]. destruct s as [cl g t ck p dn n y ex]. unfold reloaded_step. cbn in *. destruct g as [g|]; [|reflexivity]. cbn. rewrite (portable_gen_same g (Hg g eq_refl)). reflexivity.
  - cbn [reloaded item_enum]. assert (A : map (reloaded lookup) steps = steps /\ existsb item_enum steps = false).
    { clear P. induction steps as [|x steps IHs]; [auto|]. destruct (IH x (or_introl eq_refl) (H x (or_introl eq_refl))) as [E1 E2]. destruct IHs as [E3 E4]; [intros; apply IH; [right; assumption|assumption]|intros; apply H; right; assumption|].
      cbn [map existsb]. rewrite E1, E2, E3, E4. auto. }
    destruct A as [-> ->]. auto.
Qed.
Lemma built_step_gen s : built_item lookup (IStep s) -> forall g, s_gen s = Some g -> built_gen lookup g.
Proof.
  intros B g. inversion B as [cls a s' Bg P1 P2 P3 P4 P5 PK E Es|cls steps exit display i H1 H2 H3 E Es]; subst; [|unfold init_logic in E; destruct (lookup cls) as [[]|]; discriminate].
  unfold init_step in E. destruct (lookup cls) as [[| | d settable| |]|] eqn:L; try discriminate. injection E as <-. cbn [s_gen]. destruct (a_gen a) as [g0|]; [intros H; injection H as <-; apply Bg; reflexivity|]. apply (proj1 (GC cls _ L)).
Qed.
Lemma same_portable : forall i, built_item lookup i -> reloaded lookup i = i -> item_enum i = false -> portable lookup i.
Proof.
  induction i as [s|c steps e d IH] using item_rect'; intros B E N.
  - constructor; [|exact N]. intros g G. apply same_portable_gen; [apply (built_step_gen s B g G)|]. cbn in E. injection E as E. destruct s as [cl g' t ck p dn n y ex]. cbn in *. subst g'. injection E as E. exact E.
  - constructor. intros x I. assert (Bx : built_item lookup x).
    { inversion B as [|cls st exit display i Bst Bex Pd Ei Es]; subst. unfold init_logic in Ei. destruct (lookup cls) as [[]|]; try discriminate. injection Ei as <- <- _ _. apply Bst, I. }
    cbn in E, N. injection E as E. apply IH; [exact I|exact Bx| |].
    + clear -E I. revert E I. induction steps as [|y st IHs]; intros E I; [destruct I|]. cbn in E. injection E as E1 E2. destruct I as [<-|I]; auto.
    + destruct (item_enum x) eqn:Q; [|reflexivity]. assert (existsb item_enum steps = true) by (apply existsb_exists; exists x; auto). congruence.
Qed.
Theorem roundtrip_exact steps : (forall x, In x steps -> built_item lookup x) -> (load_items lookup (map dump_item steps) = Ok steps <-> forall x, In x steps -> portable lookup x).
Proof.
  intros B. rewrite items_again by exact B. split.
  - destruct (existsb item_enum steps) eqn:EN; [discriminate|]. intros E x I. injection E as E. apply same_portable; [apply B, I| |].
    + clear -E I. revert E I. induction steps as [|y st IHs]; intros E I; [destruct I|]. cbn in E. injection E as E1 E2. destruct I as [<-|I]; auto.
    + destruct (item_enum x) eqn:Q; [|reflexivity]. assert (existsb item_enum steps = true) by (apply existsb_exists; exists x; auto). congruence.
  - intros H. assert (A : map (reloaded lookup) steps = steps /\ existsb item_enum steps = false).
    { clear B. induction steps as [|x st IHs]; [auto|]. destruct (portable_same x (H x (or_introl eq_refl))) as [E1 E2]. destruct IHs as [E3 E4]; [intros; apply H; right; assumption|]. cbn [map existsb]. rewrite E1, E2, E3, E4. auto. }
    destruct A as [-> ->]. reflexivity.
Qed.

(* ---- algorithms ---- *)
Section Spec.
Variable coerce : vtype -> scalar -> res scalar.
Lemma scalars_again l : scalars (map scalar_json l) = Some l.
Proof. induction l as [|x l IH]; [reflexivity|]. cbn [map scalars]. rewrite IH. destruct x; reflexivity. Qed.
Lemma var_again v : valid_variable coerce v -> load_var coerce (dump_var v) = Ok v.
Proof.
  intros [C A]. destruct v as [n t v ch]. unfold load_var, dump_var. cbn [v_name v_value v_choices v_type] in *.
  pose (c := match ch with Some l => JList (map scalar_json l) | None => JNull end : jv). fold c.
  pose (l := [("name", JStr n); ("value", scalar_json v); ("choices", c); ("type", JStr (type_name t))] : list (string * jv)). fold l.
  change (dget l "type") with (Some (JStr (type_name t) : jv)). change (dget l "name") with (Some (JStr n : jv)). change (dget l "value") with (Some (scalar_json v)). change (dget l "choices") with (Some c). cbv iota.
  assert (T : type_named (type_name t) = Some t) by (destruct t; reflexivity). rewrite T.
  assert (V : json_scalar (scalar_json v) = Some v) by (destruct v; reflexivity). rewrite V.
  assert (K : deserialize_variable coerce (Some (type_name t)) n v ch = Ok (mkVar n t v ch)).
  { unfold deserialize_variable. rewrite T. unfold make_variable. rewrite C. cbn [rbind]. apply validate_ok in A. rewrite A. reflexivity. }
  unfold c. destruct ch as [cs|]; [|exact K]. rewrite scalars_again. exact K.
Qed.
Lemma vars_again vs : (forall v, In v vs -> valid_variable coerce v) -> load_vars coerce (map dump_var vs) = Ok vs.
Proof.
  unfold load_vars. induction vs as [|v vs IH]; intros H; [reflexivity|]. cbn [map all_res]. rewrite var_again by (apply H; left; reflexivity). cbn [rbind]. rewrite IH by (intros; apply H; right; assumption). reflexivity.
Qed.
Theorem spec_again a : (forall x, In x (sp_steps a) -> built_item lookup x) -> (forall v, In v (sp_vars a) -> valid_variable coerce v) ->
  load_spec lookup coerce (dump_spec a) = if existsb item_enum (sp_steps a) then Err TypeError
    else Ok (mkSpec (sp_name a) (map (reloaded lookup) (sp_steps a)) (map (fun e => ERaw (dump_type e)) (sp_types a)) (sp_vars a)).
Proof.
  intros B V. destruct a as [n st ty vs]. cbn [sp_name sp_steps sp_types sp_vars] in *. unfold load_spec, dump_spec. cbn [sp_name sp_steps sp_types sp_vars].
  pose (l := [("name", JStr n); ("pipeline_steps", JList (map dump_item st)); ("edge_types", JList (map dump_type ty)); ("variables", JList (map dump_var vs))] : list (string * jv)). fold l.
  change (dget l "pipeline_steps") with (Some (JList (map dump_item st) : jv)). change (dget l "variables") with (Some (JList (map dump_var vs) : jv)).
  change (dget l "name") with (Some (JStr n : jv)). change (dget l "edge_types") with (Some (JList (map dump_type ty) : jv)). cbv iota.
  rewrite items_again by exact B. destruct (existsb item_enum st); [reflexivity|]. cbn [rbind]. rewrite vars_again by exact V. cbn [rbind]. rewrite map_map. reflexivity.
Qed.
End Spec.
Lemma factory_raw js e : factory_types (mkSpec e [] (map ERaw js) []) = match js with [] => Ok [] | _ => Err AttributeError end.
Proof.
  unfold factory_types. cbn [sp_types]. destruct js as [|j js]; [reflexivity|]. cbn [map fold_left rbind]. induction js as [|k js IH]; [reflexivity|exact IH].
Qed.
End Facts.
