(* Specification vocabulary for saved results. *)
From Coq Require Import Ascii.
From Verif Require Import Base JsonText JsonTextSpec ResultText.
Open Scope string_scope.
Open Scope list_scope.

Section Spec.
Context {F : Type}.
Variables (float_text : F -> ustr) (read_float : ustr -> F).
(* ---- what a result becomes when it is written ---- *)
(* the same keys, the values as they are written *)
Definition entries_written (l : list (ustr * pval F)) (m : list (ustr * jval F)) : Prop := Forall2 (fun p q => fst p = fst q /\ written (snd p) (snd q)) l m.
Definition data_written (l : option (list (ustr * pval F))) (m : option (list (ustr * jval F))) : Prop :=
  match l, m with Some a, Some b => entries_written a b | None, None => True | _, _ => False end.
Definition edge_written (e : redge (pval F)) (e' : redge (jval F)) : Prop := re_u e = re_u e' /\ re_v e = re_v e' /\ re_type e = re_type e' /\ data_written (re_meta e) (re_meta e').
Definition trial_written (t : rtrial (pval F)) (t' : rtrial (jval F)) : Prop := rt_u t = rt_u t' /\ rt_v t = rt_v t' /\ rt_action t = rt_action t' /\ data_written (rt_data t) (rt_data t').
Inductive step_written : rstep F (pval F) -> rstep F (jval F) -> Prop :=
| sw_step : forall n d a a' p p' s s', Forall2 trial_written a a' -> Forall2 trial_written p p' -> Forall2 step_written s s' -> step_written (RStep n d a p s) (RStep n d a' p' s').
(* the same result, apart from what untyped dictionaries hold *)
Definition result_written (r : rresult F (pval F)) (r' : rresult F (jval F)) : Prop :=
  rr_reference r = rr_reference r' /\ rr_reftype r = rr_reftype r' /\ rr_created r = rr_created r' /\ rr_nodes r = rr_nodes r' /\
  Forall2 edge_written (rr_edges r) (rr_edges r') /\ Forall2 step_written (rr_history r) (rr_history r') /\ data_written (rr_variables r) (rr_variables r') /\
  rr_data_hash r = rr_data_hash r' /\ rr_alg_hash r = rr_alg_hash r' /\ rr_vars_hash r = rr_vars_hash r'.

(* ---- results whose texts are read back ---- *)
Definition sound_node (n : rnode) : Prop := sound_string (rn_name n) /\ sound_string (rn_id n).
Definition sound_data (o : option (list (ustr * jval F))) : Prop := match o with Some l => NoDup (map fst l) /\ Forall (fun p => sound_string (fst p) /\ sound float_text read_float (snd p)) l | None => True end.
Definition sound_edge (e : redge (jval F)) : Prop := sound_node (re_u e) /\ sound_node (re_v e) /\ sound_string (ry_name (re_type e)) /\ sound_string (ry_repr (re_type e)) /\ sound_data (re_meta e).
Definition sound_trial (t : rtrial (jval F)) : Prop := sound_node (rt_u t) /\ sound_node (rt_v t) /\ sound_data (rt_data t).
Inductive sound_step : rstep F (jval F) -> Prop :=
| so_step : forall n d a p s, sound_string n -> (forall f, d = Some f -> float_ok float_text read_float f) -> Forall sound_trial a -> Forall sound_trial p -> Forall sound_step s -> sound_step (RStep n d a p s).
Definition sound_opt (o : option ustr) : Prop := forall s, o = Some s -> sound_string s.
Definition sound_result (r : rresult F (jval F)) : Prop :=
  sound_string (rr_reference r) /\ sound_string (rr_created r) /\ NoDup (map fst (rr_nodes r)) /\ Forall (fun p => sound_string (fst p) /\ sound_node (snd p)) (rr_nodes r) /\
  Forall sound_edge (rr_edges r) /\ Forall sound_step (rr_history r) /\ sound_data (rr_variables r) /\ sound_opt (rr_data_hash r) /\ sound_opt (rr_alg_hash r) /\ sound_opt (rr_vars_hash r).

(* ---- edges that can be loaded ---- *)
(* the edge has one of the three types causy ships *)
Definition shipped_type (e : redge (jval F)) : Prop := In (ry_name (re_type e)) [lit "DIRECTED"; lit "UNDIRECTED"; lit "BIDIRECTED"].
(* a string, a number or a boolean *)
Inductive basic : jval F -> Prop :=
| ba_str : forall s, basic (JStr s) | ba_int : forall z, basic (JInt z) | ba_float : forall f, basic (JFloat f) | ba_bool : forall b, basic (JBool b).
(* what metadata may hold: basic values, lists and dictionaries of them *)
Inductive meta_like : jval F -> Prop :=
| ml_basic : forall j, basic j -> meta_like j
| ml_list : forall l, Forall basic l -> meta_like (JList l)
| ml_dict : forall l, Forall (fun p => basic (snd p)) l -> meta_like (JDict l).
Definition has_metadata (e : redge (jval F)) : Prop := exists l, re_meta e = Some l /\ Forall (fun p => meta_like (snd p)) l.
End Spec.
