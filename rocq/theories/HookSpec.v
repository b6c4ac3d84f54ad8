(* Specification vocabulary for graph update hooks (C94). *)
From Verif Require Import Base PyDict Graph Actions ActionSpec Pipeline PipeSpec.

(* the action takes the direction x -> y away *)
Definition removes (x y : id) (i : tresult) : Prop :=
  (t_act i = REMOVE_EDGE_DIRECTED /\ t_u i = x /\ t_v i = y) \/
  (t_act i = REMOVE_EDGE_UNDIRECTED /\ ((t_u i = x /\ t_v i = y) \/ (t_u i = y /\ t_v i = x))).

(* one of the pre-update hooks returns only actions with the property Q, the hooks after it keep it *)
Definition guarded_by (Q : tresult -> Prop) (H : hooks) : Prop :=
  exists hs1 h hs2, pre_hooks H = hs1 ++ h :: hs2 /\
    (forall g l l', h g l = Ok l' -> Forall Q l') /\
    (forall h', In h' hs2 -> forall g l l', Forall Q l -> h' g l = Ok l' -> Forall Q l').

(* every action in a log entry has the property Q *)
Inductive passed (Q : tresult -> Prop) : hstep -> Prop :=
| passed_entry : forall n a p l, Forall Q a -> Forall Q p -> Forall (passed Q) l -> passed Q (HStep n a p l).

(* every action is in the edge history of its pair: it has been carried out *)
Definition carried_out (g : graph) (l : list tresult) : Prop :=
  forall i, In i l -> In i (history g (t_u i, t_v i)).

(* a pipeline without ApplyActionsTogether; without parallel steps *)
Definition not_together (p : pstep) : Prop := match p with PTogether _ _ => False | _ => True end.
Definition sequential (p : pstep) : Prop := forall s, In s (steps_of p) -> s_parallel s = false.
