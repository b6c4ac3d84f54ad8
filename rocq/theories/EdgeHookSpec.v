(* Specification vocabulary for the hooks of edge types.  No function of the code is modelled here. *)
From Verif Require Import Base PyDict Graph Actions GraphSpec ActionSpec EdgeHooks.

(* Hooks that look at the graph but leave it alone; they may do anything else, and raise. *)
Definition looks_only {W} (EH : edge_hooks W) : Prop := forall t k i w g, snd (fst (EH t k i w g)) = g.

(* Hooks that change the graph only by calls a caller of the library could make. *)
Definition by_calls {W} (EH : edge_hooks W) : Prop :=
  forall t k i w g, reached g -> reached (snd (fst (EH t k i w g))).

(* A call of a hook: the edge type it belongs to, its name, the action it is told. *)
Definition call := (etype * ehook * tresult)%type.
(* Edge types whose hooks note that they are called, and then raise if [bad] says so. *)
Definition noting (bad : call -> option exn) : edge_hooks (list call) :=
  fun t k i w g => (w ++ [(t, k, i)], g, match bad (t, k, i) with Some e => Err e | None => Ok tt end).

(* The documented hooks of an action: before and after removing, updating, changing the type. *)
Definition hooks_of (a : taction) : option (ehook * ehook) :=
  match a with
  | REMOVE_EDGE_UNDIRECTED | REMOVE_EDGE_DIRECTED => Some (PreRemove, PostRemove)
  | UPDATE_EDGE | UPDATE_EDGE_DIRECTED => Some (PreUpdate, PostUpdate)
  | UPDATE_EDGE_TYPE | UPDATE_EDGE_TYPE_DIRECTED => Some (PreTypeChange, PostTypeChange)
  | RESTORE_EDGE | RESTORE_EDGE_DIRECTED | DO_NOTHING => None
  end.
(* one call, if there is an entry u -> v (live or marked as deleted) *)
Definition one_call (g : graph) (k : ehook) (i : tresult) : list call :=
  match entry g (t_u i) (t_v i) with Some e => [(e_type e, k, i)] | None => [] end.
(* The calls one action causes: g before, g' after, r its outcome without any hooks. *)
Definition calls_of (i : tresult) (g g' : graph) (r : res bool) : list call :=
  match hooks_of (t_act i) with
  | None => []
  | Some (before, after) =>
      match r with
      | Ok false => []
      | Ok true => one_call g before i ++ one_call g' after i
      | Err _ => one_call g before i
      end
  end.
(* The calls a list of actions causes, action by action, up to the first one that raises. *)
Inductive calls_along : graph -> list tresult -> list call -> Prop :=
| ca_nil : forall g, calls_along g [] []
| ca_ok : forall g i g' b l cs, apply_action i g = (g', Ok b) -> calls_along g' l cs ->
    calls_along g (i :: l) (calls_of i g g' (Ok b) ++ cs)
| ca_err : forall g i g' e l, apply_action i g = (g', Err e) ->
    calls_along g (i :: l) (calls_of i g g' (Err e)).
