(* Specification vocabulary for the sample generators. *)
From Verif Require Import Base PyDict Graph SampleGen Dag.
Open Scope list_scope.

(* the edge list names x as a source of y *)
Definition cause {T} (es : list (sedge T)) (x y : string) : Prop := exists e, In e es /\ se_from e = x /\ se_to e = y.
(* x is mentioned in the edge list *)
Definition mentioned {T} (es : list (sedge T)) (x : string) : Prop := exists y, cause es x y \/ cause es y x.
(* x stands before y *)
Definition before (l : list string) (x y : string) : Prop := exists p q r, l = p ++ x :: q ++ y :: r.
(* entry i of column k *)
Definition cell_at {T} (d : dict string (list T)) (k : string) (i : nat) : option T :=
  match dget d k with Some c => nth_error c i | None => None end.
(* the edges into k, in the order given by the user *)
Definition incoming {T} (es : list (sedge T)) (k : string) : list (sedge T) :=
  filter (fun e => if string_dec (se_to e) k then true else false) es.
(* start + c1 * x1 + c2 * x2 + ..., summed from left to right *)
Definition linear {T} (add mul : T -> T -> T) (start : T) (terms : list (T * T)) : T :=
  fold_left (fun s p => add s (mul (fst p) (snd p))) terms start.
(* entry i of column k is [start] plus the weighted entries i of its sources *)
Definition structural {T} (add mul : T -> T -> T) (es : list (sedge T)) (d : dict string (list T)) (i : nat) (k : string) (start : T) : Prop :=
  exists xs, Forall2 (fun e x => cell_at d (se_from e) i = Some x) (incoming es k) xs /\
             cell_at d k i = Some (linear add mul start (combine (map se_value (incoming es k)) xs)).
(* in a time series: the value that an edge contributes at time t *)
Definition lagged {T} (init : string -> T) (d : dict string (list T)) (t : nat) (e : sedge T) (x : T) : Prop :=
  let lag := Z.abs_nat (se_time e) in
  if Nat.ltb t lag then x = init (se_from e) else cell_at d (se_from e) (t - lag) = Some x.
Definition autoregressive {T} (add mul : T -> T -> T) (zero : T) (init : string -> T) (es : list (sedge T)) (d : dict string (list T))
           (t : nat) (k : string) (z : T) : Prop :=
  exists xs, Forall2 (lagged init d t) (incoming es k) xs /\
             cell_at d k t = Some (add (linear add mul zero (combine (map se_value (incoming es k)) xs)) z).
