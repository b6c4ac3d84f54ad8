(* Specification vocabulary for the initial values of a time series. *)
From Verif Require Import Base PyDict SampleGen.
Open Scope list_scope.

Section Numbers.
Context {T : Type}.
Variables zero one : T.
Variables add mul sub : T -> T -> T.

(* how many steps an edge reaches back *)
Definition lag (e : sedge T) : Z := (- se_time e)%Z.
Definition into (es : list (sedge T)) (x : string) : list (sedge T) := filter (fun e => if string_dec (se_to e) x then true else false) es.
(* the sum of f over a list *)
Definition total {A} (l : list A) (f : A -> T) : T := fold_right (fun a s => add (f a) s) zero l.

(* [G x y h] is the covariance of x now and y h steps ago in a stationary process in which every variable is
   the weighted sum of its lagged sources plus noise of variance one, independent of everything before
   (the Yule-Walker equations) *)
Record stationary (es : list (sedge T)) (vs : list string) (G : string -> string -> Z -> T) : Prop := mkStat {
  st_sym : forall x y h, In x vs -> In y vs -> G x y h = G y x (- h)%Z;
  st_now : forall x y, In x vs -> In y vs ->
    G x y 0%Z = add (total (into es x) (fun e => total (into es y) (fun f => mul (mul (se_value e) (se_value f)) (G (se_from e) (se_from f) (lag f - lag e)%Z))))
                    (if string_dec x y then one else zero);
  st_past : forall x y h, In x vs -> In y vs -> (0 < h)%Z ->
    G x y h = total (into es x) (fun e => mul (se_value e) (G (se_from e) y (h - lag e)%Z)) }.

(* no variable has two edges from the same source with the same lag *)
Definition distinct_edges (es : list (sedge T)) : Prop := NoDup (map (fun e => (se_from e, se_to e, se_time e)) es).

(* the transition matrix of the process on the last p states, newest first: entry ((i, x), (j, y)) *)
Definition transition (es : list (sedge T)) (vs : list string) (r c : nat) : T :=
  let n := List.length vs in
  if Nat.ltb r n then
    total es (fun e => if (if string_dec (se_to e) (nth r vs EmptyString) then true else false) &&
                          (if string_dec (se_from e) (nth (c mod n) vs EmptyString) then true else false) &&
                          (if Z.eq_dec (lag e) (Z.of_nat (c / n) + 1) then true else false)
                       then se_value e else zero)
  else if Nat.eqb r (c + n) then one else zero.
(* identity minus the action W -> M W M^T of an n x n matrix M on n x n matrices W listed row by row *)
Definition minus_action (n : nat) (m : nat -> nat -> T) (i j : nat) : T :=
  sub (if Nat.eqb i j then one else zero) (mul (m (i / n) (j / n)) (m (i mod n) (j mod n))).
Fixpoint upto (n : nat) (f : nat -> T) : T := match n with 0 => zero | S m => add (upto m f) (f m) end.
Definition left_inverse (k : nat) (b m : nat -> nat -> T) : Prop :=
  forall i j, i < k -> j < k -> upto k (fun l => mul (b i l) (m l j)) = if Nat.eqb i j then one else zero.
(* [pinv] answers a left inverse when it is asked for m *)
Definition inverts (pinv : nat -> (nat -> nat -> T) -> nat -> nat -> T) (k : nat) (m : nat -> nat -> T) : Prop :=
  forall m', (forall i j, i < k -> j < k -> m' i j = m i j) -> left_inverse k (pinv k m') m.
(* p is the largest lag *)
Definition largest_lag (es : list (sedge T)) (p : nat) : Prop :=
  (forall e, In e es -> (lag e <= Z.of_nat p)%Z) /\ exists e, In e es /\ lag e = Z.of_nat p.

(* random variables: sums and multiples of them by constants, and their covariance *)
Record covariance {V : Type} (vzero : V) (vadd vmul : V -> V -> V) (const : T -> V) (cov : V -> V -> T) : Prop := mkCov {
  cov_sym : forall a b, cov a b = cov b a;
  cov_zero : forall a, cov vzero a = zero;
  cov_add : forall a b c, cov (vadd a b) c = add (cov a c) (cov b c);
  cov_scale : forall q a b, cov (vmul (const q) a) b = mul q (cov a b) }.
(* noise: the numbers rnd 0, rnd 1, ... have variance one and are uncorrelated with each other and with the initial values *)
Definition white {V : Type} (cov : V -> V -> T) (rnd : nat -> V) (init : string -> V) : Prop :=
  (forall i j, cov (rnd i) (rnd j) = if Nat.eqb i j then one else zero) /\ forall x i, cov (init x) (rnd i) = zero.
End Numbers.
(* the edge list with constants instead of numbers *)
Definition with_constants {T V} (const : T -> V) (es : list (sedge T)) : list (sedge V) :=
  map (fun e => mkSE (se_from e) (se_time e) (se_to e) (const (se_value e))) es.
