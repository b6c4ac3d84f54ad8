(* Shared vocabulary of the model: Python exceptions as values, list helpers. *)
From Coq Require Export List String Bool Arith ZArith Lia Permutation.
Export ListNotations.
Open Scope list_scope.

(* Exceptions the modelled code can raise.  [GraphError] is causy/graph.py:61-62, the others are
   Python built-ins.  [OutOfFuel] is not a Python exception: it marks a model run that was cut off
   before the Python loop or recursion it models had ended. *)
Inductive exn :=
| GraphError | ValueError | KeyError | TypeError | AttributeError | IndexError
| ZeroDivisionError | AssertionError | FileNotFound | ExitError
| OtherError (code : nat) | OutOfFuel.

(* Result of a Python call: a value or a raised exception. *)
Inductive res (A : Type) := Ok (a : A) | Err (e : exn).
Arguments Ok {A} a.
Arguments Err {A} e.

Definition is_ok {A} (r : res A) : bool := match r with Ok _ => true | Err _ => false end.

Definition rbind {A B} (r : res A) (f : A -> res B) : res B :=
  match r with Ok a => f a | Err e => Err e end.

(* Boolean equality with a specification. *)
Class EqB (K : Type) := { eqb : K -> K -> bool; eqb_spec : forall x y, reflect (x = y) (eqb x y) }.

Arguments eqb {K EqB} x y : simpl never.

#[global] Instance EqB_string : EqB string :=
  { eqb := String.eqb; eqb_spec := String.eqb_spec }.

Lemma pair_eqb_spec {A B} `{EqB A} `{EqB B} :
  forall x y : A * B, reflect (x = y) (eqb (fst x) (fst y) && eqb (snd x) (snd y)).
Proof.
  intros [a b] [c d]; simpl.
  destruct (eqb_spec a c) as [->|N]; destruct (eqb_spec b d) as [->|N']; simpl; constructor; congruence.
Qed.

#[global] Instance EqB_pair {A B} `{EqB A} `{EqB B} : EqB (A * B) :=
  { eqb := fun x y => eqb (fst x) (fst y) && eqb (snd x) (snd y); eqb_spec := pair_eqb_spec }.

Lemma eqb_refl {K} `{EqB K} (x : K) : eqb x x = true.
Proof. destruct (eqb_spec x x); congruence. Qed.

Lemma eqb_neq {K} `{EqB K} (x y : K) : x <> y -> eqb x y = false.
Proof. destruct (eqb_spec x y); congruence. Qed.

Lemma eqb_true {K} `{EqB K} (x y : K) : eqb x y = true <-> x = y.
Proof. destruct (eqb_spec x y); split; congruence. Qed.

Lemma eqb_false {K} `{EqB K} (x y : K) : eqb x y = false <-> x <> y.
Proof. destruct (eqb_spec x y); split; congruence. Qed.

Lemma eqb_sym {K} `{EqB K} (x y : K) : eqb x y = eqb y x.
Proof. destruct (eqb_spec x y), (eqb_spec y x); congruence. Qed.

(* Python "x in xs" for a list. *)
Definition mem {K} `{EqB K} (x : K) (xs : list K) : bool := existsb (eqb x) xs.

Lemma mem_In {K} `{EqB K} (x : K) (xs : list K) : mem x xs = true <-> In x xs.
Proof.
  unfold mem; rewrite existsb_exists; split.
  - intros [y [Hy He]]; apply eqb_true in He; subst; exact Hy.
  - intros Hx; exists x; split; [exact Hx | apply eqb_refl].
Qed.

Lemma mem_not_In {K} `{EqB K} (x : K) (xs : list K) : mem x xs = false <-> ~ In x xs.
Proof. rewrite <- mem_In; destruct (mem x xs); split; congruence. Qed.

(* itertools.combinations(l, k): all length-k subsequences, in lexicographic position order. *)
Fixpoint combos {A} (k : nat) (l : list A) {struct l} : list (list A) :=
  match k, l with
  | 0, _ => [[]]
  | S _, [] => []
  | S k', x :: r => map (cons x) (combos k' r) ++ combos (S k') r
  end.

(* Python loops whose body may raise. *)
(* for a in l: result.extend(f(a)) *)
Fixpoint rflat {A B} (f : A -> res (list B)) (l : list A) : res (list B) :=
  match l with
  | [] => Ok []
  | a :: r => rbind (f a) (fun x => rbind (rflat f r) (fun y => Ok (x ++ y)))
  end.
(* for a in l: if f(a): return True;  return False *)
Fixpoint rexists {A} (f : A -> res bool) (l : list A) : res bool :=
  match l with
  | [] => Ok false
  | a :: r => rbind (f a) (fun b => if b then Ok true else rexists f r)
  end.
(* for a in l: s = f(s, a) *)
Fixpoint rfold {A S} (f : S -> A -> res S) (l : list A) (s : S) : res S :=
  match l with
  | [] => Ok s
  | a :: r => rbind (f s a) (rfold f r)
  end.
