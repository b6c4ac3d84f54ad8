(* causy/sample_generator.py: the initial values of a time series.  Tensors are functions from indices
   (their shapes are tracked beside them) over any type of exact numbers; the code mixes float32 and
   float64 tensors. *)
From Verif Require Import Base PyDict SampleGen.
Open Scope list_scope.

Section Initial.
Context {T : Type}.
Variables zero one : T.
Variables add mul sub : T -> T -> T.
Definition matrix := nat -> nat -> T.

(* the sum of f 0, ..., f (n-1): what torch.matmul and a contraction compute for one entry *)
Fixpoint sumn (n : nat) (f : nat -> T) : T := match n with 0 => zero | S m => add (sumn m f) (f m) end.

(* sample_generator.py:261-263; max of an empty list raises *)
Definition longest_lag (es : list (sedge T)) : res nat :=
  match es with [] => Err ValueError | _ => Ok (fold_left Nat.max (map (fun e => Z.abs_nat (se_time e)) es) 0) end.

(* sample_generator.py:445-453: values_map[k] *)
Fixpoint position (vs : list string) (k : string) : option nat :=
  match vs with [] => None | v :: r => if eqb v k then Some 0 else option_map S (position r k) end.
(* the position that a Python index i of a list of length n denotes *)
Definition list_index (n : nat) (i : Z) : option nat :=
  let j := if Z.ltb i 0 then (i + Z.of_nat n)%Z else i in
  if Z.ltb j 0 then None else if Nat.ltb (Z.to_nat j) n then Some (Z.to_nat j) else None.

(* sample_generator.py:383-386: the assignment for one edge; [p]: the longest lag *)
Definition set_coefficient (vs : list string) (p : nat) (m : nat -> matrix) (e : sedge T) : res (nat -> matrix) :=
  match list_index p (se_time e * -1 - 1)%Z with
  | None => Err IndexError
  | Some i => match position vs (se_to e), position vs (se_from e) with
              | Some a, Some b => Ok (fun i' a' b' => if Nat.eqb i' i && Nat.eqb a' a && Nat.eqb b' b then se_value e else m i' a' b')
              | _, _ => Err KeyError
              end
  end.
(* sample_generator.py:375-386 *)
Definition coefficients (es : list (sedge T)) (vs : list string) (p : nat) : res (nat -> matrix) :=
  rfold (set_coefficient vs p) es (fun _ _ _ => zero).

(* m[r0 : r0 + n, c0 : c0 + n] = b *)
Definition set_block (n r0 c0 : nat) (b m : matrix) : matrix := fun r c =>
  if Nat.leb r0 r && Nat.ltb r (r0 + n) && Nat.leb c0 c && Nat.ltb c (c0 + n) then b (r - r0) (c - c0) else m r c.
(* torch.eye *)
Definition eye : matrix := fun r c => if Nat.eqb r c then one else zero.
(* sample_generator.py:341-367, for p matrices with n rows; len(matrices[0]) raises for p = 0 *)
Definition block_diagonal (n p : nat) (ms : nat -> matrix) : res matrix :=
  match p with
  | 0 => Err IndexError
  | S q => let top := fold_left (fun m i => set_block n 0 (i * n) (ms i) m) (seq 0 p) (fun _ _ => zero) in
           Ok (fst (fold_left (fun (s : matrix * (nat * nat)) (_ : nat) =>
                      match s with (m, (r, c)) => (set_block n r c eye m, (r + n, c + n)) end) (seq 1 q) (top, (n, 0))))
  end.
(* sample_generator.py:369-389; the side length is returned with the matrix *)
Definition coefficient_matrix (es : list (sedge T)) (vs : list string) (p : nat) : res (nat * matrix) :=
  rbind (coefficients es vs p) (fun ms => rbind (block_diagonal (List.length vs) p ms) (fun m => Ok (p * List.length vs, m))).

(* sample_generator.py:391-405; view(-1) lists the entries row by row *)
Definition identity_block (n p : nat) : nat -> T :=
  let m := set_block (n / p) 0 0 eye (fun _ _ => zero) in fun i => m (i / n) (i mod n).
(* torch.kron of two n x n matrices *)
Definition kron (n : nat) (a b : matrix) : matrix := fun r c => mul (a (r / n) (c / n)) (b (r mod n) (c mod n)).

(* sample_generator.py:425-441: the numbers whose roots are the scales of the initial values.
   [pinv k m]: torch.linalg.pinv of the k x k matrix m. *)
Variable pinv : nat -> matrix -> matrix.
Definition variances (es : list (sedge T)) (vs : list string) (p : nat) : res (dict string T) :=
  rbind (coefficient_matrix es vs p) (fun nm =>
  let (n, a) := nm in
  let k := n * n in
  let inv := pinv k (fun r c => sub (eye r c) (kron n a a r c)) in
  let vec := fun i => sumn k (fun j => mul (inv i j) (identity_block n p j)) in
  let cov := fun r c => vec (r * n + c) in
  rfold (fun d v => match position vs v with
                    | Some i => if Nat.ltb i n then Ok (dset d v (cov i i)) else Err IndexError
                    | None => Err KeyError
                    end) vs []).
(* sample_generator.py:254-263 (the lag) and 407-443; [normal i s]: the i-th draw of torch.normal(0, s), [root]: torch.sqrt *)
Definition initial_values (root : T -> T) (normal : nat -> T -> T) (es : list (sedge T)) (vs : list string) : res (dict string T) :=
  rbind (longest_lag es) (fun p => rbind (variances es vs p) (fun d =>
  Ok (map (fun iv => (fst (snd iv), normal (fst iv) (root (snd (snd iv))))) (combine (seq 0 (List.length d)) d)))).
End Initial.
