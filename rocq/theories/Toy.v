(* Concrete numerics for the examples: every node carries its own number, and the answers of the tests
   are read off a table of conditional independences.  Used in Example statements only. *)
From Verif Require Import Base PyDict Graph Actions Rules IndepTests Pipeline Construct.
Open Scope string_scope.
Open Scope list_scope.

Definition toy (ci : Z -> Z -> list Z -> bool) : numerics :=
  mkNum
    (fun a b => match a, b with [x], [y] => Ok (Z.min x y * 100 + Z.max x y)%Z | _, _ => Err ValueError end)
    (fun _ c => Ok (ci (c / 100) (c mod 100) [])%Z)
    (fun _ _ a b _ => let x := (a / 100)%Z in let y := (a mod 100)%Z in
       let z := if orb (Z.eqb (b / 100) x) (Z.eqb (b / 100) y) then (b mod 100)%Z else (b / 100)%Z in
       Ok (Some (ci x y [z])))
    (fun l => match List.concat l with x :: y :: zs => Ok (Some (ci (Z.min x y) (Z.max x y) zs)) | _ => Ok None end)
    (fun _ _ _ => Ok false)
    (fun _ _ _ => Ok 0%Z).

(* n variables "a", "b", .. with one observation each *)
Definition toy_table (ns : list string) : dict string (list cell) :=
  map (fun p => (fst p, [Some (Z.of_nat (snd p))])) (combine ns (seq 1 (List.length ns))).
Definition toy_start (ns : list string) : graph :=
  match start_graph (DDict (toy_table ns)) with Ok g => g | Err _ => empty_graph end.

(* independences given as a list, read up to the order of the conditioning set *)
Definition table_ci (t : list (Z * Z * list Z)) (x y : Z) (s : list Z) : bool :=
  existsb (fun e => match e with (a, b, l) =>
             Z.eqb a x && Z.eqb b y && forallb (fun z => existsb (Z.eqb z) s) l && forallb (fun z => existsb (Z.eqb z) l) s end) t.
