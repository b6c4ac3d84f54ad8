(* Specification vocabulary for adding to a workspace. *)
From Coq Require Import Ascii.
From Verif Require Import Base PyDict Variables Workspace Create.
Open Scope string_scope.
Open Scope list_scope.

(* lower case letters, digits, underscores and hyphens only *)
Definition plain_char (c : ascii) : Prop :=
  let n := nat_of_ascii c in (97 <= n <= 122 \/ 48 <= n <= 57 \/ n = 95 \/ n = 45)%nat.
Definition plain_text (s : string) : Prop := Forall plain_char (list_ascii_of_string s).

(* the letters and digits of a name, in lower case *)
Definition lower_case : list (ascii * ascii) := combine (list_ascii_of_string "ABCDEFGHIJKLMNOPQRSTUVWXYZabcdefghijklmnopqrstuvwxyz0123456789") (list_ascii_of_string "abcdefghijklmnopqrstuvwxyzabcdefghijklmnopqrstuvwxyz0123456789").
Definition lettered (s : string) : list ascii := flat_map (fun c => match find (fun p => Ascii.eqb (fst p) c) lower_case with Some p => [snd p] | None => [] end) (list_ascii_of_string s).

(* the entries of a workspace *)
Inductive kind := APipeline | ADataLoader | AnExperiment.
Definition same_entry (ws ws' : workspace) (k : kind) (n : string) : Prop :=
  match k with
  | APipeline => dget (pipelines ws') n = dget (pipelines ws) n
  | ADataLoader => dget (dataloaders ws') n = dget (dataloaders ws) n
  | AnExperiment => dget (experiments ws') n = dget (experiments ws) n
  end.
(* the entry a command is about *)
Definition about (e : edit) : option (kind * string) :=
  match e with
  | Plain (AddPreconfigured _ n) | Plain (AddSkeleton n) => Some (APipeline, slugify n)
  | Plain (AddEjected _ n) | Plain (RemovePipeline n) => Some (APipeline, n)
  | Plain (AddExperiment n _ _) => Some (AnExperiment, slugify n)
  | Plain (RemoveExperiment n) | Plain (UpdateVariable n _ _) => Some (AnExperiment, n)
  | Plain (ClearExperiment _) => None
  | Plain (AddDataLoader n _) | AddDynamic n => Some (ADataLoader, slugify n)
  | Plain (RemoveDataLoader n) => Some (ADataLoader, n)
  end.
(* commands that are asked for a file, with what it should hold *)
Inductive asks_for : edit -> string -> content -> Prop :=
| af_eject : forall a n, asks_for (Plain (AddEjected a n)) (slugify n ++ ".yml") (CAlgorithm a)
| af_skeleton : forall n, asks_for (Plain (AddSkeleton n)) (slugify n ++ ".py") (CPipeline n)
| af_dynamic : forall n, asks_for (AddDynamic n) (slugify n ++ ".py") (CLoader n).
(* the workspace refers to that file under the name of the command *)
Definition refers (e : edit) (ws : workspace) (file : string) : Prop :=
  match e with
  | Plain (AddEjected a n) => dget (pipelines ws) n = Some (mkRef RFile file)
  | Plain (AddSkeleton n) => exists m, file = (m ++ ".py")%string /\ dget (pipelines ws) (slugify n) = Some (mkRef RModule (m ++ ".PIPELINE"))
  | AddDynamic n => exists m, file = (m ++ ".py")%string /\ dget (dataloaders ws) (slugify n) = Some (m ++ ".DataLoader")%string
  | _ => False
  end.
