(* causy/causal_discovery/constraint/algorithms/fci.py:8-33 (InducingPathExtension.GraphAccessMixin). *)
From Verif Require Import Base PyDict Graph GraphPaths Mixins.
Open Scope string_scope.
Open Scope list_scope.

(* for i in range(1, len(path) - 1): path[i] *)
Definition middle {A} (l : list A) : list A := removelast (tl l).
(* The loop over the paths, fci.py:27-32.  No class of causy defines bidirected_edge_exists; [call] is what the
   call of that function does. *)
Fixpoint inducing_loop (call : id * id -> res bool) (ps : list (list (id * id))) : res bool :=
  match ps with
  | [] => Ok false
  | p :: r => rbind (rexists (fun e => rbind (call e) (fun b => Ok (negb b))) (middle p)) (fun b => if b then Ok true else inducing_loop call r)
  end.
(* fci.py:9-33.  The extension calls directed_paths, which the graph has if its class has the mixin of DirectedEdge.
   [bases] are the current bases of Graph. *)
Definition inducing_path_exists (C : classes) (bases : list string) (call : string -> id * id -> res bool) (fuel : nat) (g : graph) (u v : id) : res bool :=
  rbind (directed_path_exists fuel g u v) (fun b =>
    if negb b then Ok false
    else rbind (graph_query C bases "directed_paths") (fun _ =>
         rbind (directed_paths fuel g u v) (fun ps =>
         inducing_loop (fun e => rbind (graph_query C bases "bidirected_edge_exists") (fun owner => call owner e)) ps))).
