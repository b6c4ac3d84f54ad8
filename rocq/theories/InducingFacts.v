(* Proofs of C96. *)
From Verif Require Import Base PyDict Graph GraphSpec GraphPaths Dag PathSpec Mixins Inducing.
Open Scope string_scope.
Open Scope list_scope.

Lemma middle_nil {A} (l : list A) : middle l = [] <-> List.length l < 3.
Proof.
  unfold middle. destruct l as [|a [|b [|c l]]]; cbn; try (split; [lia|reflexivity]). split; [discriminate|lia].
Qed.
Lemma loop_short call ps : (forall p, In p ps -> List.length p < 3) -> inducing_loop call ps = Ok false.
Proof.
  induction ps as [|p ps IH]; intros H; [reflexivity|]. cbn [inducing_loop]. rewrite (proj2 (middle_nil p) (H p (or_introl eq_refl))). cbn. apply IH. intros q Hq; apply H; right; exact Hq.
Qed.
Lemma loop_long e ps : (exists p, In p ps /\ 3 <= List.length p) -> inducing_loop (fun _ => Err e) ps = Err e.
Proof.
  induction ps as [|p ps IH]; intros (q & Hq & Lq); [destruct Hq|]. cbn [inducing_loop]. destruct (middle p) as [|x m] eqn:M; [|reflexivity].
  cbn. apply IH. exists q. split; [|exact Lq]. destruct Hq as [->|Hq]; [|exact Hq]. apply middle_nil in M. lia.
Qed.
Lemma loop_cases e ps : inducing_loop (fun _ => Err e) ps = Ok false \/ inducing_loop (fun _ => Err e) ps = Err e.
Proof.
  induction ps as [|p ps IH]; [left; reflexivity|]. cbn [inducing_loop]. destruct (middle p); [exact IH|right; reflexivity].
Qed.
Lemma pairs_length p : List.length (pairs_of p) = pred (List.length p).
Proof. induction p as [|a [|b p] IH]; [reflexivity|reflexivity|]. cbn [pairs_of List.length] in *. rewrite IH. reflexivity. Qed.
