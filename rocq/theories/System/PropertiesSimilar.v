(** C120: the units of length and speed do not matter, for the linear system. *)

From Coq Require Import ZArith Bool List Reals Lra Lia Permutation.
From Verif.Base Require Import Num.
From Verif.Matrix Require Import Model.
From Verif.Body Require Import Model Spec.
From Verif.Flow Require Import Model.
From Verif.Vortex Require Import Model.
From Verif.System Require Import Model ModelFlux Spec Proofs ProofsCollision ProofsWrite ProofsPhysics ProofsSolve ProofsXi ProofsLaws ProofsWitness SpecSimilar.
From Verif.Vortex Require Import ProofsKernel.
From Verif.Map Require Import Model SpecSimilar ProofsSimilar.
From Verif.System Require Import ProofsSimilar.
Import ListNotations.
Local Open Scope R_scope.

(** In other units the solutions are the same ones in those units: circulations,
    speeds, forces and moments. *)
Theorem C120_solution : forall at2 tp ip sk sk' ff ff' (k s : R) (S : sspace RNum) p v,
  0 < k -> 0 < s -> angle at2 -> no_self_root S -> sinks_sc k s sk sk' -> flux_sc k s ff ff' ->
  solution_with at2 tp ip sk ff S p v <-> solution_with at2 tp ip sk' ff' (system_sc k s S) p (unknowns_sc k s v).
Proof. intros. apply solution_sc; assumption. Qed.
Print Assumptions C120_solution.

(** The hypotheses about sources and free vortices hold for what the code
    computes. *)
Theorem C120_sinks : forall (k s ip ip1 d : R) l, 0 < k -> 0 < s ->
  sinks_sc k s (sink_influence (K:=RNum) ip ip1 d l) (sink_influence (K:=RNum) ip ip1 (k / s * d) (map (part_sc k s (k * s)) l)).
Proof. intros * Hk Hs q. apply sink_influence_sc; assumption. Qed.
Print Assumptions C120_sinks.

Lemma near_flux_sc k s near a z : 0 < k -> 0 < s ->
  near_flux (K:=RNum) ln (map (part_sc k s (k * s)) near) (att_sc k a) (k * s * z) = k * s * near_flux (K:=RNum) ln near a z.
Proof.
  intros Hk Hs. assert (P : 0 < k * s) by (apply Rmult_lt_0_compat; assumption). unfold near_flux. apply fold_sc. clear z. intros z o. cbn [part_sc pr pg pe].
  change (@neqb RNum) with Reqb. change (@nofZ RNum 0) with 0. rewrite eqb_sc by lra. destruct (Reqb (pg o) 0); [reflexivity|].
  change (@ndiv RNum) with Rdiv. change (@nofZ RNum 1) with 1. rewrite (inv_len k Hk), (xi_g_sc k s) by assumption. unr. eqR. ring.
Qed.
Lemma far_flux_sc k s far a z : 0 < k ->
  far_flux (K:=RNum) ln (map (part_sc k s (k * s)) far) (att_sc k a) (k * s * z) = k * s * far_flux (K:=RNum) ln far a z.
Proof.
  intros Hk. unfold far_flux. apply fold_sc. clear z. intros z o. cbn [part_sc pr pg].
  change (corner (att_sc k a)) with (sc k (corner a)). change (dl (att_sc k a)) with (sc k (dl a)). rewrite vadd_sc, xi_g_dist_sc by assumption. unr. eqR. ring.
Qed.

Theorem C120_flux : forall (k s ip : R) near far near' far', 0 < k -> 0 < s ->
  (forall a, near' (att_sc k a) = map (part_sc k s (k * s)) (near a)) -> (forall a, far' (att_sc k a) = map (part_sc k s (k * s)) (far a)) ->
  flux_sc k s (fun a => node_flux (K:=RNum) ln ip (near a) (far a) a) (fun a => node_flux (K:=RNum) ln ip (near' a) (far' a) a).
Proof.
  intros * Hk Hs N F a. unfold node_flux. rewrite N, F. replace (@nofZ RNum 0) with (k * s * 0) at 1 by (unr; eqR; ring).
  rewrite near_flux_sc, far_flux_sc by assumption. unr. eqR. ring.
Qed.
Print Assumptions C120_flux.

(** A plate in a cross wind measured in units twice as small, time in units three
    times as long. *)
Example C120_ex :
  let S := system_sc 2 6 (moved (P 0 0) sail) in
  let v := unknowns_sc 2 6 (sail_v (P 0 0)) in
  solution_with (fun _ _ => 0) 1 1 (fun _ => P 0 0) (fun _ => 0) S PNull v /\
  py (inf_speed S) = 6 * cross_flow /\ v (UG 0 1) = 12 /\ v (UH 0 CY) = 72 /\ v (UH 0 CO) = 72.
Proof.
  cbv zeta. split; [|split; [|split; [|split]]].
  - apply (C120_solution (fun _ _ => 0) 1 1 (fun _ => P 0 0) (fun _ => P 0 0) (fun _ => 0) (fun _ => 0) 2 6 (moved (P 0 0) sail) PNull (sail_v (P 0 0))); try lra.
    + intros c a b _. reflexivity.
    + intros [|i] b; cbn [sbodies moved sail map nth_error]; [intros E; injection E as <-; discriminate|destruct i; discriminate].
    + intros q. unfold sc, P. cbn [x y]. f_equal; ring.
    + intros a. ring.
    + apply sail_solution.
  - unfold py, system_sc, moved, sail, sc, P. cbn [inf_speed y]. reflexivity.
  - unfold unknowns_sc, unit_of, sail_v. ring.
  - unfold unknowns_sc, unit_of, sail_v, px, P. cbn [x]. ring.
  - unfold unknowns_sc, unit_of, sail_v. field.
Qed.

(** A vortex seen from a plate: its flux is the logarithm of a ratio of lengths. *)
Example C120_flux_ex :
  let a := @mkAtt RNum (P 1 0) false (P 1 0) (P (3/2) 0) 0 in
  let o := @mkPart RNum (P 0 0) 5 (P 0 0) 10 in
  node_flux (K:=RNum) ln 1 [o] [] a = 5 / 2 * ln 4 /\
  node_flux (K:=RNum) ln 1 [part_sc 2 3 (2 * 3) o] [] (att_sc 2 a) = 6 * (5 / 2 * ln 4).
Proof.
  cbv zeta. set (a := @mkAtt RNum _ _ _ _ _). set (o := @mkPart RNum _ _ _ _).
  assert (E : node_flux (K:=RNum) ln 1 [o] [] a = 5 / 2 * ln 4).
  { unfold node_flux, far_flux, near_flux. cbn [fold_left]. unfold xi_g, sqr, abs2, vsub, vadd, half, a, o, P. cbn [pg pr pe corner dl x y].
    change (@nleb RNum) with Rleb. change (@neqb RNum) with Reqb. unr. change (Num.T RNum) with R in *.
    replace (Reqb 5 0) with false by (symmetry; apply Reqb_false; lra).
    match goal with |- context [Rleb ?u ?w && Rleb ?u ?z] => replace (Rleb u w && Rleb u z) with true by (symmetry; apply andb_true_intro; split; apply Rleb_true; lra) end.
    match goal with |- context [ln ?u] => replace u with 4 by (eqR; field) end. eqR. field. }
  split; [exact E|].
  pose proof (C120_flux 2 3 1 (fun _ => [o]) (fun _ => []) (fun _ => map (part_sc 2 3 (2 * 3)) [o]) (fun _ => []) ltac:(lra) ltac:(lra) (fun _ => eq_refl) (fun _ => eq_refl) a) as X.
  cbv beta in X. cbn [map] in X. rewrite E in X. change (node_flux (K:=RNum) ln 1 [part_sc 2 3 (2 * 3) o] [] (att_sc 2 a) = 2 * 3 * (5 / 2 * ln 4)) in X. eqR. lra.
Qed.
