(** C127: the answer of the linear system to two flows mixed. *)

From Coq Require Import ZArith Bool List Reals Lra Lia.
From Verif.Base Require Import Num.
From Verif.Matrix Require Import Model.
From Verif.Body Require Import Model Spec.
From Verif.Flow Require Import Model.
From Verif.System Require Import Model Spec SpecMix Proofs ProofsWrite ProofsWitness ProofsMix PropertiesNumber.
Import ListNotations.
Local Open Scope R_scope.

(** Circulations, speeds and forces are mixed as the stream, the gravity, the sources,
    the free vortices, the prescribed speeds and the torques are. *)
Theorem C127_system : forall (m : R) at2 tp ip sk sk' sk2 ff ff' ff2 (S T : sspace RNum) v w,
  alike S T -> no_self_root S ->
  (forall q, sk2 q = mix_pt m (sk q) (sk' q)) -> (forall a, ff2 a = mix m (ff a) (ff' a)) ->
  solution_with at2 tp ip sk ff S PNull v -> solution_with at2 tp ip sk' ff' T PNull w ->
  solution_with at2 tp ip sk2 ff2 (mix_system m S T) PNull (mix_unknowns m v w).
Proof. intros. eapply solution_mix; eassumption. Qed.
Print Assumptions C127_system.

(** Two bodies beside a vortex of strength 1 and of strength 3. *)
Example C127_pair :
  solution_with (fun _ _ => 0) 1 1 (fun _ => P 0 0) (fun _ => 0) (mix_system (/ 2) (pair 2 1 false true 1) (pair 2 1 false true 3)) PNull
    (mix_unknowns (/ 2) (pair_v 2 1 false true 1) (pair_v 2 1 false true 3)) /\
  gfree (mix_system (/ 2) (pair 2 1 false true 1) (pair 2 1 false true 3)) = 2 /\
  mix_unknowns (/ 2) (pair_v 2 1 false true 1) (pair_v 2 1 false true 3) (UG 0 0) = -2 /\
  mix_unknowns (/ 2) (pair_v 2 1 false true 1) (pair_v 2 1 false true 3) (UH 0 CY) = -4.
Proof.
  split; [|unfold mix_unknowns, mix_system, mix; cbn; unfold mix; lra].
  apply (C127_system (/ 2) (fun _ _ => 0) 1 1 (fun _ => P 0 0) (fun _ => P 0 0) (fun _ => P 0 0) (fun _ => 0) (fun _ => 0) (fun _ => 0)).
  - split; [|split; reflexivity]. repeat constructor.
  - intros [|[|i]] c; cbn; [intros E; injection E as <-; discriminate|intros E; injection E as <-; discriminate|destruct i; discriminate].
  - intros q. unfold mix_pt, mix, P. cbn [x y px py]. f_equal; unfold px, py; cbn [x y]; lra.
  - intros a. unfold mix. lra.
  - apply pair_solution.
  - apply pair_solution.
Qed.
