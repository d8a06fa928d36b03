(** C122: the directions of the axes do not matter, for the linear system. *)

From Coq Require Import ZArith Bool List Reals Lra Lia Permutation.
From Verif.Base Require Import Num.
From Verif.Matrix Require Import Model.
From Verif.Body Require Import Model Spec.
From Verif.Flow Require Import Model.
From Verif.Vortex Require Import Model.
From Verif.System Require Import Model ModelFlux Spec Proofs ProofsCollision ProofsWrite ProofsPhysics ProofsSolve ProofsXi ProofsLaws ProofsWitness SpecTurn.
From Verif.Vortex Require Import ProofsKernel.
From Verif.Map Require Import Model SpecSimilar SpecTurn ProofsTurn.
From Verif.System Require Import ProofsTurn.
Import ListNotations.
Local Open Scope R_scope.

(** A flow turned by a right angle has the turned solutions, unless a body held by
    another one has slid along one axis. *)
Theorem C122_system_partial : forall at2 tp ip sk sk' ff ff' (S : sspace RNum) v,
  no_self_root S -> Forall (not_slid S) (sbodies S) -> sinks_qt sk sk' -> flux_qt ff ff' ->
  solution_with at2 tp ip sk ff S PNull v <-> solution_with at2 tp ip sk' ff' (system_qt S) PNull (unknowns_qt v).
Proof. intros. apply solution_qt; assumption. Qed.
Print Assumptions C122_system_partial.

(** The hypotheses about sources and free vortices hold for what the code
    computes. *)
Theorem C122_sinks : forall (ip ip1 d : R) l,
  sinks_qt (sink_influence (K:=RNum) ip ip1 d l) (sink_influence (K:=RNum) ip ip1 d (map (part_rot 0 1) l)).
Proof. intros * q. apply sink_influence_rot. ring. Qed.
Print Assumptions C122_sinks.

Lemma near_flux_qt near a z : near_flux (K:=RNum) ln (map (part_rot 0 1) near) (att_qt a) z = near_flux (K:=RNum) ln near a z.
Proof.
  unfold near_flux. revert z. induction near as [|o l IH]; intros z; [reflexivity|]. cbn [map fold_left]. rewrite IH. f_equal.
  cbn [part_rot pr pg pe]. destruct (@neqb RNum (pg o) _); [reflexivity|]. change (rot 0 1 (pr o)) with (qt (pr o)). rewrite xi_g_qt. reflexivity.
Qed.
Lemma far_flux_qt far a z : far_flux (K:=RNum) ln (map (part_rot 0 1) far) (att_qt a) z = far_flux (K:=RNum) ln far a z.
Proof.
  unfold far_flux. revert z. induction far as [|o l IH]; intros z; [reflexivity|]. cbn [map fold_left]. rewrite IH. f_equal.
  cbn [part_rot pr pg att_qt att_rot corner dl]. rewrite vadd_rot. rewrite (xi_g_dist_qt (pr o) (corner a)). reflexivity.
Qed.

Theorem C122_flux : forall (ip : R) near far near' far',
  (forall a, near' (att_qt a) = map (part_rot 0 1) (near a)) -> (forall a, far' (att_qt a) = map (part_rot 0 1) (far a)) ->
  flux_qt (fun a => node_flux (K:=RNum) ln ip (near a) (far a) a) (fun a => node_flux (K:=RNum) ln ip (near' a) (far' a) a).
Proof. intros * N F a. unfold node_flux. rewrite N, F, near_flux_qt, far_flux_qt. reflexivity. Qed.
Print Assumptions C122_flux.

(** A plate in a cross wind, turned. *)
Example C122_ex :
  let S := system_qt (moved (P 0 0) sail) in
  let v := unknowns_qt (sail_v (P 0 0)) in
  solution_with (fun _ _ => 0) 1 1 (fun _ => P 0 0) (fun _ => 0) S PNull v /\
  px (inf_speed S) = - cross_flow /\ v (UG 0 1) = 1 /\ v (UH 0 CX) = - 1 /\ v (UH 0 CY) = 0.
Proof.
  cbv zeta. split; [|split; [|split; [|split]]].
  - apply (C122_system_partial (fun _ _ => 0) 1 1 (fun _ => P 0 0) (fun _ => P 0 0) (fun _ => 0) (fun _ => 0) (moved (P 0 0) sail) (sail_v (P 0 0))).
    + intros [|i] b; cbn [sbodies moved sail map nth_error]; [intros E; injection E as <-; discriminate|destruct i; discriminate].
    + constructor; [|constructor]. intros H. destruct H. reflexivity.
    + intros q. unfold qt, rot, P. cbn [x y]. f_equal; ring.
    + intros a. reflexivity.
    + apply sail_solution.
  - unfold px, system_qt, moved, sail, qt, rot, P. cbn [inf_speed x y]. ring.
  - reflexivity.
  - unfold unknowns_qt, sail_v, px, P. cbn [x]. ring.
  - unfold unknowns_qt, sail_v, py, P. cbn [y]. ring.
Qed.

(** A vortex seen from a plate and the same from the turned plate. *)
Example C122_flux_ex :
  let a := @mkAtt RNum (P 1 0) false (P 1 0) (P (3/2) 0) 0 in
  let o := @mkPart RNum (P 0 0) 5 (P 0 0) 10 in
  node_flux (K:=RNum) ln 1 [o] [] a = 5 / 2 * ln 4 /\
  node_flux (K:=RNum) ln 1 [part_rot 0 1 o] [] (att_qt a) = 5 / 2 * ln 4.
Proof.
  cbv zeta. set (a := @mkAtt RNum _ _ _ _ _). set (o := @mkPart RNum _ _ _ _).
  assert (E : node_flux (K:=RNum) ln 1 [o] [] a = 5 / 2 * ln 4).
  { unfold node_flux, far_flux, near_flux. cbn [fold_left]. unfold xi_g, sqr, abs2, vsub, vadd, half, a, o, P. cbn [pg pr pe corner dl x y].
    change (@nleb RNum) with Rleb. change (@neqb RNum) with Reqb. unr. change (Num.T RNum) with R in *.
    replace (Reqb 5 0) with false by (symmetry; apply Reqb_false; lra).
    match goal with |- context [Rleb ?u ?w && Rleb ?u ?z] => replace (Rleb u w && Rleb u z) with true by (symmetry; apply andb_true_intro; split; apply Rleb_true; lra) end.
    match goal with |- context [ln ?u] => replace u with 4 by (eqR; field) end. eqR. field. }
  split; [exact E|].
  pose proof (C122_flux 1 (fun _ => [o]) (fun _ => []) (fun _ => map (part_rot 0 1) [o]) (fun _ => []) (fun _ => eq_refl) (fun _ => eq_refl) a) as X.
  cbv beta in X. cbn [map] in X. rewrite E in X. exact X.
Qed.

(** A body which has slid by its axle along x is held by it along y where it is
    now; turned, it is held where it was. *)
Theorem C122_slid_refuted : forall d, no_self_root (two d) /\
  solution (two d) PNull two_v /\ ~ solution (system_qt (two d)) PNull (unknowns_qt two_v) /\
  forall w, solution (system_qt (two d)) PNull w -> w (UV 0 CO) = 1 -> w (UV 0 CX) = 0 -> w (UV 1 CX) = - 1.
Proof.
  intros d.
  assert (A : forall w, solution (system_qt (two d)) PNull w -> w (UV 1 CX) - w (UV 0 CX) + w (UV 0 CO) = 0).
  { intros w (at2 & tp & ip & sk & ff & addr & es & q & order & sl & M & M' & Hp & HP & HR & HL & HF & Hs).
    assert (He : exists n, In (mkEntry n (Speed CX) 1 0) es).
    { pose proof (plan_qt (shapes_of (two d)) 0 0 false) as PQ. fold (plan (shapes_of (two d)) PNull) in PQ. rewrite <- shapes_qt in PQ.
      fold (plan (shapes_of (system_qt (two d))) PNull) in PQ. rewrite two_plan, Hp in PQ. destruct PQ as (_ & -> & _ & TW).
      destruct (TW (mkEntry 12 (Speed CY) 1 0)) as ([n k b sg] & Hin & K & B & Sg); [simpl; tauto|]. cbn [ekind ebody eseg kind_qt swap] in K, B, Sg. subst. exists n. exact Hin. }
    destruct He as [n He].
    pose proof (row_holds at2 tp ip (system_qt (two d)) sk ff addr PNull es q order sl M M' w _ _ Hp HP HR HL HF Hs He eq_refl) as X.
    unfold speed_eq in X. cbn in X. 
    assert (Y := X ltac:(repeat constructor; simpl; intuition discriminate)). clear X. unfold total in Y. simpl in Y.
    unfold vec3_qt, qt, rot, get_axis, vsub, vadd in Y. cbn in Y. revert Y. unr. change (Num.T RNum) with R in *. lra. }
  split; [|split; [apply two_solution|split]].
  - intros [|[|i]] b; cbn [sbodies two nth_error]; [intros E; injection E as <-; discriminate|intros E; injection E as <-; discriminate|destruct i; discriminate].
  - intros H. apply A in H. cbn [unknowns_qt two_v] in H. lra.
  - intros w H. apply A in H. lra.
Qed.
Print Assumptions C122_slid_refuted.
