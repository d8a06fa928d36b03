(** C119: only the relative speed of flow and bodies matters. *)

From Coq Require Import ZArith Bool List Reals Lra Lia Permutation.
From Verif.Base Require Import Num.
From Verif.Matrix Require Import Model.
From Verif.Body Require Import Model Spec.
From Verif.Flow Require Import Model.
From Verif.System Require Import Model Spec Proofs ProofsCollision ProofsWrite ProofsPhysics ProofsSolve ProofsXi ProofsLaws ProofsWitness SpecFrame ProofsFrame.
Import ListNotations.
Local Open Scope R_scope.

(** Seen by an observer in uniform motion the solutions are the same but for the
    speeds: circulations, hydrodynamic forces and forces on the holders do not
    change. *)
Theorem C119_frame_partial : forall at2 tp ip sk ff (u : pt) (S : sspace RNum) v,
  tp * ip = 1 -> no_self_root S -> undamped S ->
  solution_with at2 tp ip sk ff S PNull v <-> solution_with at2 tp ip sk ff (seen u S) PNull (seen_unknowns u v).
Proof. intros. apply seen_solution; assumption. Qed.
Print Assumptions C119_frame_partial.

(** A body on a damped spring feels the difference: the damping acts on the speed
    itself, not on the speed relative to anything. *)
Theorem C119_damped : forall (u : pt) (S : sspace RNum) v v' i b c,
  solution S PNull v -> solution (seen u S) PNull v' -> late S = true ->
  nth_error (sbodies S) i = Some b -> isrigid (K:=RNum) (get c (Flow.Model.kspring (fb b))) = false ->
  v' (UF i c) - v (UF i c) = get c (damping b) * (v' (UV i c) - v (UV i c)).
Proof.
  intros u S v v' i b c Sv Sv' L Hb Hr.
  destruct (sol_row S PNull v Sv) as (at2 & tp & ip & sk & ff & es & q & Hp & _).
  assert (Hs : nth_error (shapes_of S) i = Some (shape_of (late S) b)) by (unfold shapes_of; rewrite nth_error_map, Hb; reflexivity).
  assert (Rg : rigid (shape_of (late S) b) c = false) by (cbn [shape_of rigid]; rewrite Hr, L; reflexivity).
  pose proof (spring_plain _ _ _ _ _ _ Hp Hs Rg) as Hh.
  assert (Hp' : plan (shapes_of (seen u S)) PNull = Some (es, q)) by (rewrite seen_shapes; exact Hp).
  assert (Hb' : nth_error (sbodies (seen u S)) i = Some (seen_body u b)) by (cbn [sbodies seen]; rewrite nth_error_map, Hb; reflexivity).
  pose proof (hooke_law S PNull v Sv i b c false es q Hp Hh Hb) as H1.
  pose proof (hooke_law (seen u S) PNull v' Sv' i (seen_body u b) c false es q Hp' Hh Hb') as H2.
  rewrite H1, H2. cbn [seen_body fb seen_fb Flow.Model.kspring damping torque g_of geo seen_geo dpos].
  destruct c; unfold g_of; lra.
Qed.
Print Assumptions C119_damped.

Lemma sprung_with : solution_with (fun _ _ => 0) 1 1 (fun _ => P 0 0) (fun _ => 0) sprung PNull sprung_v.
Proof.
  apply (holds_with (fun _ _ => 0) 1 1 sprung (fun _ => P 0 0) (fun _ => 0) PNull _ PNull _ sprung_plan).
  - intros b j [<-|[]]. discriminate.
  - intros e q He E. simpl in He.
    repeat (destruct He as [<-|He];
      [unfold eqn_of in E; cbn [ebody ekind eseg nth_error sbodies sprung] in E;
       pose proof (f_equal (fun z => match z with Some w => w | None => q end) E) as E'; cbv beta iota in E'; clear E; subst q;
       unfold zero_eq, speed_eq, hooke_eq, hydro_eq, newton_eq, moi_axis; cbn;
       split; [repeat constructor; simpl; intuition discriminate|unfold total; simpl; unr; cbn; unr; field_simplify; lra]|]).
    destruct He.
Qed.

(** Without [undamped] the solutions do not correspond. *)
Theorem C119_refuted : ~ forall at2 tp ip sk ff (u : pt) (S : sspace RNum) v,
  tp * ip = 1 -> no_self_root S ->
  solution_with at2 tp ip sk ff S PNull v -> solution_with at2 tp ip sk ff (seen u S) PNull (seen_unknowns u v).
Proof.
  intros H.
  assert (NS : no_self_root sprung).
  { intros [|i] b; cbn [sbodies sprung nth_error]; [intros E; injection E as <-; discriminate|destruct i; discriminate]. }
  pose proof (H _ 1 1 _ _ (P 1 0) sprung sprung_v ltac:(lra) NS sprung_with) as X.
  pose proof (C119_damped (P 1 0) sprung _ _ 0%nat _ CX (with_solution _ _ _ _ _ _ _ _ sprung_with) (with_solution _ _ _ _ _ _ _ _ X) eq_refl eq_refl
    ltac:(cbn [Flow.Model.kspring fb speck get v3 r3 P x]; apply rigid_pos; lra)) as D.
  cbn in D. lra.
Qed.
Print Assumptions C119_refuted.

(** A plate at rest in a cross wind, and the same plate moved against still air:
    the circulation and the force on the plate are the same. *)
Example C119_ex :
  let wind := P 0 cross_flow in
  let still := seen (P 0 (- cross_flow)) (moved (P 0 0) sail) in
  let w := seen_unknowns (P 0 (- cross_flow)) (sail_v (P 0 0)) in
  inf_speed (moved (P 0 0) sail) = wind /\ px (inf_speed still) = 0 /\ py (inf_speed still) = 0 /\
  solution_with (fun _ _ => 0) 1 1 (fun _ => P 0 0) (fun _ => 0) still PNull w /\
  w (UV 0 CY) = - cross_flow /\ w (UG 0 1) = 1 /\ w (UH 0 CY) = 1.
Proof.
  cbv zeta. split; [reflexivity|]. split; [|split; [|split; [|split; [|split]]]].
  - unfold seen, moved, sail, px, P. cbn [inf_speed x]. lra.
  - unfold seen, moved, sail, py, P. cbn [inf_speed y]. lra.
  - apply (C119_frame_partial (fun _ _ => 0) 1 1 (fun _ => P 0 0) (fun _ => 0) (P 0 (- cross_flow)) (moved (P 0 0) sail) (sail_v (P 0 0))).
    + lra.
    + intros [|i] b; cbn [sbodies moved sail map nth_error]; [intros E; injection E as <-; discriminate|destruct i; discriminate].
    + intros b c [<-|[]] _. left. cbn [Flow.Model.kspring fb moved_body moved_fb]. destruct c; cbn [get v3 r3 o3 P x y]; apply rigid_neg; lra.
    + apply sail_solution.
  - unfold seen_unknowns, sail_v, py, P. cbn [y]. lra.
  - reflexivity.
  - unfold seen_unknowns, sail_v, px, P. cbn [x]. lra.
Qed.
