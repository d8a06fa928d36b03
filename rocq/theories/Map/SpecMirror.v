(** The mirror image of a flow, the mirror lying along the axis of x. *)

From Coq Require Import ZArith Bool List Reals.
From Verif.Base Require Import Num.
From Verif.Body Require Import Model Spec.
From Verif.Vortex Require Import Model.
From Verif.Map Require Import Model SpecSimilar.
Import ListNotations.
Local Open Scope R_scope.

Definition mir (q : pnt) : pnt := @mkVec RNum (x q) (- y q).

(** Vortices turn the other way; sources and heat are what they were. *)
Definition vort_mir (o : part RNum) : part RNum := @mkPart RNum (mir (pr o)) (- pg o) (mir (pv o)) (pe o).
Definition part_mir (o : part RNum) : part RNum := @mkPart RNum (mir (pr o)) (pg o) (mir (pv o)) (pe o).
(** Walls are passed in the other direction, the fluid stays on the same side. *)
Definition att_mir (a : att RNum) : att RNum :=
  @mkAtt RNum (mir (@mkVec RNum (x (corner a) + x (dl a)) (y (corner a) + y (dl a)))) (slip a) (@mkVec RNum (- x (dl a)) (y (dl a))) (mir (r a)) (eps1 a).
Definition cell_mir (k : cell RNum) : cell RNum := @mkCell RNum (mir (centre k)) (mine k) (near k) (map att_mir (Vortex.Model.walls k)).

Definition wall_mir (w : @wall RNum) : @wall RNum := @mkWall RNum (att_mir (seg w)) (- wg w) (- wgsum w).
Definition shape_mir (b : @shape RNum) : @shape RNum :=
  @mkShape RNum (rev (map wall_mir (Map.Model.walls b))) (@mkVec3 RNum (mir (r3 (speed b))) (- o3 (speed b))) (mir (axis b)) (mir (mid b)).
Definition space_mir (S : @space RNum) : @space RNum :=
  mkSpace (map shape_mir (bodies S)) (map vort_mir (vortices S)) (map part_mir (sources S)) (mir (flow S)) (dt S).

(** What is needed of log and atan2. *)
Definition log_like (lnf : R -> R) : Prop := forall a, 0 < a -> lnf (/ a) = - lnf a.
Definition angle_like (at2 : R -> R -> R) : Prop := forall c a b, 0 < c -> at2 (c * a) (c * b) = at2 a b.

(** The point is not an end of a segment. *)
Definition off_ends (p : pnt) (b : @shape RNum) : Prop :=
  forall w e, In w (Map.Model.walls b) -> e = 1 / 2 \/ e = - (1 / 2) ->
  p <> @mkVec RNum (x (r (seg w)) + e * x (dl (seg w))) (y (r (seg w)) + e * y (dl (seg w))).
