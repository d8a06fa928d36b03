(** The same flow with the axes turned by the angle whose cosine is [c] and whose
    sine is [s]. *)

From Coq Require Import ZArith Bool List Reals.
From Verif.Base Require Import Num.
From Verif.Body Require Import Model Spec.
From Verif.Vortex Require Import Model.
From Verif.Map Require Import Model SpecSimilar.
Import ListNotations.
Local Open Scope R_scope.

Definition rot (c s : R) (q : pnt) : pnt := @mkVec RNum (c * x q - s * y q) (s * x q + c * y q).

Definition part_rot (c s : R) (o : part RNum) : part RNum := @mkPart RNum (rot c s (pr o)) (pg o) (rot c s (pv o)) (pe o).
Definition att_rot (c s : R) (a : att RNum) : att RNum :=
  @mkAtt RNum (rot c s (corner a)) (slip a) (rot c s (dl a)) (rot c s (r a)) (eps1 a).
Definition cell_rot (c s : R) (k : cell RNum) : cell RNum :=
  @mkCell RNum (rot c s (centre k)) (mine k) (near k) (map (att_rot c s) (Vortex.Model.walls k)).

Definition speed_rot (c s : R) (v : vec3 RNum) : vec3 RNum := @mkVec3 RNum (rot c s (r3 v)) (o3 v).
Definition wall_rot (c s : R) (w : @wall RNum) : @wall RNum := @mkWall RNum (att_rot c s (seg w)) (wg w) (wgsum w).
Definition shape_rot (c s : R) (b : @shape RNum) : @shape RNum :=
  @mkShape RNum (map (wall_rot c s) (Map.Model.walls b)) (speed_rot c s (speed b)) (rot c s (axis b)) (rot c s (mid b)).
Definition space_rot (c s : R) (S : @space RNum) : @space RNum :=
  mkSpace (map (shape_rot c s) (bodies S)) (map (part_rot c s) (vortices S)) (map (part_rot c s) (sources S))
    (rot c s (flow S)) (dt S).

(** The code calls a vector zero when the sum of the sizes of its coordinates is
    below [tiny]; that sum depends on the axes. *)
Definition clear_both (tiny c s : R) (q : pnt) : Prop := size1 (rot c s q) < tiny <-> size1 q < tiny.
Definition apart_both (tiny c s : R) (vs : list (part RNum)) (v : part RNum) : Prop :=
  forall w, In w vs -> clear_both tiny c s (@mkVec RNum (x (pr v) - x (pr w)) (y (pr v) - y (pr w))).
Definition moving_both (tiny c s : R) (b : @shape RNum) : Prop :=
  let v := speed b in size1 (rot c s (r3 v)) + Rabs (o3 v) < tiny <-> size1 (r3 v) + Rabs (o3 v) < tiny.
