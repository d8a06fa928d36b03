(** The same flow in other units: lengths times [k], speeds times [s], so times
    times [k / s] and circulations times [k * s]. *)

From Coq Require Import ZArith Bool List Reals.
From Verif.Base Require Import Num.
From Verif.Body Require Import Model Spec.
From Verif.Vortex Require Import Model.
From Verif.Map Require Import Model.
Import ListNotations.
Local Open Scope R_scope.

Notation pnt := (vec RNum).
Definition sc (k : R) (q : pnt) : pnt := @mkVec RNum (k * x q) (k * y q).

(** [c] is the unit of the strength: [k * s] for vortices and sources, [k * k] for
    heat; [pe] and [eps1] are one over a length. *)
Definition part_sc (k s c : R) (o : part RNum) : part RNum :=
  @mkPart RNum (sc k (pr o)) (c * pg o) (sc s (pv o)) (pe o / k).
Definition att_sc (k : R) (a : att RNum) : att RNum :=
  @mkAtt RNum (sc k (corner a)) (slip a) (sc k (dl a)) (sc k (r a)) (eps1 a / k).

Definition speed_sc (k s : R) (v : vec3 RNum) : vec3 RNum := @mkVec3 RNum (sc s (r3 v)) (s / k * o3 v).
Definition wall_sc (k s : R) (w : @wall RNum) : @wall RNum := @mkWall RNum (att_sc k (seg w)) (k * s * wg w) (k * s * wgsum w).
Definition shape_sc (k s : R) (b : @shape RNum) : @shape RNum :=
  @mkShape RNum (map (wall_sc k s) (Map.Model.walls b)) (speed_sc k s (speed b)) (sc k (axis b)) (sc k (mid b)).
Definition space_sc (k s : R) (S : @space RNum) : @space RNum :=
  mkSpace (map (shape_sc k s) (bodies S)) (map (part_sc k s (k * s)) (vortices S)) (map (part_sc k s (k * s)) (sources S))
    (sc s (flow S)) (k / s * dt S).

(** The thresholds of the code are absolute numbers: nothing may lie between zero
    and [tiny] in either unit. *)
Definition size1 (q : pnt) : R := Rabs (x q) + Rabs (y q).
Definition clear_of (tiny k d : R) : Prop := d = 0 \/ (tiny <= d /\ tiny <= k * d).
Definition apart (tiny k : R) (vs : list (part RNum)) (v : part RNum) : Prop :=
  forall w, In w vs -> clear_of tiny k (size1 (@mkVec RNum (x (pr v) - x (pr w)) (y (pr v) - y (pr w)))).
Definition moving (tiny k s : R) (b : @shape RNum) : Prop :=
  let v := speed b in
  (size1 (r3 v) = 0 /\ o3 v = 0) \/
  (tiny <= size1 (r3 v) + Rabs (o3 v) /\ tiny <= s * size1 (r3 v) + s / k * Rabs (o3 v)).
