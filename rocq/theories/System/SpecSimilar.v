(** The linear system in other units: lengths times [k], speeds times [s]. *)

From Coq Require Import ZArith Bool List Reals.
From Verif.Base Require Import Num.
From Verif.Matrix Require Import Model.
From Verif.Body Require Import Model Spec.
From Verif.Flow Require Import Model.
From Verif.Map Require Import SpecSimilar.
From Verif.System Require Import Model Spec.
Import ListNotations.
Local Open Scope R_scope.

Section Units.
Variables k s : R.

(** Positions and angles; speeds; forces and moments per density of the fluid;
    strength and damping of springs; impulse and its moment. *)
Definition both (a b : R) (v : vec3 RNum) : vec3 RNum := @mkVec3 RNum (sc a (r3 v)) (b * o3 v).
Definition place_sc := both k 1.
Definition turning_sc := both s (s / k).
Definition force_sc := both (k * (s * s)) (k * k * (s * s)).
Definition spring_sc := both (s * s) (k * k * (s * s)).
Definition damping_sc := both (k * s) (k * k * k * s).
Definition impulse_sc := both (k * k * s) (k * k * k * s).

(** Heat of a segment: temperature times area. *)
Definition seg_sc (g : @seg RNum) : @seg RNum :=
  @mkSeg RNum (k * s * sg g) (k * s * gsum g) (k * k * hsum g) (heat_const g) (obj_no g).
Definition geo_sc (g : body RNum) : body RNum :=
  @mkBody RNum (map (att_sc k) (alist g)) (place_sc (holder g)) (place_sc (dpos g)) (turning_sc (speed_slae g)) (turning_sc (speed_slae_prev g))
    (slip_ g) (k * slen g) (k * k * area g) (sc k (cofm g)) (k * k * (k * k) * moi g) (k * k * disc_r2 g) (sc k (rect_bl g)) (sc k (rect_tr g)) (map (sc k) (heat_layer g)).
Definition fb_sc (f : fbody RNum) : fbody RNum :=
  @mkFBody RNum (geo_sc (geo f)) (map seg_sc (segs f)) (spring_sc (Flow.Model.kspring f)) (place_sc (cmin f)) (place_sc (cmax f))
    (turning_sc (own f)) (root f) (cond f) (impulse_sc (fdt_dead f)) (k * s * g_dead f).
Definition sbody_sc (b : sbody RNum) : sbody RNum :=
  @mkSBody RNum (fb_sc (fb b)) (density b) (damping_sc (damping b)) (bounce b) (k * k * (s * s) * torque b) (special_ b) (kutta_ b)
    (force_sc (force_holder b)) (force_sc (friction_prev b)).
Definition system_sc (S : sspace RNum) : sspace RNum :=
  @mkSSpace RNum (map sbody_sc (sbodies S)) (late S) (k / s * dt S) (sc (s * s / k) (gravity S)) (sc s (inf_speed S)) (k * s * inf_g S) (k * s * gfree S).

(** Units of the unknowns: circulation, speed, force. *)
Definition unit_of (u : unk) : R :=
  match u with
  | UG _ _ => k * s
  | UV _ CO => s / k | UV _ _ => s
  | UH _ CO | UF _ CO => k * k * (s * s) | UH _ _ | UF _ _ => k * (s * s)
  end.
Definition unknowns_sc (v : unk -> R) (u : unk) : R := unit_of u * v u.

(** The flow seen by the system. *)
Definition sinks_sc (sk sk' : pt -> pt) : Prop := forall q, sk' (sc k q) = sc s (sk q).
Definition flux_sc (ff ff' : att RNum -> R) : Prop := forall a, ff' (att_sc k a) = k * s * ff a.
End Units.

(** The angle of a vector does not depend on its length. *)
Definition angle (at2 : R -> R -> R) : Prop := forall c a b, 0 < c -> at2 (c * a) (c * b) = at2 a b.
