(** The linear system after a quarter turn of the axes: what lay along x lies
    along y. *)

From Coq Require Import ZArith Bool List Reals.
From Verif.Base Require Import Num.
From Verif.Matrix Require Import Model.
From Verif.Body Require Import Model Spec.
From Verif.Flow Require Import Model.
From Verif.Map Require Import SpecSimilar SpecTurn.
From Verif.System Require Import Model Spec.
Import ListNotations.
Local Open Scope R_scope.

Definition qt : pt -> pt := rot 0 1.
Definition att_qt : att RNum -> att RNum := att_rot 0 1.
(** Places, speeds and forces turn; the strengths of the springs along the axes
    change places. *)
Definition vec3_qt (v : vec3 RNum) : vec3 RNum := @mkVec3 RNum (qt (r3 v)) (o3 v).
Definition swapped (v : vec3 RNum) : vec3 RNum := @mkVec3 RNum (P (py (r3 v)) (px (r3 v))) (o3 v).
(** Lower left and upper right corners. *)
Definition low_qt (lo hi : pt) : pt := P (- py hi) (px lo).
Definition high_qt (lo hi : pt) : pt := P (- py lo) (px hi).

Definition geo_qt (g : body RNum) : body RNum :=
  @mkBody RNum (map att_qt (alist g)) (vec3_qt (holder g)) (vec3_qt (dpos g)) (vec3_qt (speed_slae g)) (vec3_qt (speed_slae_prev g))
    (slip_ g) (slen g) (area g) (qt (cofm g)) (moi g) (disc_r2 g) (low_qt (rect_bl g) (rect_tr g)) (high_qt (rect_bl g) (rect_tr g)) (map qt (heat_layer g)).
Definition fb_qt (f : fbody RNum) : fbody RNum :=
  @mkFBody RNum (geo_qt (geo f)) (segs f) (swapped (Flow.Model.kspring f))
    (@mkVec3 RNum (low_qt (r3 (cmin f)) (r3 (cmax f))) (o3 (cmin f))) (@mkVec3 RNum (high_qt (r3 (cmin f)) (r3 (cmax f))) (o3 (cmax f)))
    (vec3_qt (own f)) (root f) (cond f) (vec3_qt (fdt_dead f)) (g_dead f).
Definition sbody_qt (b : sbody RNum) : sbody RNum :=
  @mkSBody RNum (fb_qt (fb b)) (density b) (swapped (damping b)) (bounce b) (torque b) (special_ b) (kutta_ b)
    (vec3_qt (force_holder b)) (vec3_qt (friction_prev b)).
Definition system_qt (S : sspace RNum) : sspace RNum :=
  @mkSSpace RNum (map sbody_qt (sbodies S)) (late S) (dt S) (qt (gravity S)) (qt (inf_speed S)) (inf_g S) (gfree S).

(** The solution: circulations stay, vectors turn. *)
Definition unknowns_qt (v : unk -> R) (u : unk) : R :=
  match u with
  | UV b CX => - v (UV b CY) | UV b CY => v (UV b CX)
  | UH b CX => - v (UH b CY) | UH b CY => v (UH b CX)
  | UF b CX => - v (UF b CY) | UF b CY => v (UF b CX)
  | _ => v u
  end.

(** The flow seen by the system. *)
Definition sinks_qt (sk sk' : pt -> pt) : Prop := forall q, sk' (qt q) = qt (sk q).
Definition flux_qt (ff ff' : att RNum -> R) : Prop := forall a, ff' (att_qt a) = ff a.

(** A body held by another one has not slid along one axis while it is held fast
    along the other. *)
Definition stiff (S : sspace RNum) (b : sbody RNum) (c : comp) : Prop := isrigid (get c (Flow.Model.kspring (fb b))) || negb (late S) = true.
Definition not_slid (S : sspace RNum) (b : sbody RNum) : Prop :=
  root (fb b) <> None -> (stiff S b CX -> py (r3 (dpos (g_of b))) = 0) /\ (stiff S b CY -> px (r3 (dpos (g_of b))) = 0).
