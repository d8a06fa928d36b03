(** The same state seen by an observer in uniform motion. *)

From Coq Require Import ZArith Bool List Reals.
From Verif.Base Require Import Num.
From Verif.Matrix Require Import Model.
From Verif.Body Require Import Model Spec.
From Verif.Flow Require Import Model.
From Verif.System Require Import Model Spec.
Import ListNotations.
Local Open Scope R_scope.

(** All speeds grow by [u]: the flow at infinity, the speeds of the bodies and the
    prescribed speeds of the bodies held by nobody; the prescribed speed of a body
    held by another one is relative to that body. *)
Definition faster (u : pt) (s : vec3 RNum) : vec3 RNum := @mkVec3 RNum (P (px (r3 s) + px u) (py (r3 s) + py u)) (o3 s).
Definition seen_geo (u : pt) (g : body RNum) : body RNum :=
  @mkBody RNum (alist g) (holder g) (dpos g) (faster u (speed_slae g)) (faster u (speed_slae_prev g)) (slip_ g) (slen g)
    (area g) (cofm g) (moi g) (disc_r2 g) (rect_bl g) (rect_tr g) (heat_layer g).
Definition seen_fb (u : pt) (f : fbody RNum) : fbody RNum :=
  @mkFBody RNum (seen_geo u (geo f)) (segs f) (Flow.Model.kspring f) (cmin f) (cmax f)
    (match root f with None => faster u (own f) | Some _ => own f end) (root f) (cond f) (fdt_dead f) (g_dead f).
Definition seen_body (u : pt) (b : sbody RNum) : sbody RNum :=
  @mkSBody RNum (seen_fb u (fb b)) (density b) (damping b) (bounce b) (torque b) (special_ b) (kutta_ b) (force_holder b) (friction_prev b).
Definition seen (u : pt) (S : sspace RNum) : sspace RNum :=
  @mkSSpace RNum (map (seen_body u) (sbodies S)) (late S) (dt S) (gravity S)
    (P (px (inf_speed S) + px u) (py (inf_speed S) + py u)) (inf_g S) (gfree S).

(** The unknowns: circulations and forces as they are, speeds grown by [u]. *)
Definition seen_unknowns (u : pt) (v : unk -> R) (w : unk) : R :=
  match w with UV _ CX => v w + px u | UV _ CY => v w + py u | _ => v w end.

(** No body on a spring along x or y has damping there. *)
Definition undamped (S : sspace RNum) : Prop :=
  forall b c, In b (sbodies S) -> c <> CO -> isrigid (K:=RNum) (get c (Flow.Model.kspring (fb b))) = true \/ get c (damping b) = 0.
