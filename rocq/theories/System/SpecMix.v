(** Two flows about the same bodies, mixed. *)

From Coq Require Import ZArith Bool List Reals.
From Verif.Base Require Import Num.
From Verif.Matrix Require Import Model.
From Verif.Body Require Import Model Spec.
From Verif.Flow Require Import Model.
From Verif.System Require Import Model Spec.
Import ListNotations.
Local Open Scope R_scope.

Section Mix.
Variable m : R.
(** [m] parts of the second, [1 - m] of the first; any number will do. *)
Definition mix (a b : R) : R := (1 - m) * a + m * b.
Definition mix_pt (p q : pt) : pt := P (mix (px p) (px q)) (mix (py p) (py q)).
Definition mix_vec3 (p q : vec3 RNum) : vec3 RNum := @mkVec3 RNum (mix_pt (r3 p) (r3 q)) (mix (o3 p) (o3 q)).

(** The prescribed speed, the torque, the friction and what the dead vortices left
    are mixed. *)
Definition mix_body (a b : sbody RNum) : sbody RNum :=
  let f := fb a in let g := fb b in
  @mkSBody RNum
    (@mkFBody RNum (geo f) (segs f) (Flow.Model.kspring f) (cmin f) (cmax f) (mix_vec3 (own f) (own g)) (root f) (cond f)
      (mix_vec3 (fdt_dead f) (fdt_dead g)) (mix (g_dead f) (g_dead g)))
    (density a) (damping a) (bounce a) (mix (torque a) (torque b)) (special_ a) (kutta_ a)
    (mix_vec3 (force_holder a) (force_holder b)) (mix_vec3 (friction_prev a) (friction_prev b)).
Fixpoint mix_bodies (l l' : list (sbody RNum)) : list (sbody RNum) :=
  match l, l' with a :: t, b :: t' => mix_body a b :: mix_bodies t t' | _, _ => [] end.
Definition mix_system (S T : sspace RNum) : sspace RNum :=
  @mkSSpace RNum (mix_bodies (sbodies S) (sbodies T)) (late S) (dt S) (mix_pt (gravity S) (gravity T)) (mix_pt (inf_speed S) (inf_speed T))
    (mix (inf_g S) (inf_g T)) (mix (gfree S) (gfree T)).
Definition mix_unknowns (v w : unk -> R) (u : unk) : R := mix (v u) (w u).
End Mix.

(** Shape, place, last speed, mass and springs are the same. *)
Definition alike_body (a b : sbody RNum) : Prop :=
  geo (fb b) = geo (fb a) /\ Flow.Model.kspring (fb b) = Flow.Model.kspring (fb a) /\ root (fb b) = root (fb a) /\
  density b = density a /\ damping b = damping a /\ special_ b = special_ a /\ kutta_ b = kutta_ a.
Definition alike (S T : sspace RNum) : Prop := Forall2 alike_body (sbodies S) (sbodies T) /\ late T = late S /\ dt T = dt S.
