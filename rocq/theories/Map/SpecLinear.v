(** The flow of sources and circulation spread along a moving wall, stated without
    the functions of ModelLinear.v. *)

From Coq Require Import Reals.
From Verif.Base Require Import Num.
From Verif.Body Require Import Model.
From Verif.Map Require Import Model Spec.
Local Open Scope R_scope.

(** [v] is the integral of [f] from 0 to 1. *)
Definition integral (f : R -> R) (v : R) : Prop :=
  exists F, (forall t, 0 <= t <= 1 -> derivable_pt_lim F t (f t)) /\ v = F 1 - F 0.
Definition vintegral (f : R -> rvec) (v : rvec) : Prop :=
  integral (fun t => x (f t)) (x v) /\ integral (fun t => y (f t)) (y v).

(** The point at the part [t] of the way along a segment. *)
Definition along (a : att RNum) (t : R) : rvec :=
  mkVec (K := RNum) (x (corner a) + t * x (dl a)) (y (corner a) + t * y (dl a)).
(** The flow at [p] of a source [q] and a circulation [g] at [s], times 2 pi. *)
Definition element (s : rvec) (q g : R) (p : rvec) : rvec :=
  mkVec (K := RNum) (((x p - x s) * q - (y p - y s) * g) / sq p s) (((y p - y s) * q + (x p - x s) * g) / sq p s).
(** What the part [t] of a wall of a moving body adds: the wall carries the
    circulation and the source that its speed at this place asks for. *)
Definition wall_element (b : rshape) (a : att RNum) (p : rvec) (t : R) : rvec :=
  let v := moves b (along a t) in let d := dl a in
  element (along a t) (y v * x d - x v * y d) (- (x v * x d + y v * y d)) p.
