(** What the far field is compared with. *)

From Coq Require Import ZArith Bool List Reals.
From Verif.Base Require Import Num.
From Verif.Body Require Import Model Spec.
From Verif.Tree Require Import Model.
From Verif.Vortex Require Import Model.
Import ListNotations.
Local Open Scope R_scope.

(** Velocity at [p] of point vortices, all of them one by one. *)
Definition induced (l : list (part RNum)) (p : vec RNum) : vec RNum :=
  let q (o : part RNum) := (x p - x (pr o)) * (x p - x (pr o)) + (y p - y (pr o)) * (y p - y (pr o)) in
  @mkVec RNum (total (fun o : part RNum => - pg o * (y p - y (pr o)) / q o) l / (2 * PI))
              (total (fun o : part RNum => pg o * (x p - x (pr o)) / q o) l / (2 * PI)).

Definition strength (l : list (part RNum)) : R := total (fun o : part RNum => Rabs (pg o)) l.

Definition apart (a b : vec RNum) : R := sqrt ((x a - x b) * (x a - x b) + (y a - y b) * (y a - y b)).

(** The point is in the box of the node. *)
Definition inside (n : node RNum) (p : vec RNum) : Prop :=
  Rabs (x p - nx n) <= nw n / 2 /\ Rabs (y p - ny n) <= nh n / 2.

(** Distance of the centres of two boxes, and half their perimeters together. *)
Definition gap (n m : node RNum) : R := sqrt ((nx n - nx m) * (nx n - nx m) + (ny n - ny m) * (ny n - ny m)).
Definition sizes (n m : node RNum) : R := nh n + nw n + nh m + nw m.
