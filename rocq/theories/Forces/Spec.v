(** Forces on a wall over the reals. *)

From Coq Require Import Reals List.
From Verif.Base Require Import Num.
From Verif.Body Require Import Model.
From Verif.Forces Require Import Model.
Import ListNotations.
Local Open Scope R_scope.

Definition len (a : att RNum) : R := sqrt (x (dl a) * x (dl a) + y (dl a) * y (dl a)).

(** The force of friction on a segment: along it, of size fric/(pi re). *)
Definition force (pi re : R) (w : wall RNum) : R * R :=
  let k := - (fric w / (pi * re)) / len (seg w) in (k * x (dl (seg w)), k * y (dl (seg w))).

(** Moment about the point c. *)
Definition moment (c : R * R) (p f : R * R) : R :=
  (fst p - fst c) * snd f - (snd p - snd c) * fst f.

Fixpoint total {A} (f : A -> R) (l : list A) : R :=
  match l with [] => 0 | a :: tl => f a + total f tl end.

Definition centre (w : wall RNum) : R * R := (x (r (seg w)), y (r (seg w))).

Definition total_force (pi re : R) (l : list (wall RNum)) : R * R :=
  (total (fun w => fst (force pi re w)) l, total (fun w => snd (force pi re w)) l).
Definition total_moment (pi re : R) (c : R * R) (l : list (wall RNum)) : R :=
  total (fun w => moment c (centre w) (force pi re w)) l.
