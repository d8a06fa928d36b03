(** Two flows with the same particles and bodies, mixed. *)

From Coq Require Import ZArith Bool List Reals.
From Verif.Base Require Import Num.
From Verif.Body Require Import Model Spec.
From Verif.Vortex Require Import Model.
From Verif.Map Require Import Model SpecSimilar.
Import ListNotations.
Local Open Scope R_scope.

(** [l''] is made of the pairs of [l] and [l']. *)
Inductive all3 {A} (P : A -> A -> A -> Prop) : list A -> list A -> list A -> Prop :=
| all3_nil : all3 P [] [] []
| all3_cons a b c l l' l'' : P a b c -> all3 P l l' l'' -> all3 P (a :: l) (b :: l') (c :: l'').

(** [m] parts of the second, [1 - m] of the first; any number will do. *)
Definition blend (m a b : R) : R := (1 - m) * a + m * b.
Definition blend_pt (m : R) (p q : pnt) : pnt := @mkVec RNum (blend m (x p) (x q)) (blend m (y p) (y q)).

(** Same place and core; the strength is mixed. *)
Definition part_mixed (m : R) (a b c : part RNum) : Prop :=
  pr b = pr a /\ pr c = pr a /\ pe b = pe a /\ pe c = pe a /\ pg c = blend m (pg a) (pg b).
Definition wall_mixed (m : R) (a b c : @wall RNum) : Prop := seg b = seg a /\ seg c = seg a /\ wg c = blend m (wg a) (wg b).
Definition shape_mixed (m : R) (a b c : @shape RNum) : Prop :=
  all3 (wall_mixed m) (Map.Model.walls a) (Map.Model.walls b) (Map.Model.walls c) /\ axis b = axis a /\ axis c = axis a /\
  r3 (speed c) = blend_pt m (r3 (speed a)) (r3 (speed b)) /\ o3 (speed c) = blend m (o3 (speed a)) (o3 (speed b)).
(** The sources are the same. *)
Definition space_mixed (m : R) (S T U : @space RNum) : Prop :=
  all3 (shape_mixed m) (bodies S) (bodies T) (bodies U) /\ all3 (part_mixed m) (vortices S) (vortices T) (vortices U) /\
  sources T = sources S /\ sources U = sources S /\ dt T = dt S /\ dt U = dt S /\ flow U = blend_pt m (flow S) (flow T).

(** A body slower than [tiny] does not move at all. *)
Definition still (tiny : R) (b : @shape RNum) : Prop :=
  size1 (r3 (speed b)) + Rabs (o3 (speed b)) < tiny -> speed b = @mkVec3 RNum (@mkVec RNum 0 0) 0.
