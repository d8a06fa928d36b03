(** What a field is expected to be and to return. *)
From Coq Require Import ZArith Bool List Reals Permutation.
From Flocq Require Import Core.Core IEEE754.BinarySingleNaN.
From Verif.Base Require Import Num.
From Verif.Field Require Import Model.
Import ListNotations.
Local Open Scope Z_scope.

(** A field of [xres] by [yres] 32-bit values. *)
Definition wf_field (F : field) : Prop :=
  2 <= xres F /\ 2 <= yres F /\ Z.of_nat (length (map_ F)) = xres F * yres F /\
  Forall (fun w => 0 <= w < 2 ^ 32) (map_ F).

(** The order statistic: [x] is one of [l] and is its [k]-th smallest
    (largest) element, counted from 1. *)
Definition kth_smallest (k : nat) (l : list f32) (x : f32) : Prop :=
  In x l /\
  (length (filter (fun y => Bltb y x) l) < k)%nat /\
  (k <= length (filter (fun y => Bleb y x) l))%nat.
Definition kth_largest (k : nat) (l : list f32) (x : f32) : Prop :=
  In x l /\
  (length (filter (fun y => Bltb x y) l) < k)%nat /\
  (k <= length (filter (fun y => Bleb x y) l))%nat.

(** What the C++ standard promises of std::partial_sort for a strict weak
    order: a permutation whose first [n] elements are ordered, no later
    element being before one of them. *)
Definition partial_sort_contract (ps : (f32 -> f32 -> bool) -> nat -> list f32 -> list f32) : Prop :=
  forall cmp n v, (n <= length v)%nat ->
    (forall x y z, In x v -> In y v -> In z v ->
       cmp x x = false /\ (cmp x y = true -> cmp y z = true -> cmp x z = true) /\
       (cmp x y = false -> cmp y z = false -> cmp x z = false)) ->
    Permutation v (ps cmp n v) /\
    (forall i j a b, (i < j)%nat -> (i < n)%nat ->
       nth_error (ps cmp n v) i = Some a -> nth_error (ps cmp n v) j = Some b -> cmp b a = false).
