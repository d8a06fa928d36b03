(** What the properties of the particle methods refer to. *)

From Coq Require Import ZArith Bool List Reals Permutation.
From Verif.Base Require Import Num.
From Verif.Body Require Import Model Spec.
From Verif.Vortex Require Import Model.
Import ListNotations.

(** The comparison is a strict weak order, below [big] also a total one. *)
Definition ordered {K : Num} (big : K) : Prop :=
  (forall a b c : K, nltb a b = true -> nltb b c = true -> nltb a c = true) /\
  (forall a b : K, nltb a b = true -> nltb b a = false) /\
  (forall a b c : K, nltb a big = true -> nltb b big = true -> nltb c big = true ->
     nltb a b = false -> nltb b c = false -> nltb a c = false).

(** The neighbours of particle [i]: the others with circulation, no farther than
    the largest number, with their squared distances. *)
Definition neighbours {K : Num} (big : K) (nb : list nat) (vs : list (part K)) (i : nat) : list (nat * K) :=
  flat_map (fun j =>
    match nth_error vs i, nth_error vs j with
    | Some a, Some b =>
        if neqb (pg b) (nofZ 0) || Nat.eqb i j then []
        else if nltb (dist2 (pr a) (pr b)) big then [(j, dist2 (pr a) (pr b))] else []
    | _, _ => []
    end) nb.

(** [a] and [b] are the two nearest of [l], [a] the nearest. *)
Definition two_nearest {K : Num} (l : list (nat * K)) (a b : nat * K) : Prop :=
  exists rest, Permutation l (a :: b :: rest) /\ nltb (snd b) (snd a) = false /\
    forall c, In c rest -> nltb (snd c) (snd b) = false.

(** Nearest, second nearest or default. *)
Definition second_distance {K : Num} (tiny : K) (l : list (nat * K)) (e : K) : Prop :=
  (l = [] /\ e = tiny) \/ (exists a, l = [a] /\ e = nsqrt (snd a)) \/
  (exists a b, two_nearest l a b /\ e = nsqrt (snd b)).

Local Open Scope R_scope.

(** ** Circulation *)

Definition circulation (l : list (part RNum)) : R := total (fun o : part RNum => pg o) l.
Definition moment_x (l : list (part RNum)) : R := total (fun o : part RNum => x (pr o) * pg o) l.
Definition moment_y (l : list (part RNum)) : R := total (fun o : part RNum => y (pr o) * pg o) l.
Definition alive (l : list (part RNum)) : nat := length (filter (fun o : part RNum => negb (Reqb (pg o) 0)) l).
