(** What the time class is expected to compute, stated on rational numbers. *)

From Coq Require Import ZArith QArith.
From Verif.Base Require Import Int.
From Verif.Time Require Import Model.

(** A well-formed time: fields in the range of their C++ types, and a
    non-zero timescale. *)
Definition wf_time (t : ttime) : Prop :=
  (is_i32 (value t) /\ 0 < timescale t < 2^32)%Z.

(** The instant denoted by a time: the rational value/timescale. *)
Definition instant (t : ttime) : Q := (inject_Z (value t) / inject_Z (timescale t))%Q.

(** Smallest common multiple of two positive integers, by its defining property. *)
Definition is_lcm (x y l : Z) : Prop :=
  (0 < l /\ (x | l) /\ (y | l) /\ forall m, (x | m) -> (y | m) -> (l | m))%Z.

(** [q] can be written over the timescale [l] with a 32-bit signed value. *)
Definition representable (q : Q) (l : Z) : Prop :=
  exists v : Z, is_i32 v /\ q == inject_Z v / inject_Z l.

(** [t] is an integer multiple of [d]. *)
Definition integer_multiple (t d : Q) : Prop := exists n : Z, t == inject_Z n * d.

(** The instant reached after [k] steps of [dt] from [t0]. *)
Definition after (t0 dt : ttime) (k : nat) : Q :=
  instant t0 + inject_Z (Z.of_nat k) * instant dt.
