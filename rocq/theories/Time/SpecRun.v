(** Specification side of the clock of a run, on real numbers. *)

From Coq Require Import ZArith QArith Qreals Reals.
From Flocq Require Import Core.Core IEEE754.BinarySingleNaN.
From Verif.Base Require Import Num F64.
From Verif.Time Require Import Model Spec.

(** [finish + dt/2], every operation rounded to a double; [dt] itself rounded
    from the rational it denotes. *)
Definition run_bound (dt : ttime) (finish : f64) : R :=
  rnd (B2R finish + rnd (rnd (Q2R (instant dt)) / 2)).
