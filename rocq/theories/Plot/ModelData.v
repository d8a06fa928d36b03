(** Model of the points vvplot hands to gnuplot: vvplot.cpp:308-312 (vortices),
    395-408 (outlines of bodies), and of their colours: 154-162.  The bytes of a
    float are not modelled. *)

From Coq Require Import ZArith Bool List.
From Flocq Require Import IEEE754.BinarySingleNaN.
From Verif.Base Require Import Num F32.
Import ListNotations.

Definition point (p : f64 * f64) : f32 * f32 := (f64_to_f32 (fst p), f64_to_f32 (snd p)).

(** [None]: front() of an empty list, vvplot.cpp:402. *)
Definition outline (corners : list (f64 * f64)) : option (list (f32 * f32)) :=
  match corners with
  | [] => None
  | first :: _ => Some (map point corners ++ [point first])
  end.

(** A vortex: place and circulation. *)
Record vortex := mkVortex { place : f64 * f64; circulation : f64 }.
Definition vortex_row (v : vortex) : (f32 * f32) * f32 := (point (place v), f64_to_f32 (circulation v)).
Definition vortex_rows (l : list vortex) : list ((f32 * f32) * f32) := map vortex_row l.

(** The gnuplot function color(x). *)
Definition color (gray : bool) (x : f32) : Z :=
  if gray then if Bltb (B754_zero false) x then 16777215 else 0
  else if Bltb (B754_zero false) x then 16711680 else 255.
