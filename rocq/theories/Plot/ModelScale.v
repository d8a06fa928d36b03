(** Model of the colour scales of vvplot: vvplot.cpp:189-194 for the vorticity and
    285-296 for the velocity. *)

From Coq Require Import ZArith Bool List String.
From Flocq Require Import IEEE754.BinarySingleNaN.
From Verif.Base Require Import Num F32.
From Verif.Field Require Import Model.
From Verif.Print Require Import Model ModelInfo.
Import ListNotations.
Local Open Scope string_scope.

(** Lines 285-286. [None]: a map without nodes. *)
Definition limit (given : f64) (found : option f32) : option f64 :=
  if is_finite given then Some given else option_map f32_to_f64 found.

(** Lines 288-294. *)
Definition positions (lo hi : f64) : list f64 :=
  [@ndiv F64 lo (f64_ofZ 1); @ndiv F64 lo (f64_ofZ 3); f64_ofZ 0; @ndiv F64 hi (f64_ofZ 3); @ndiv F64 hi (f64_ofZ 1)].

(** The values in "set palette defined" and in "set cbrange", as printed; an
    ostream prints a double as %g does. *)
Definition velocity_scale (values : list f32) (umin umax : f64) : option (list string * (string * string)) :=
  match limit umin (field_min values), limit umax (field_max values) with
  | Some lo, Some hi => Some (map num (positions lo hi), (num lo, num hi))
  | _, _ => None
  end.

(** Lines 189-194; the palette goes from -Gmax to Gmax.  [None]: undefined. *)
Section Vorticity.
Variable partial_sort : (f32 -> f32 -> bool) -> nat -> list f32 -> list f32.
Definition low : f32 := f64_to_f32 (f64_dec 2 2).
Definition high : f32 := f64_to_f32 (f64_dec 98 2).
Definition vorticity_limit (values : list f32) (gmax : f64) : option f64 :=
  if @neqb F64 gmax (f64_ofZ 0) then
    match percentile partial_sort values low, percentile partial_sort values high with
    | PValue a, PValue b => Some (f32_to_f64 (if Bltb (Bopp a) b then b else Bopp a))
    | _, _ => None
    end
  else Some gmax.
End Vorticity.
