(** Model of the levels of the streamlines and isobars of vvplot:
    vvplot.cpp:247, 366-373 and 550-557, optparse.cpp:237-240. *)

From Coq Require Import ZArith Bool List.
From Flocq Require Import IEEE754.BinarySingleNaN.
From Verif.Base Require Import Num F32.
From Verif.Field Require Model.
From Verif.Isoline Require Import Model.
Import ListNotations.

(** What XIsoline gets: Smin, Smax, Sstep.  [values] is the map of the stream
    function; [None]: a map without nodes. *)
Definition steps (values : list f32) (smin smax sstep : f64) : option (f64 * f64 * f64) :=
  if @nltb F64 (f64_ofZ 0) sstep then Some (smin, smax, sstep)
  else match Field.Model.field_min values, Field.Model.field_max values with
       | Some a, Some b =>
           let lo := f32_to_f64 a in
           let hi := f32_to_f64 b in
           Some (lo, hi, @ndiv F64 (@nsub F64 hi lo) (f64_ofZ 33))
       | _, _ => None
       end.

(** [Aborts]: XIsoline throws (XIsoline.cpp:29-36) and nothing in vvplot catches it.
    [Running]: not ended after [fuel] levels. *)
Inductive drawing := Undefined | Aborts | Running | Drawn (lv : list f64).

Definition streamlines (fuel : nat) (values : list f32) (smin smax sstep : f64) : drawing :=
  match steps values smin smax sstep with
  | None => Undefined
  | Some (lo, hi, dv) =>
      if accepts lo hi dv
      then match levels fuel lo hi dv with Some lv => Drawn lv | None => Running end
      else Aborts
  end.

(** Which ranges the option --pressure takes (optparse.cpp:237-240, after sscanf). *)
Definition takes_range (pmin pmax : f64) : bool := is_finite pmin && is_finite pmax && @nleb F64 pmin pmax.

(** The isobars (vvplot.cpp:247): always 33 steps. *)
Definition isobars (fuel : nat) (pmin pmax : f64) : drawing :=
  let dv := @ndiv F64 (@nsub F64 pmax pmin) (f64_ofZ 33) in
  if accepts pmin pmax dv
  then match levels fuel pmin pmax dv with Some lv => Drawn lv | None => Running end
  else Aborts.
