(** Model of %.plf as C11 7.21.6.1 defines it, rounding to the nearest with ties
    to even, and of the texts vvplot makes with it: vvplot.cpp:165 (the time),
    195-196, 237-238, 297-298 (the ends of the colour scale), 325, 430, 436 and
    442 (the sizes of circles and arrows). *)

From Coq Require Import ZArith Bool List String Ascii.
From Verif.Base Require Import Num.
From Verif.Print Require Import Model.
Import ListNotations.
Local Open Scope string_scope.
Local Open Scope Z_scope.

(** The places before the point. *)
Definition whole (n : Z) : list Z := digits (S (Z.to_nat (size10 (Z.to_nat (Z.log2 n + 1)) n))) n.

Definition show_f (p : nat) (x : number) : string :=
  match x with
  | NaN s => minus s ++ "nan"
  | Inf s => minus s ++ "inf"
  | Zero s => minus s ++ mantissa [0] (repeat 0 p)
  | Fin s m d =>
      let n := round_even (Zpos m * 10 ^ Z.of_nat p) (Zpos d) in
      minus s ++ mantissa (whole (n / 10 ^ Z.of_nat p)) (digits p (n mod 10 ^ Z.of_nat p))
  end.

Definition quote : string := String """" "".
Definition time_label (t : f64) : string := "set label " ++ quote ++ "t = " ++ show_f 6 (of_double t) ++ quote ++ " at graph 0.05, 0.90 front".
Definition end_label (v : f64) : string := quote ++ show_f 1 (of_double v) ++ quote.
Definition vortex_circles (vcirc : f64) : string := " u 1:2:(" ++ show_f 6 (of_double vcirc) ++ "):(color($3))".
Definition holder_circles (vcirc : f64) : string := " u 1:2:(1.5*" ++ show_f 6 (of_double vcirc) ++ ")".
Definition spring_heads (vcirc : f64) : string := " head size " ++ show_f 6 (of_double (@nmul F64 vcirc (f64_ofZ 3))) ++ ",135".
