(** Model of the holders and springs vvplot draws: vvplot.cpp:410-425, TBody.hpp:124.
    An ostream prints a double as %g does. *)

From Coq Require Import ZArith Bool List String Ascii.
From Verif.Base Require Import Num.
From Verif.Print Require Import ModelInfo.
Import ListNotations.
Local Open Scope string_scope.

(** holder.r and dpos.r. *)
Record held := mkHeld { hx : f64; hy : f64; px : f64; py : f64 }.
Definition ax (b : held) : f64 := @nadd F64 (hx b) (px b).
Definition ay (b : held) : f64 := @nadd F64 (hy b) (py b).

Definition nl : string := String "010" "".
Definition holder_line (b : held) : string := num (hx b) ++ " " ++ num (hy b) ++ nl.
Definition spring_line (b : held) : string :=
  num (ax b) ++ " " ++ num (ay b) ++ " " ++ (num (@nsub F64 (hx b) (ax b)) ++ " " ++ num (@nsub F64 (hy b) (ay b))) ++ nl.
Definition body_holders (l : list held) : string := String.concat "" (map holder_line l).
Definition body_springs (l : list held) : string := String.concat "" (map spring_line l).
