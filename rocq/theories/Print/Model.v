(** Model of printed numbers: the conversions %lg (vvxtract.cpp:92-168,
    sensors.cpp:62-66, vvplot.cpp:137-138) and %+.6le (vvxtract.cpp:243) as
    C11 7.21.6.1 defines them, rounding to the nearest with ties to even, and the
    texts made of them by lua_tvec.cpp:19-23, lua_tvec3d.cpp:10-14 and
    lua_tobj.cpp:7-11.  lua_pushfstring prints %f with LUAI_NUMFFORMAT, which is
    %.14g. *)

From Coq Require Import ZArith Bool List String Ascii.
From Flocq Require Import IEEE754.BinarySingleNaN.
From Verif.Base Require Import Num.
Import ListNotations.
Local Open Scope string_scope.
Local Open Scope Z_scope.

(** A number: [Fin neg m d] is m/d or -m/d. *)
Inductive number := NaN (neg : bool) | Inf (neg : bool) | Zero (neg : bool) | Fin (neg : bool) (m d : positive).

(** The sign of a NaN is not modelled by [f64]. *)
Definition of_double (x : f64) : number :=
  match x with
  | B754_zero s => Zero s
  | B754_infinity s => Inf s
  | B754_nan => NaN false
  | B754_finite s m (Zpos e) _ => Fin s (m * 2 ^ e) 1
  | B754_finite s m (Zneg e) _ => Fin s m (2 ^ e)
  | B754_finite s m Z0 _ => Fin s m 1
  end.

(** [k] decimal digits of [n], the last one last. *)
Fixpoint digits (k : nat) (n : Z) : list Z :=
  match k with O => [] | S k => (digits k (n / 10) ++ [n mod 10])%list end.

(** The number of digits of [n] without the first. *)
Fixpoint size10 (fuel : nat) (n : Z) : Z :=
  match fuel with O => 0 | S f => if n <? 10 then 0 else 1 + size10 f (n / 10) end.
Definition log10 (n : positive) : Z := size10 (Pos.size_nat n) (Zpos n).

(** m/d * 10^k as numerator and denominator. *)
Definition scale (m d : positive) (k : Z) : Z * Z :=
  if 0 <=? k then (Zpos m * 10 ^ k, Zpos d) else (Zpos m, Zpos d * 10 ^ (- k)).

Definition round_even (a b : Z) : Z :=
  let q := a / b in
  let r := a mod b in
  if 2 * r <? b then q else if b <? 2 * r then q + 1 else if Z.even q then q else q + 1.

(** The place of the first digit of m/d. *)
Definition exponent (m d : positive) : Z :=
  let k := log10 m - log10 d in
  let '(a, b) := scale m d (- k) in
  if b <=? a then k else k - 1.

(** [p] digits and the place of the first one. *)
Definition significant (p : nat) (m d : positive) : Z * Z :=
  let e := exponent m d in
  let '(a, b) := scale m d (Z.of_nat p - 1 - e) in
  let n := round_even a b in
  if n =? 10 ^ Z.of_nat p then (10 ^ (Z.of_nat p - 1), e + 1) else (n, e).

Definition strip (l : list Z) : list Z :=
  fold_right (fun d r => match r with [] => if d =? 0 then [] else [d] | _ => d :: r end) [] l.

Definition char (d : Z) : ascii := ascii_of_nat (48 + Z.to_nat d).
Definition text (l : list Z) : string := fold_right (fun d s => String (char d) s) "" l.
Definition minus (s : bool) : string := if s then "-" else "".
Definition plus (s : bool) : string := if s then "-" else "+".

Definition mantissa (ip fp : list Z) : string := text ip ++ match fp with [] => "" | _ => "." ++ text fp end.
Definition power (e : Z) : string :=
  "e" ++ plus (e <? 0) ++ text (digits (Nat.max 2 (S (Z.to_nat (size10 (Z.to_nat (Z.abs e)) (Z.abs e))))) (Z.abs e)).

(** %.pg *)
Definition show_g (p : nat) (x : number) : string :=
  match x with
  | NaN s => minus s ++ "nan"
  | Inf s => minus s ++ "inf"
  | Zero s => minus s ++ "0"
  | Fin s m d =>
      let '(n, e) := significant p m d in
      let l := digits p n in
      minus s ++
      (if (-4 <=? e) && (e <? Z.of_nat p)
       then if 0 <=? e
            then mantissa (firstn (Z.to_nat (e + 1)) l) (strip (skipn (Z.to_nat (e + 1)) l))
            else mantissa [0] (strip (repeat 0 (Z.to_nat (- e - 1)) ++ l))
       else mantissa (firstn 1 l) (strip (skipn 1 l)) ++ power e)
  end.

(** %+.pe *)
Definition show_e (p : nat) (x : number) : string :=
  match x with
  | NaN s => plus s ++ "nan"
  | Inf s => plus s ++ "inf"
  | Zero s => plus s ++ mantissa [0] (repeat 0 p) ++ power 0
  | Fin s m d =>
      let '(n, e) := significant (S p) m d in
      let l := digits (S p) n in
      plus s ++ mantissa (firstn 1 l) (skipn 1 l) ++ power e
  end.

Definition lua_number : number -> string := show_g 14.
Definition show_vec (x y : number) : string := "TVec(" ++ lua_number x ++ "," ++ lua_number y ++ ")".
Definition show_vec3 (x y o : number) : string := "TVec3D(" ++ lua_number x ++ "," ++ lua_number y ++ "," ++ lua_number o ++ ")".
Definition show_obj (x y g : number) : string := "TObj(" ++ lua_number x ++ "," ++ lua_number y ++ "," ++ lua_number g ++ ")".
