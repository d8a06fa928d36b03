(** Model of [MConvectiveFast::SegmentInfluence_linear_source],
    libvvhd/src/MConvectiveFast.cpp:440-457, with [std::complex].

    Division of complex numbers is the textbook formula; the scaling of the
    compiler's library against overflow is left out. *)

From Coq Require Import ZArith Bool List.
From Verif.Base Require Import Num.
From Verif.Body Require Import Model.
From Verif.Vortex Require Import Model.
From Verif.Map Require Import Model.
Local Open Scope num_scope.

Section Linear.
Context {K : Num}.
Variables (lnf : K -> K) (atan2f : K -> K -> K).   (* libm *)

(** A complex number is kept as a vector: real part in x, imaginary in y. *)
Notation cplx := (vec K).
Definition conj (a : cplx) : cplx := mkVec (x a) (- y a).
Definition cmul (a b : cplx) : cplx := mkVec (x a * x b - y a * y b) (x a * y b + y a * x b).
Definition cdiv (a b : cplx) : cplx :=
  mkVec ((x a * x b + y a * y b) / abs2 b) ((y a * x b - x a * y b) / abs2 b).
Definition clog (a : cplx) : cplx := mkVec (lnf (vabs a)) (atan2f (y a) (x a)).

(** 440-457. *)
Definition linear_influence (p : vec K) (a : att K) (q1 q2 : K) : vec K :=
  let half := nofZ 1 / nofZ 2 in
  let zs1 := vsub (r a) (vscale (dl a) half) in                                           (* 446 *)
  let zs2 := vadd (r a) (vscale (dl a) half) in
  let z1 := vsub p zs1 in
  let z2 := vsub p zs2 in
  let w := cmul (cdiv (conj (vsub (vscale z1 q2) (vscale z2 q1))) (conj (dl a)))
                (clog (cdiv (conj z2) (conj z1))) in                                      (* 454 *)
  cdiv (mkVec (q2 - q1 - x w) (- y w)) (conj (dl a)).
End Linear.
