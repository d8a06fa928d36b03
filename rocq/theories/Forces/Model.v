(** Model of [Space::calc_forces], libvvhd/src/TSpace.cpp:94-120, and of the parts of
    [Space::zero_forces] (122-143) that concern it. *)

From Coq Require Import ZArith Bool List.
From Verif.Base Require Import Num.
From Verif.Body Require Import Model.
Import ListNotations.
Local Open Scope num_scope.

Section Forces.
Context {K : Num}.
Variable pi : K.                (* M_PI *)

(** The sums of a segment, TBody.hpp:31-36. *)
Record wall := mkWall { seg : att K; gsum : K; fric : K; hsum : K; cp : K; fr : K; nu : K }.
Record fbody := mkF { walls : list wall; friction : vec3 K; friction_prev : vec3 K; nusselt : K }.

(** Lines 104-114 for the segments from one on.  [t] is [tmp_gsum]. *)
Fixpoint forces_loop (re pr dt : K) (t : K) (f : vec3 K) (n : K) (l : list wall) : list wall * vec3 K * K :=
  match l with
  | [] => ([], f, n)
  | w :: tl =>
    let s := seg w in
    let t' := t + gsum w in                                                              (* 106 *)
    let w' := mkWall s (gsum w) (fric w) (hsum w)
      (cp w + t')                                                                        (* 107 *)
      (fr w + fric w * (dt / (pi * re)))                                                 (* 96, 108 *)
      (nu w + hsum w * (re * pr / vabs (dl s))) in                                       (* 109 *)
    let c := fric w * (nofZ 1 / (pi * re)) / vabs (dl s) in                              (* 97 *)
    let f' := mkVec3 (vsub (r3 f) (vscale (dl s) c)) (o3 f - dot (rotl (r s)) (dl s) * c) in   (* 111-112 *)
    let n' := n + hsum w * (re * pr) in                                                  (* 113 *)
    let '(rest, f'', n'') := forces_loop re pr dt t' f' n' tl in
    (w' :: rest, f'', n'')
  end.

(** Lines 98-118. *)
Definition calc_forces (re pr dt : K) (b : fbody) : fbody :=
  let '(l, f, n) := forces_loop re pr dt (nofZ 0) (mkVec3 vzero (nofZ 0)) (nusselt b) (walls b) in
  mkF l f (friction_prev b) (n / dt).

(** Lines 122-143. *)
Definition zero_forces (b : fbody) : fbody :=
  mkF (map (fun w => mkWall (seg w) (nofZ 0) (nofZ 0) (nofZ 0) (cp w) (fr w) (nu w)) (walls b))
    (mkVec3 vzero (nofZ 0)) (friction b) (nofZ 0).
End Forces.
Arguments wall : clear implicits.
Arguments fbody : clear implicits.
