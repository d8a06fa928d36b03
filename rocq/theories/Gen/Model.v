(** Model of the body generators: utils/vvflow/gen_*.cpp.

    Simplified: a Lua table is a list of keys and values, of a value only its
    conversion to a number is kept; memory is unbounded. *)

From Coq Require Import ZArith Bool List String Reals Ratan.
From Flocq Require Import Core.Core IEEE754.BinarySingleNaN.
From Verif.Base Require Import Num.
From Verif.Body Require Import Model.
Import ListNotations.
Local Open Scope num_scope.

(** What the generators take from <cmath> and <limits>, and the conversions
    of doubles to integers ([None]: undefined behaviour). *)
Record libm (K : Num) := mkLibm {
  lpi : K; lcos : K -> K; lsin : K -> K; ltan : K -> K; lasin : K -> K; lacos : K -> K;
  dblmin : K; dbleps : K; dblinf : K;
  to_i64 : K -> option Z;          (* (lua_Integer)x *)
  floor_size : K -> option nat     (* (size_t)floor(x) *)
}.
Arguments lpi {K} _. Arguments lcos {K} _. Arguments lsin {K} _. Arguments ltan {K} _.
Arguments lasin {K} _. Arguments lacos {K} _. Arguments dblmin {K} _. Arguments dbleps {K} _.
Arguments dblinf {K} _. Arguments to_i64 {K} _. Arguments floor_size {K} _.

(** A call ends with a value, a Lua error or undefined behaviour. *)
Inductive outcome (A : Type) := Ok (a : A) | Err (message : string) | Ub.
Arguments Ok {A} _. Arguments Err {A} _. Arguments Ub {A}.

Definition bind {A B} (m : outcome A) (f : A -> outcome B) : outcome B :=
  match m with Ok a => f a | Err e => Err e | Ub => Ub end.
Notation "' p <- m ;; k" := (bind m (fun p => k)) (at level 61, p pattern, m at next level, right associativity).

(** luaL_argcheck *)
Definition argcheck {A} (c : bool) (e : string) (k : outcome A) : outcome A := if c then k else Err e.

Inductive key := Name (s : string) | Other (n : nat).
Definition is_name (s : string) (k : key) : bool :=
  match k with Name s' => String.eqb s' s | Other _ => false end.

Section Gen.
Context {K : Num}.
Variable lib : libm K.
Notation vec := (vec K).
Notation "'#' z" := (nofZ z%Z : T K) (at level 0, z at level 0).

(** A table; values that are not numbers (nor strings holding one) are [None],
    keys set to nil are not in it. *)
Definition table := list (key * option K).

Definition field (s : string) (t : table) : option (option K) :=
  option_map snd (find (fun e => is_name s (fst e)) t).
Definition unset (s : string) (t : table) : table := filter (fun e => negb (is_name s (fst e))) t.

(** [get_param], gen_body.cpp:9-44.  [dflt = None] is the default NaN of
    gen_body.h:6-13. *)
Definition get_param (s : string) (range_err : string) (min max : K) (dflt : option K) (t : table) : outcome (K * table) :=
  let go (v : option K) :=
    match v with
    | None => Err ("'" ++ s ++ "' must be a number")%string
    | Some v =>
        if negb (nfinite v) then Err ("'" ++ s ++ "' must be finite")%string
        else if (v <? min) || (max <? v) then Err ("'" ++ s ++ "' must be " ++ range_err)%string
        else Ok (v, unset s t)
    end in
  match field s t, dflt with
  | Some v, _ => go v
  | None, Some d => Ok (d, t)
  | None, None => go None
  end.

(** The lines 13-22 of gen_cylinder.cpp, the same in gen_cylinder.cpp:53-62,
    gen_parallelogram.cpp:15-24, gen_ellipse.cpp:15-24, gen_plate.cpp:18-27,
    gen_savonius.cpp:14-23. *)
Definition get_n_dl (t : table) : outcome (Z * K * table) :=
  '(n, t) <- get_param "N" "positive" #1 #(2^63 - 1) (Some #0) t ;;
  '(n, t) <- match to_i64 lib n with Some n => Ok (n, t) | None => Ub end ;;
  '(d, t) <- get_param "dl" "positive" (dblmin lib) (dblinf lib) (Some #0) t ;;
  argcheck ((0 <? n)%Z || (#0 <? d)) "either 'N' or dl' must be specified" (
  argcheck (xorb (0 <? n)%Z (#0 <? d)) "'N' and 'dl' are mutually exclusive" (
  Ok (n, d, t))).

(** gen_cylinder.cpp:26-31 and the same lines of the others: lua_next on the
    rest of the table. *)
Definition no_excess {A} (t : table) (k : outcome A) : outcome A :=
  match t with
  | [] => k
  | (Name s, _) :: _ => Err ("excess parameter '" ++ s ++ "'")
  | (Other _, _) :: _ => Err "excess parameter"
  end%string.

(** [get_param] of a positive number without default. *)
Definition positive (s : string) (t : table) : outcome (K * table) :=
  get_param s "positive" (dblmin lib) (dblinf lib) None t.

(** * Pieces of the boundary *)

Definition V (a b : K) : vec := mkVec a b.

(** Calls of gen_seg_dl, gen_arc_dl and gen_arc_N; [slip] is the last argument. *)
Inductive piece :=
| Seg (p1 p2 : vec) (dl : K) (slip : bool)
| Arc (c : vec) (R a1 a2 dl : K) (slip : bool)
| ArcN (c : vec) (R a1 a2 : K) (n : nat) (slip : bool).

(** gen_seg_N, gen_body.cpp:46-57 *)
Definition seg_corner (p1 p2 : vec) (n i : nat) : vec :=
  vadd p1 (vdiv (vscale (vsub p2 p1) (nofZ (Z.of_nat i))) (nofZ (Z.of_nat n))).
(** gen_arc_N, gen_body.cpp:76-90 *)
Definition arc_corner (c : vec) (R a1 a2 : K) (n i : nat) : vec :=
  let ai := a1 + (a2 - a1) * nofZ (Z.of_nat i) / nofZ (Z.of_nat n) in
  vadd c (V (R * lcos lib ai) (R * lsin lib ai)).

(** gen_seg_dl, gen_body.cpp:59-74, and gen_arc_dl, 92-110: how many corners. *)
Definition count (p : piece) : option nat :=
  match p with
  | Seg p1 p2 dl _ => floor_size lib (vabs (vsub p2 p1) / dl + half)
  | Arc _ R a1 a2 dl _ => floor_size lib (R * nabs (a2 - a1) / dl + half)
  | ArcN _ _ _ _ n _ => Some n
  end.

Definition place (p : piece) (n i : nat) : vec :=
  match p with
  | Seg p1 p2 _ _ => seg_corner p1 p2 n i
  | Arc c R a1 a2 _ _ | ArcN c R a1 a2 _ _ => arc_corner c R a1 a2 n i
  end.
Definition slips (p : piece) : bool :=
  match p with Seg _ _ _ s | Arc _ _ _ _ _ s | ArcN _ _ _ _ _ s => s end.

(** The corners appended to the list by a sequence of calls. *)
Fixpoint make (l : list piece) : outcome (list (vec * bool)) :=
  match l with
  | [] => Ok []
  | p :: l =>
      match count p with
      | None => Ub
      | Some n => 'r <- make l ;; Ok (map (fun i => (place p n i, slips p)) (seq 0 n) ++ r)
      end
  end.

(** doUpdateSegments and doFillProperties after it. *)
Definition finish (l : list (vec * bool)) : body K :=
  refresh (dblinf lib) (set_alist (map (fun c => mkAtt (fst c) (snd c) vzero vzero #0) l) new).

(** * The generators *)

Definition zn (n : Z) : K := nofZ n.
Definition twopi : K := #2 * lpi lib.

(** gen_cylinder.cpp:33-38 *)
Definition cylinder_pieces (n : Z) (dl R : K) : list piece :=
  if #0 <? dl then [Arc (V #0 #0) R twopi #0 dl false] else [ArcN (V #0 #0) R twopi #0 (Z.to_nat n) false].

(** gen_cylinder.cpp:6-44 *)
Definition gen_cylinder (t : table) : outcome (list (vec * bool)) :=
  '(n, d, t) <- get_n_dl t ;;
  '(R, t) <- positive "R" t ;;
  no_excess t (make (cylinder_pieces n d R)).

(** The spacing when N is given. *)
Definition spacing (dl slen : K) (n : Z) : K := if dl =? #0 then slen / zn n else dl.

(** gen_cylinder.cpp:73-81 *)
Definition semicyl_pieces (n : Z) (dl R : K) : list piece :=
  let dl := spacing dl (lpi lib * R + #2 * R) n in
  [ Seg (V #0 #0) (V R #0) dl false;
    Arc (V #0 #0) R twopi (lpi lib) dl false;
    Seg (V (- R) #0) (V #0 #0) dl false ].

(** gen_cylinder.cpp:46-87 *)
Definition gen_semicyl (t : table) : outcome (list (vec * bool)) :=
  '(n, d, t) <- get_n_dl t ;;
  '(R, t) <- positive "R" t ;;
  no_excess t (make (semicyl_pieces n d R)).

(** gen_parallelogram.cpp:42-55 *)
Definition parallelogram_pieces (n : Z) (dl L H d : K) : list piece :=
  let alpha := d / #180 * lpi lib in
  let L2 := H / ltan lib alpha in
  let dl := spacing dl (#2 * (L + H / lsin lib alpha)) n in
  [ Seg (V L #0) (V #0 #0) dl false;
    Seg (V #0 #0) (V L2 H) dl false;
    Seg (V L2 H) (V (L + L2) H) dl false;
    Seg (V (L + L2) H) (V L #0) dl false ].

(** gen_parallelogram.cpp:6-62 *)
Definition gen_parallelogram (t : table) : outcome (list (vec * bool)) :=
  '(n, dl, t) <- get_n_dl t ;;
  '(L, t) <- positive "L" t ;;
  '(H, t) <- positive "H" t ;;
  '(d, t) <- get_param "d" "in range (0, 180)" (dblmin lib) (#180 * (#1 - dbleps lib)) (Some #0) t ;;
  no_excess t (make (parallelogram_pieces n dl L H d)).

(** gen_savonius.cpp:39-53 *)
Definition savonius_pieces (n : Z) (dl R h : K) : list piece :=
  let pi := lpi lib in
  let h2 := h / #2 in
  let dl := if (0 <? n)%Z then pi * (#4 * R + h) / zn n else dl in
  [ Arc (V R #0) (R - h2) pi twopi dl false;
    Arc (V (R * #2) #0) h2 pi #0 dl false;
    Arc (V R #0) (R + h2) twopi pi dl false;
    Arc (V (- R) #0) (R - h2) #0 pi dl false;
    Arc (V (- R * #2) #0) h2 twopi pi dl false;
    Arc (V (- R) #0) (R + h2) pi #0 dl false ].

(** gen_savonius.cpp:6-59 *)
Definition gen_savonius (t : table) : outcome (list (vec * bool)) :=
  '(n, dl, t) <- get_n_dl t ;;
  '(R, t) <- positive "R" t ;;
  '(h, t) <- positive "h" t ;;
  argcheck (h <? R) "'R' must be larger than 'h'" (
  no_excess t (make (savonius_pieces n dl R h))).

(** gen_box.cpp:37-54 *)
Definition box_pieces (dln dls L H D h d : K) : list piece :=
  let pi := lpi lib in
  let D2 := D / #2 + d / #2 in
  let L2 := L / #2 in
  [ Seg (V #0 H) (V (- L2) H) dls true;
    Seg (V (- L2) H) (V (- L2) #0) dls true;
    Seg (V (- L2) #0) (V (- D2) #0) dln false;
    Arc (V (- D2) (- d / #2)) (d / #2) (pi * #1 / #2) #0 dln false;
    Arc (V (- D2) (- d / #2)) (d / #2) #0 (- pi * #1 / #2) dln false;
    Seg (V (- D2) (- d)) (V (- L2 - h) (- d)) dls true;
    Seg (V (- L2 - h) (- d)) (V (- L2 - h) (H + h)) dls true;
    Seg (V (- L2 - h) (H + h)) (V (L2 + h) (H + h)) dls true;
    Seg (V (L2 + h) (H + h)) (V (L2 + h) (- d)) dls true;
    Seg (V (L2 + h) (- d)) (V D2 (- d)) dls true;
    Arc (V D2 (- d / #2)) (d / #2) (pi * #3 / #2) pi dln false;
    Arc (V D2 (- d / #2)) (d / #2) pi (pi * #1 / #2) dln false;
    Seg (V D2 #0) (V L2 #0) dln false;
    Seg (V L2 #0) (V L2 H) dls true;
    Seg (V L2 H) (V #0 H) dls true ].

(** gen_box.cpp:10-61 *)
Definition gen_box (t : table) : outcome (list (vec * bool)) :=
  '(dln, t) <- positive "dln" t ;;
  '(dls, t) <- positive "dls" t ;;
  '(L, t) <- positive "L" t ;;
  '(H, t) <- positive "H" t ;;
  '(D, t) <- get_param "D" "positive < L" (dblmin lib) (L * (#1 - dbleps lib)) None t ;;
  '(h, t) <- positive "h" t ;;
  '(d, t) <- get_param "d" "positive < L-D" (dblmin lib) ((L - D) * (#1 - dbleps lib)) None t ;;
  no_excess t (make (box_pieces dln dls L H D h d)).

(** gen_gis.cpp:29,32-33,43-58 *)
Definition gpj_y3 (R0 d X2 X3 : K) : K := R0 + (X3 - X2) * ltan lib (d * lpi lib / #180).
Definition gpj_pieces (dln dls R0 d X0 X1 X2 X3 L H : K) : list piece :=
  let pi := lpi lib in
  let Y3 := gpj_y3 R0 d X2 X3 in
  let X4 := X3 - L in
  let Y4 := H / #2 in
  let s := (Y4 - Y3) / #5 in
  let dls2 := if s <? dls then s else dls in
  [ Seg (V X4 (- Y4)) (V X4 Y4) dls true;
    Seg (V X4 Y4) (V X3 Y4) dls true;
    Seg (V X3 Y4) (V X3 Y3) dls2 true;
    Seg (V X3 Y3) (V X2 R0) dln false;
    Seg (V X2 R0) (V X1 R0) dln false;
    Seg (V X1 R0) (V X0 R0) dls true;
    Arc (V X0 #0) R0 (pi * #1 / #2) (pi * #3 / #2) dls true;
    Seg (V X0 (- R0)) (V X1 (- R0)) dls true;
    Seg (V X1 (- R0)) (V X2 (- R0)) dln false;
    Seg (V X2 (- R0)) (V X3 (- Y3)) dln false;
    Seg (V X3 (- Y3)) (V X3 (- Y4)) dls2 true;
    Seg (V X3 (- Y4)) (V X4 (- Y4)) dls true ].

(** gen_gis.cpp:6-65 *)
Definition gen_gpj (t : table) : outcome (list (vec * bool)) :=
  let e1 := #1 + dbleps lib in
  '(dln, t) <- positive "dln" t ;;
  '(dls, t) <- positive "dls" t ;;
  '(R0, t) <- positive "R0" t ;;
  '(d, t) <- get_param "d" "in range [0, 90)" #0 (#90 * (#1 - dbleps lib)) None t ;;
  '(X0, t) <- get_param "X0" "" (- dblinf lib) (dblinf lib) None t ;;
  '(X1, t) <- get_param "X1" ">= X0" X0 (dblinf lib) None t ;;
  '(X2, t) <- get_param "X2" ">= X1" X1 (dblinf lib) None t ;;
  '(X3, t) <- get_param "X3" ">= X2" X2 (dblinf lib) None t ;;
  '(L, t) <- get_param "L" "greater than chamber length" ((X3 - X0 + R0) * e1) (dblinf lib) None t ;;
  '(H, t) <- get_param "H" "greater than chamber width" (#2 * gpj_y3 R0 d X2 X3 * e1) (dblinf lib) None t ;;
  no_excess t (make (gpj_pieces dln dls R0 d X0 X1 X2 X3 L H)).

(** gen_plate.cpp:54-87 *)
Definition plate_pieces (n : Z) (dl R1 R2 L start stop gap : K) : list piece :=
  let pi := lpi lib in
  let alpha := lasin lib ((R2 - R1) / L) in
  let phi := pi / #2 + alpha in
  let dl := spacing dl (#2 * ((pi - phi) * R1 + phi * R2 + L * lcos lib alpha)) n in
  let r1 := R1 + start * (R2 - R1) in
  let r2 := R1 + stop * (R2 - R1) in
  let c1 := start * L in
  let c2 := stop * L in
  let gap := if dl <? gap then gap else dl in
  let '(phi1, phi2, r2) :=
    if stop =? #1 then (#0, phi, r2) else (pi, phi + lacos lib (r2 / (r2 + gap)), r2 + gap) in
  let on (c r : K) (a b : K) := vadd (V c #0) (vscale (V a b) r) in
  [ Arc (V c2 #0) r2 (- phi1) (- phi2) dl (stop <? #1);
    Seg (on c2 r2 (lcos lib phi2) (- lsin lib phi2)) (on c1 r1 (lcos lib phi) (- lsin lib phi)) dl false;
    Arc (V c1 #0) r1 (twopi - phi) pi dl (#0 <? start);
    Arc (V c1 #0) r1 pi phi dl (#0 <? start);
    Seg (on c1 r1 (lcos lib phi) (lsin lib phi)) (on c2 r2 (lcos lib phi2) (lsin lib phi2)) dl false;
    Arc (V c2 #0) r2 phi2 phi1 dl (stop <? #1) ].

(** gen_plate.cpp:6-94 *)
Definition gen_plate (t : table) : outcome (list (vec * bool)) :=
  '(n, dl, t) <- get_n_dl t ;;
  '(R1, t) <- get_param "R1" ">= 0" #0 (dblinf lib) None t ;;
  '(R2, t) <- get_param "R2" ">= 0" #0 (dblinf lib) None t ;;
  argcheck ((#0 <? R1) || (#0 <? R2)) "either 'R1' or 'R2' must be > 0" (
  '(L, t) <- positive "L" t ;;
  '(start, t) <- get_param "start" "in range [0, 1)" #0 (#1 - dbleps lib) (Some #0) t ;;
  '(stop, t) <- get_param "stop" "in range (0, 1]" (dblmin lib) #1 (Some #1) t ;;
  '(gap, t) <- get_param "gap" "positive" (dblmin lib) (dblinf lib) (Some #0) t ;;
  no_excess t (make (plate_pieces n dl R1 R2 L start stop gap))).

(** ** The ellipse, gen_ellipse.cpp *)

Definition sqr (v : K) : K := v * v.

(** Line 47: an angle of arc length [dl] at the angle [a]. *)
Definition ell_da (dl Rx Ry a : K) : K := dl / nsqrt (sqr (Rx * lsin lib a) + sqr (Ry * lcos lib a)).
Definition ell_next (dl Rx Ry a : K) : K :=
  let da1 := ell_da dl Rx Ry a in
  let da2 := ell_da dl Rx Ry (a + da1) in
  a + (da1 + da2) / #2.

(** Lines 44-50; [None] when the loop does not end within [fuel] turns. *)
Fixpoint semiell (fuel : nat) (dl Rx Ry stop a : K) : option (list K) :=
  match fuel with
  | O => None
  | S fuel => if a <? stop then option_map (cons a) (semiell fuel dl Rx Ry stop (ell_next dl Rx Ry a)) else Some []
  end.

(** Lines 56 and 61; [m] is the N of line 53. *)
Definition blend (s : list K) (m i : nat) : K :=
  let q := nofZ (Z.of_nat i) / nofZ (Z.of_nat m) in
  nth i s #0 * (#1 - q) + (lpi lib - nth (m - i) s #0) * q.

(** Lines 52-63.  For an empty list N is -1 and both loops are skipped. *)
Definition ell_corners (Rx Ry : K) (s : list K) : list (vec * bool) :=
  match s with
  | [] => []
  | _ =>
      let m := (List.length s - 1)%nat in
      map (fun i => let a := blend s m i in (V (Rx * lcos lib a) (- Ry * lsin lib a), false)) (seq 0 (S m)) ++
      map (fun i => let a := blend s m i in (V (- Rx * lcos lib a) (Ry * lsin lib a), false)) (seq 0 (S m))
  end.

(** Lines 36-41 *)
Definition ell_dl (n : Z) (dl Rx Ry : K) : K :=
  let h := sqr ((Rx - Ry) / (Rx + Ry)) in
  spacing dl (lpi lib * (Rx + Ry) * (#1 + #3 * h / (#10 + nsqrt (#4 - #3 * h)))) n.

(** gen_ellipse.cpp:7-69.  The loop of line 45 compares with pi minus the first
    angle; the answer [None] stands for a loop still running after [fuel] turns. *)
Definition gen_ellipse (fuel : nat) (t : table) : outcome (option (list (vec * bool))) :=
  '(n, dl, t) <- get_n_dl t ;;
  '(Rx, t) <- positive "Rx" t ;;
  '(Ry, t) <- get_param "Ry" "positive <= Rx" (dblmin lib) Rx None t ;;
  no_excess t (
  let dl := ell_dl n dl Rx Ry in
  argcheck (dl <? Ry / (#19 / #10)) "discretization too low" (
  let a0 := lasin lib (dl / (#2 * Ry)) in
  Ok (option_map (ell_corners Rx Ry) (semiell fuel dl Rx Ry (lpi lib - a0) a0)))).

End Gen.
Arguments table : clear implicits.
Arguments piece : clear implicits.

(** * Over doubles *)

(** (lua_Integer)x: truncation, undefined outside the range of the type. *)
Definition f64_to_i64 (x : f64) : option Z :=
  if is_finite x then
    let z := Btrunc x in
    if (- 2^63 <=? z)%Z && (z <? 2^63)%Z then Some z else None
  else None.

(** (size_t)floor(x): a negative floor is outside the range of the type. *)
Definition f64_floor_size (x : f64) : option nat :=
  if is_finite x then
    if Bltb x (f64_ofZ 0) then None
    else let z := Btrunc x in if (z <? 2^64)%Z then Some (Z.to_nat z) else None
  else None.

(** M_PI is the double 884279719003555 / 2^48. *)
Definition f64_pi : f64 := Bdiv mode_NE (f64_ofZ 884279719003555) (f64_ofZ (2^48)).
Definition f64_pow (e : Z) : f64 := binary_normalize 53 1024 Hprec64 Hmax64 mode_NE 1 e false.

(** The functions of libm are arguments. *)
Definition F64lib (cosf sinf tanf asinf acosf : f64 -> f64) : libm F64 :=
  mkLibm F64 f64_pi cosf sinf tanf asinf acosf (f64_pow (-1022)) (f64_pow (-52)) f64_inf f64_to_i64 f64_floor_size.

(** * Over the reals *)

(** [up x - 1] is the floor. *)
Definition R_floor (x : R) : Z := (up x - 1)%Z.
Definition R_to_i64 (x : R) : option Z :=
  let z := if Rle_dec 0 x then R_floor x else (- R_floor (- x))%Z in
  if (- 2^63 <=? z)%Z && (z <? 2^63)%Z then Some z else None.
Definition R_floor_size (x : R) : option nat :=
  let z := R_floor x in if (0 <=? z)%Z && (z <? 2^64)%Z then Some (Z.to_nat z) else None.

(** No infinity among the reals: the bound of the finite doubles. *)
Definition Rlib : libm RNum :=
  mkLibm RNum PI cos sin tan asin acos (bpow radix2 (-1022)) (bpow radix2 (-52)) (bpow radix2 1024) R_to_i64 R_floor_size.
