(** Model of [class XField], libvvhd/src/XField.cpp and headers/XField.hpp. *)

From Coq Require Import ZArith Bool List.
From Flocq Require Import IEEE754.BinarySingleNaN.
From Verif.Base Require Import Num F32 Bytes.
Import ListNotations.
Local Open Scope Z_scope.

(** An evaluated field, XField.hpp:52-58.  [map] is kept as bit patterns: the
    code copies its elements without arithmetic.  [gaps] are not read by the
    functions below. *)
Record field := mkField {
  xmin : f32; ymin : f32; dxdy : f32;
  xres : Z; yres : Z;
  map_ : list Z
}.

(** XField.hpp:37-39 — [at]; [None] outside the array. *)
Definition at_ (F : field) (xi yj : Z) : option Z :=
  let k := yj * xres F + xi in
  if 0 <=? k then nth_error (map_ F) (Z.to_nat k) else None.

(** * Writing, XField.cpp:124-153 *)

Definition zseq (n : Z) : list nat := seq 0 (Z.to_nat n).

(** Line 133: [field.xmin + field.dxdy*xi] in float. *)
Definition node (o d : f32) (i : nat) : f32 := f32_add o (f32_mul d (f32_ofZ (Z.of_nat i))).

Definition row (F : field) (yj : nat) : list Z :=
  firstn (Z.to_nat (xres F)) (skipn (yj * Z.to_nat (xres F)) (map_ F)).

Definition words (F : field) : list Z :=
  word_of_f32 (f32_ofZ (xres F))                                            (* 130-131 *)
  :: map (fun xi => word_of_f32 (node (xmin F) (dxdy F) xi)) (zseq (xres F)) (* 132-138 *)
  ++ flat_map (fun yj => word_of_f32 (node (ymin F) (dxdy F) yj) :: row F yj) (zseq (yres F)). (* 140-150 *)

Definition write (F : field) : list Z := flat_map bytes_of_word (words F).

(** * Parsing, XField.cpp:27-72 *)

Inductive result :=
| Thrown                 (* std::invalid_argument *)
| OutOfRange             (* a read outside the string: undefined *)
| BadCast                (* float to int conversion out of range: undefined *)
| Unmodelled             (* strings over 4 GB, where int indices may overflow *)
| Parsed (F : field).

(** [data[k]]: the k-th float of the string, [None] when it is not inside. *)
Definition data (s : list Z) (k : Z) : option Z :=
  if 0 <=? k then
    let n := (4 * Z.to_nat k)%nat in
    match nth_error s n, nth_error s (n + 1), nth_error s (n + 2), nth_error s (n + 3) with
    | Some a, Some b, Some c, Some d => Some (word_of_bytes a b c d)
    | _, _, _, _ => None
    end
  else None.

(** Line 41: [fmod(N,1) != 0] negated, for a finite N. *)
Definition integral (x : f32) : bool := Beqb (f32_ofZ (Btrunc x)) x.

(** Line 53, taken with the [double] overload of [fabs];
    [std::min(a,b)] is [b<a ? b : a]. *)
Definition bad_spacing (dx dy : f32) : bool :=
  let ax := Babs (f32_to_f64 dx) in
  let ay := Babs (f32_to_f64 dy) in
  let m := if Bltb ay ax then ay else ax in
  Bltb (@ndiv F64 m (f64_ofZ 1000)) (Babs (f32_to_f64 (f32_sub dx dy))).

(** All of [l] or nothing. *)
Fixpoint sequence {A} (l : list (option A)) : option (list A) :=
  match l with
  | [] => Some []
  | Some a :: t => match sequence t with Some r => Some (a :: r) | None => None end
  | None :: _ => None
  end.

Definition parse (s : list Z) : result :=
  let size := Z.of_nat (length s) in
  if negb (size mod 4 =? 0) then Thrown                                   (* 34-35 *)
  else if size <? 36 then Thrown                                          (* 36-37 *)
  else if 2 ^ 32 <? size then Unmodelled
  else match data s 0 with
  | None => OutOfRange
  | Some w =>
    let N := f32_of_word w in                                             (* 40 *)
    if negb (is_finite N) || Bleb N (f32_ofZ 1) || negb (integral N) then Thrown  (* 41-44 *)
    else if 2 ^ 31 <=? Btrunc N then BadCast
    else
    let xr := Btrunc N in                                                 (* 46 *)
    let yr := size / 4 / (xr + 1) - 1 in                                  (* 47 *)
    if negb (size =? 4 * (xr + 1) * (yr + 1)) then Thrown                 (* 48-49 *)
    else match data s 1, data s 2, data s (2 * (xr + 1)), data s (xr + 1) with
    | Some w1, Some w2, Some wb, Some wa =>
      let dx := f32_sub (f32_of_word w2) (f32_of_word w1) in              (* 51 *)
      let dy := f32_sub (f32_of_word wb) (f32_of_word wa) in              (* 52 *)
      if bad_spacing dx dy then Thrown                                    (* 53-58 *)
      else match sequence (flat_map (fun yj => map (fun xi =>
                   data s ((Z.of_nat yj + 1) * (xr + 1) + (Z.of_nat xi + 1)))
                 (zseq xr)) (zseq yr)) with                               (* 63-70 *)
           | Some m => Parsed (mkField (f32_of_word w1) (f32_of_word wa) dx xr yr m)
           | None => OutOfRange
           end
    | _, _, _, _ => OutOfRange
    end
  end.

(** * min, max, percentile *)

(** std::min_element: the first of the smallest, by [<]. *)
Definition min_element (best : f32) (l : list f32) : f32 :=
  fold_left (fun b x => if Bltb x b then x else b) l best.
Definition max_element (best : f32) (l : list f32) : f32 :=
  fold_left (fun b x => if Bltb b x then x else b) l best.

(** XField.cpp:79-93; [None]: dereference of the end of an empty array. *)
Definition field_min (l : list f32) : option f32 :=
  match l with [] => None | x :: t => Some (min_element x t) end.
Definition field_max (l : list f32) : option f32 :=
  match l with [] => None | x :: t => Some (max_element x t) end.

(** XField.cpp:97-122.  [partial_sort cmp n v] stands for std::partial_sort;
    what the C++ standard promises of it is a hypothesis of the theorems.
    [x != 0] is true for NaN. *)
Inductive percentile_result :=
| PThrown
| PUndefined        (* v[N-1] with N = 0 *)
| PValue (x : f32).

(** Line 119: [std::floor(v.size()*p)]: size_t to float, float product. *)
Definition rank (n : nat) (p : f32) : Z := Btrunc (f32_mul (f32_ofZ (Z.of_nat n)) p).

Section Percentile.
Variable partial_sort : (f32 -> f32 -> bool) -> nat -> list f32 -> list f32.

Definition lt (x y : f32) : bool := Bltb x y.
Definition gt (x y : f32) : bool := Bltb y x.
Definition nonzero (x : f32) : bool := negb (Beqb x (f32_ofZ 0)).
Definition half : f32 := f32_div (f32_ofZ 1) (f32_ofZ 2).

Definition percentile (values : list f32) (p : f32) : percentile_result :=
  if negb (Bltb (f32_ofZ 0) p && Bltb p (f32_ofZ 1)) then PThrown
  else
    let '(cmp, q) := if Bltb p half then (lt, p) else (gt, f32_sub (f32_ofZ 1) p) in
    let v := filter nonzero values in
    let N := rank (length v) q in
    let v' := partial_sort cmp (Z.to_nat N) v in
    if N =? 0 then PUndefined
    else match nth_error v' (Z.to_nat N - 1) with
         | Some x => PValue x
         | None => PUndefined
         end.
End Percentile.
