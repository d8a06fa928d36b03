(** Model of XIsoline: libvvhd/src/XIsoline.cpp. *)

From Coq Require Import ZArith Bool List.
From Flocq Require Import Core.Core IEEE754.BinarySingleNaN.
From Verif.Base Require Import Num F32.
Import ListNotations.

(** * Merging of segments into lines, XIsoline.cpp:76-115

    [peq] is [TPoint::operator==], XIsoline.hpp:32-34.  A line is the list of
    points of a [deque], the isolines are the elements of the [list] in order.
    [None] is undefined behaviour: [front()]/[back()] of an empty deque. *)
Section Lines.

Context {P : Type}.
Variable peq : P -> P -> bool.

Local Notation line := (list P).

Fixpoint back (l : line) : option P :=
  match l with
  | [] => None
  | [p] => Some p
  | _ :: t => back t
  end.
Definition front (l : line) : option P := hd_error l.

(** Result of the loop of lines 80-97 over lines other than [dst]:
    [UBm] undefined, [NoMatch], or the joined [dst] and the remaining lines
    (the matched one is cleared and removed by [remove_if] at line 98).
    Simplified: [remove_if] also runs when nothing was merged; no line is empty
    then, as an empty line would have been undefined behaviour before. *)
Inductive merged := UBm | NoMatch | Joined (dst : line) (others : list line).

Definition join_front (dst_side : bool) (dst l : line) : line :=   (* lines 84-86 *)
  if dst_side then rev l ++ dst else dst ++ l.
Definition join_back (dst_side : bool) (dst l : line) : line :=    (* lines 87-89 *)
  if dst_side then l ++ dst else dst ++ rev l.

Fixpoint merge_into (p : P) (dst_side : bool) (dst : line) (ls : list line) : merged :=
  match ls with
  | [] => NoMatch
  | l :: t =>
      match front l, back l with
      | Some f, Some b =>
          if peq f p then Joined (join_front dst_side dst l) t
          else if peq b p then Joined (join_back dst_side dst l) t
          else match merge_into p dst_side dst t with
               | Joined d o => Joined d (l :: o)
               | r => r
               end
      | _, _ => UBm
      end
  end.

(** Lines 76-99.  [before]/[after] are the lines in the list before and after [dst]. *)
Definition merge_lines (before : list line) (dst : line) (after : list line) (dst_side : bool)
  : option (list line) :=
  match (if dst_side then front dst else back dst) with        (* line 78 *)
  | None => None
  | Some p =>
      match merge_into p dst_side dst before with
      | UBm => None
      | Joined d o => Some (o ++ d :: after)
      | NoMatch =>
          match merge_into p dst_side dst after with
          | UBm => None
          | Joined d o => Some (before ++ d :: o)
          | NoMatch => Some (before ++ dst :: after)
          end
      end
  end.

(** Lines 101-115. *)
Fixpoint commit_from (before ls all : list line) (p1 p2 : P) : option (list line) :=
  match ls with
  | [] => Some ([p1; p2] :: all)                               (* lines 111-113 *)
  | l :: t =>
      match front l, back l with
      | Some f, Some b =>
          if peq f p1 then merge_lines before (p2 :: l) t true        (* line 105 *)
          else if peq f p2 then merge_lines before (p1 :: l) t true   (* line 106 *)
          else if peq b p1 then merge_lines before (l ++ [p2]) t false
          else if peq b p2 then merge_lines before (l ++ [p1]) t false
          else commit_from (before ++ [l]) t all p1 p2
      | _, _ => None
      end
  end.

Definition commit_segment (ls : list line) (p1 p2 : P) : option (list line) :=
  commit_from [] ls ls p1 p2.

Fixpoint commit_all (ls : list line) (segs : list (P * P)) : option (list line) :=
  match segs with
  | [] => Some ls
  | (p1, p2) :: t =>
      match commit_segment ls p1 p2 with
      | Some ls' => commit_all ls' t
      | None => None
      end
  end.

End Lines.

(** * Grid cells, XIsoline.cpp:38-67,70-74,117-128, in binary32 *)

Definition point := (f32 * f32)%type.

(** XIsoline.hpp:32-34. *)
Definition point_eq (p v : point) : bool := Beqb (fst v) (fst p) && Beqb (snd v) (snd p).

(** XIsoline.cpp:71-74. *)
Definition inrange (z1 z2 c : f32) : bool :=
  (Bleb z1 c && Bltb c z2) || (Bleb c z1 && Bltb z2 c).

(** [x + 1.0]: computed in double, stored as float. *)
Definition plus_one (x : f32) : f32 := f64_to_f32 (@nadd F64 (f32_to_f64 x) (f64_ofZ 1)).

(** The five corner values [z] of line 47. *)
Record cell := mkCell { z0 : f32; z1 : f32; z2 : f32; z3 : f32; z4 : f32 }.

(** Lines 119-124: the crossing points in order. *)
Definition crossing_left (x y C : f32) (z : cell) : list point :=
  if inrange (z0 z) (z1 z) C then
    [(x, f32_add y (f32_div (f32_sub C (z0 z)) (f32_sub (z1 z) (z0 z))))] else [].
Definition crossing_top (x y C : f32) (z : cell) : list point :=
  if inrange (z1 z) (z2 z) C then
    [(f32_add x (f32_div (f32_sub C (z1 z)) (f32_sub (z2 z) (z1 z))), plus_one y)] else [].
Definition crossing_right (x y C : f32) (z : cell) : list point :=
  if inrange (z2 z) (z3 z) C then
    [(plus_one x, f32_add y (f32_div (f32_sub C (z3 z)) (f32_sub (z2 z) (z3 z))))] else [].
Definition crossing_bottom (x y C : f32) (z : cell) : list point :=
  if inrange (z3 z) (z4 z) C then
    [(f32_add x (f32_div (f32_sub C (z4 z)) (f32_sub (z3 z) (z4 z))), y)] else [].

Definition crossings (x y C : f32) (z : cell) : list point :=
  crossing_left x y C z ++ crossing_top x y C z ++ crossing_right x y C z ++ crossing_bottom x y C z.

(** Lines 126-127: the segments committed for one cell and level. *)
Definition rect_segments (x y C : f32) (z : cell) : list (point * point) :=
  match crossings x y C z with
  | [a; b; c; d] => [(a, b); (c, d)]
  | a :: b :: _ => [(a, b)]
  | _ => []
  end.

(** A gap of the field, XField.hpp:8-16. *)
Record gap := mkGap { gxi : Z; gyj : Z; ggap : f32 }.

(** Lines 47-62.  [at_ i j] is [XField::at].  [corners[1]] and [corners[2]] are
    never shifted. *)
Definition shift (keep : gap -> bool) (gaps : list gap) (v : f32) : f32 :=
  fold_left (fun acc g => if keep g then f32_add acc (ggap g) else acc) gaps v.

Definition corners (at_ : Z -> Z -> f32) (gaps : list gap) (i j : Z) : cell :=
  mkCell (shift (fun g => (gyj g =? j)%Z && (i <=? gxi g)%Z) gaps (at_ i j))
         (at_ i (j + 1)%Z)
         (at_ (i + 1)%Z (j + 1)%Z)
         (shift (fun g => (gyj g =? j)%Z && (i <? gxi g)%Z) gaps (at_ (i + 1)%Z j))
         (shift (fun g => (gyj g =? j)%Z && (i <? gxi g)%Z) gaps (at_ i j)).

(** Line 64: [for (double v=vmin; v<=vmax; v+=dv)], the list of levels.
    [None] when [fuel] does not suffice. *)
Fixpoint levels (fuel : nat) (v vmax dv : f64) : option (list f64) :=
  if @nleb F64 v vmax then
    match fuel with
    | O => None
    | S k => match levels k (@nadd F64 v dv) vmax dv with
             | Some l => Some (v :: l)
             | None => None
             end
    end
  else Some [].

(** Lines 31-36: the arguments that are accepted. *)
Definition accepts (vmin vmax dv : f64) : bool :=
  is_finite vmax && @nleb F64 vmin vmax && @nltb F64 (f64_ofZ 0) dv.

(** Lines 38-67: all segments, in the order of the loops. *)
Definition zrange (n : Z) : list Z := map Z.of_nat (seq 0 (Z.to_nat n)).

Definition all_segments (at_ : Z -> Z -> f32) (gaps : list gap) (xres yres : Z) (lv : list f64)
  : list (point * point) :=
  flat_map (fun i =>
    flat_map (fun j =>
      flat_map (fun v =>
        rect_segments (f32_ofZ i) (f32_ofZ j) (f64_to_f32 v) (corners at_ gaps i j)) lv)
      (zrange (yres - 1)))
    (zrange (xres - 1)).

(** The whole constructor after the argument checks. *)
Definition isolines (at_ : Z -> Z -> f32) (gaps : list gap) (xres yres : Z) (lv : list f64) : option (list (list point)) :=
  commit_all point_eq [] (all_segments at_ gaps xres yres lv).
