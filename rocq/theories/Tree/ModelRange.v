(** The same subdivision with ranges as pairs of positions in the lists of the
    space, which are permuted in place. *)

From Coq Require Import ZArith Bool List.
From Verif.Base Require Import Num.
From Verif.Tree Require Import Model.
Import ListNotations.

(** class range, TSortedTree.hpp:11-20; positions instead of pointers. *)
Record range := mkRange { first : nat; last : nat }.

(** The objects a range points to. *)
Definition slice {A} (l : list A) (r : range) : list A := firstn (last r - first r) (skipn (first r) l).

(** TSortedTree.cpp:81-99 on the list [l]: only positions [first,last) are
    written.  The two-pointer loop is [distribute], with [p1-first], [p2-first]
    for the pointers; the result is the list and the ranges of the children. *)
Definition distribute_range {A} (below above : A -> bool) (l : list A) (r : range) : list A * range * range :=
  let '(l1, l2) := distribute below above (slice l r) in
  let p1 := first r + length l1 in
  (firstn (first r) l ++ l1 ++ l2 ++ skipn (last r) l, mkRange (first r) p1, mkRange p1 (last r)).

Section Tree.
Context {K : Num}.
Variables big minSize maxSize : K.

(** The vortex, heat and streak lists. *)
Record lists := mkLists { VL : list (obj K); HL : list (obj K); SL : list (obj K) }.

(** A bottom node with its ranges and its segments. *)
Record bottom := mkBottom { bnode : node K; bb : list (obj K); vR : range; hR : range; sR : range }.

(** TSortedTree.cpp:36-79: the lists after subdivision and [bottomNodes] in order. *)
Fixpoint divide_range (fuel : nat) (n : node K) (b : list (obj K)) (L : lists) (rv rh rs : range)
    : option (lists * list bottom) :=
  let v := slice (VL L) rv in let h := slice (HL L) rh in let s := slice (SL L) rs in
  if is_bottom minSize maxSize n b v h s then Some (L, [mkBottom n b rv rh rs])
  else match fuel with
  | O => None
  | S k =>
      let '(vl, rv1, rv2) := distribute_range (below n) (above n) (VL L) rv in
      let '(hl, rh1, rh2) := distribute_range (below n) (above n) (HL L) rh in
      let '(sl, rs1, rs2) := distribute_range (below n) (above n) (SL L) rs in
      let '(b1, b2) := distribute_list (below n) b in
      let L := mkLists vl hl sl in
      let n1 := stretch big b1 (slice vl rv1) (slice hl rh1) (slice sl rs1) in
      let n2 := stretch big b2 (slice vl rv2) (slice hl rh2) (slice sl rs2) in
      match divide_range k n1 b1 L rv1 rh1 rs1 with
      | Some (L, bot1) =>
          match divide_range k n2 b2 L rv2 rh2 rs2 with
          | Some (L, bot2) => Some (L, bot1 ++ bot2)
          | None => None
          end
      | None => None
      end
  end.

(** TSortedTree.cpp:232-256: an empty list keeps the empty range 0,0. *)
Definition build_range (fuel : nat) (b : list (obj K)) (L : lists) : option (lists * list bottom) :=
  let full (l : list (obj K)) := mkRange 0 (length l) in
  divide_range fuel (stretch big b (VL L) (HL L) (SL L)) b L (full (VL L)) (full (HL L)) (full (SL L)).
End Tree.
Arguments lists : clear implicits.
Arguments bottom : clear implicits.
