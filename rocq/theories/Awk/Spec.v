(** What the scripts promise, over the real numbers. *)

From Coq Require Import List ZArith Bool String Reals Sorted.
From Verif Require Import Base.Num Awk.Model.
Import ListNotations.
Local Open Scope R_scope.

Notation rfield := (@field RNum).
Notation table := (list (list (@field RNum))).

(** The [k]-th column of a row, from 1, as number and as text; blank if the row
    is shorter. *)
Definition value (k : nat) (r : list rfield) : R :=
  match nth_error r (k - 1) with Some f => num f | None => 0 end.
Definition text (k : nat) (r : list rfield) : string :=
  match nth_error r (k - 1) with Some f => txt f | None => EmptyString end.
(** All of it is a number; a missing field counts as one. *)
Definition numeric (k : nat) (r : list rfield) : Prop :=
  match nth_error r (k - 1) with Some f => isnum f = true | None => True end.

Fixpoint total (l : list R) : R := match l with [] => 0 | x :: l => x + total l end.
Definition mean (l : list R) : R := total l / INR (List.length l).
Definition lastn {A} (k : nat) (l : list A) : list A := skipn (List.length l - k) l.

(** A variable given on the command line or its default. *)
Definition chosen (v : option Z) (d z : nat) : Prop :=
  v = None /\ z = d \/ v = Some (Z.of_nat z) /\ z <> 0%nat.

(** [a < x < b], a missing bound is none. *)
Definition between (a b : option R) (x : R) : Prop :=
  match a with Some m => m < x | None => True end /\ match b with Some m => x < m | None => True end.

(** The rows selected by a proposition, in order. *)
Inductive select {A} (P : A -> Prop) : list A -> list A -> Prop :=
| sel_nil : select P [] []
| sel_in x l l' : P x -> select P l l' -> select P (x :: l) (x :: l')
| sel_out x l l' : ~ P x -> select P l l' -> select P (x :: l) l'.

(** [line] is the row [r] with column [k] replaced by [x] and nothing else. *)
Definition replaced (k : nat) (x : R) (r : list rfield) (line : list (@cell RNum)) : Prop :=
  List.length line = Nat.max k (List.length r) /\
  forall i, (1 <= i <= List.length line)%nat ->
    nth_error line (i - 1) = Some (if Nat.eqb i k then Number (x : T RNum) else Text (text i r)).

(** Row [i] (from 0) of a table. *)
Definition cellv (rs : table) (k i : nat) : R := value k (nth i rs []).

(** Windows of [2h] rows: row [i] has [h-1] rows before and [h] after it. *)
Definition centre (h n i : nat) : Prop := (h <= i + 1 /\ i + h < n)%nat.
Definition window (h i j : nat) : Prop := (i + 1 <= j + h /\ j <= i + h)%nat.
(** The centres in the range: the search ends at the first one beyond it. *)
Definition considered (rs : table) (h : nat) (a b : option R) (i : nat) : Prop :=
  centre h (List.length rs) i /\
  match a with Some m => m <= cellv rs 1 i | None => True end /\
  match b with
  | Some m => forall j, centre h (List.length rs) j -> (j <= i)%nat -> cellv rs 1 j <= m
  | None => True end.
Definition maximum (rs : table) (k h i : nat) : Prop :=
  forall j, window h i j -> cellv rs k j <= cellv rs k i.
Definition minimum (rs : table) (k h i : nat) : Prop :=
  forall j, window h i j -> cellv rs k i <= cellv rs k j.
(** The rows with a property, in order. *)
Definition rows_with (P : nat -> Prop) (l : list nat) : Prop :=
  StronglySorted Peano.lt l /\ forall i, In i l <-> P i.
(** The mean of none is 0. *)
Definition mean0 (l : list R) : R := match l with [] => 0 | _ => mean l end.

(** Row [i] has a zero [z]: the sign changes there or the value vanishes. *)
Definition zero_at (rs : table) (k i : nat) (z : R) : Prop :=
  (cellv rs k i = 0 /\ z = cellv rs 1 i) \/
  (exists p, i = S p /\ cellv rs k p * cellv rs k i < 0 /\
   (* the line through the two rows vanishes at z *)
   (z - cellv rs 1 p) * cellv rs k i = (z - cellv rs 1 i) * cellv rs k p /\
   Rmin (cellv rs 1 p) (cellv rs 1 i) <= z <= Rmax (cellv rs 1 p) (cellv rs 1 i)).
