(** Plane geometry the properties of bodies refer to, over the reals. *)

From Coq Require Import ZArith Bool List Reals.
From Verif.Base Require Import Num.
From Verif.Body Require Import Model.
Import ListNotations.
Local Open Scope R_scope.

Definition pt := vec RNum.
Definition P (a b : R) : pt := @mkVec RNum a b.
Definition px (p : pt) : R := x p.
Definition py (p : pt) : R := y p.

(** Consecutive corners, the last followed by the first. *)
Fixpoint chain {A} (a : A) (l : list A) : list (A * A) :=
  match l with
  | [] => []
  | b :: t => (a, b) :: chain b t
  end.
Definition edges {A} (l : list A) : list (A * A) :=
  match l with
  | [] => []
  | a :: t => chain a (t ++ [a])
  end.

Definition total {A} (f : A -> R) (l : list A) : R := fold_right (fun e s => f e + s) 0 l.

Definition dist (p q : pt) : R := sqrt ((px q - px p) * (px q - px p) + (py q - py p) * (py q - py p)).

(** The shoelace formula, positive for clockwise corners. *)
Definition shoelace (l : list pt) : R :=
  total (fun e => py (fst e) * px (snd e) - px (fst e) * py (snd e)) (edges l) / 2.

Definition perimeter (l : list pt) : R := total (fun e => dist (fst e) (snd e)) (edges l).

(** Rotation by an angle with cosine [c] and sine [s], then translation by [t]. *)
Definition rigid (c s : R) (t p : pt) : pt :=
  P (c * px p - s * py p + px t) (s * px p + c * py p + py t).

Definition corners (b : body RNum) : list pt := map corner (alist b).

(** ** Point in polygon *)

(** The edge crosses the horizontal line through [p] strictly between its ends, left of [p]. *)
Definition hits_left (p : pt) (e : pt * pt) : Prop :=
  let '(u, v) := e in
  (py u < py p < py v \/ py v < py p < py u) /\
  px u + (py p - py u) * (px v - px u) / (py v - py u) < px p.

(** No corner at the height of [p]: the ray to the left meets no corner. *)
Definition generic (p : pt) (l : list pt) : Prop := forall q, In q l -> py q <> py p.

(** An odd number of elements satisfies [Q]. *)
Inductive odd_many {A} (Q : A -> Prop) : list A -> bool -> Prop :=
| OddNil : odd_many Q [] false
| OddYes a l b : Q a -> odd_many Q l b -> odd_many Q (a :: l) (negb b)
| OddNo a l b : ~ Q a -> odd_many Q l b -> odd_many Q (a :: l) b.

(** [inside p l b]: even-odd rule with the ray going left. *)
Definition inside (p : pt) (l : list pt) (b : bool) : Prop := odd_many (hits_left p) (edges l) b.

(** [k] is the first of the points nearest to [p]. *)
Definition first_nearest (p : pt) (l : list pt) (k : nat) : Prop :=
  exists q, nth_error l k = Some q /\
    (forall j q', nth_error l j = Some q' -> dist p q <= dist p q') /\
    (forall j q', (j < k)%nat -> nth_error l j = Some q' -> dist p q < dist p q').
