(** What the isolines are expected to draw. *)

From Coq Require Import ZArith Bool List Reals.
From Flocq Require Import Core.Core IEEE754.BinarySingleNaN.
From Verif.Base Require Import Num.
Import ListNotations.

(** Edges drawn by a polyline. *)
Fixpoint edges {P} (l : list P) : list (P * P) :=
  match l with
  | a :: (b :: _) as t => (a, b) :: edges t
  | _ => []
  end.

(** How often the undirected edge between the places [u] and [v] occurs;
    [val] sends a point to its place on the plane. *)
Definition count {P V} (val : P -> V) (eqV : forall a b : V, {a = b} + {a <> b})
  (u v : V) (es : list (P * P)) : nat :=
  length (filter (fun e =>
    let a := val (fst e) in let b := val (snd e) in
    (if eqV a u then if eqV b v then true else false else false)
    || (if eqV a v then if eqV b u then true else false else false)) es).

(** Place of a float point: -0 and +0 are the same place. *)
Definition plain (x : f32) : SpecFloat.spec_float :=
  match x with
  | B754_zero _ => SpecFloat.S754_zero false
  | _ => B2SF x
  end.
Definition place (p : f32 * f32) : SpecFloat.spec_float * SpecFloat.spec_float :=
  (plain (fst p), plain (snd p)).

Definition place_dec : forall a b : SpecFloat.spec_float * SpecFloat.spec_float, {a = b} + {a <> b}.
Proof. repeat decide equality. Defined.

(** End points of a line. *)
Definition ends {P} (l : list P) : list P :=
  match l with
  | [] => []
  | a :: t => [a; last t a]
  end.

(** A point on the border of the grid of [xres] by [yres] nodes. *)
Definition on_border (xres yres : Z) (p : f32 * f32) : Prop :=
  (is_finite (fst p) = true /\ (B2R (fst p) = 0%R \/ B2R (fst p) = IZR (xres - 1))) \/
  (is_finite (snd p) = true /\ (B2R (snd p) = 0%R \/ B2R (snd p) = IZR (yres - 1))).

(** A value whose differences with others do not overflow. *)
Definition moderate (v : f32) : Prop :=
  is_finite v = true /\ (Rabs (B2R v) <= bpow radix2 126)%R.
