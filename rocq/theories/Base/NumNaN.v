(** Real numbers with a NaN.

    [Some x] is the real number [x], [None] is NaN.  Every operation on NaN is
    NaN, every comparison with it is false.  A division by zero and the root of
    a negative number are NaN too: there are no infinities. *)

From Coq Require Import ZArith Bool Reals.
From Flocq Require Import Core.Core.
From Verif Require Import Base.Num.

Definition lift1 (f : R -> R) (x : option R) : option R :=
  match x with Some a => Some (f a) | None => None end.
Definition lift2 (f : R -> R -> R) (x y : option R) : option R :=
  match x, y with Some a, Some b => Some (f a b) | _, _ => None end.
Definition compare2 (f : R -> R -> bool) (x y : option R) : bool :=
  match x, y with Some a, Some b => f a b | _, _ => false end.

Definition RNaN : Num := {|
  T := option R;
  nadd := lift2 Rplus;
  nsub := lift2 Rminus;
  nmul := lift2 Rmult;
  ndiv := fun x y => match x, y with Some a, Some b => if Reqb b 0 then None else Some (a / b)%R | _, _ => None end;
  nopp := lift1 Ropp;
  nabs := lift1 Rabs;
  nsqrt := fun x => match x with Some a => if Rltb a 0 then None else Some (sqrt a) | None => None end;
  nltb := compare2 Rltb;
  nleb := compare2 Rleb;
  neqb := compare2 Reqb;
  nofZ := fun z => Some (IZR z);
  nfinite := fun x => match x with Some _ => true | None => false end;
  nnan := fun x => match x with Some _ => false | None => true end
|}.

(** Conversion to [int]: [None] outside of its range. *)
Definition rnan_to_i32 (x : option R) : option Z :=
  match x with
  | Some a => let z := Ztrunc a in if (- 2^31 <=? z)%Z && (z <? 2^31)%Z then Some z else None
  | None => None
  end.
Definition rnan_ceil (x : option R) : option R := lift1 (fun a => IZR (Zceil a)) x.
