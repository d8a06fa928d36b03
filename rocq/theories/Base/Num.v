(** Numbers of the C++ code.

    [Num] bundles the operations the C++ code performs on [double]/[float].
    Models are written against this record, so the same transcription can be
    read over IEEE doubles ([F64]), reals ([RNum]) or rationals ([QNum]).
    The record contains operations only, no laws. *)

From Coq Require Import ZArith Bool Reals QArith Qabs Lia Lra.
From Flocq Require Import Core.Core IEEE754.BinarySingleNaN.

Record Num := MkNum {
  T :> Type;
  nadd : T -> T -> T;
  nsub : T -> T -> T;
  nmul : T -> T -> T;
  ndiv : T -> T -> T;
  nopp : T -> T;
  nabs : T -> T;
  nsqrt : T -> T;
  nltb : T -> T -> bool;   (* C++ <, false on NaN *)
  nleb : T -> T -> bool;   (* C++ <= *)
  neqb : T -> T -> bool;   (* C++ == *)
  nofZ : Z -> T;           (* conversion from integer types and literals *)
  nfinite : T -> bool;     (* std::isfinite *)
  nnan : T -> bool         (* std::isnan *)
}.

Arguments nadd {_} _ _. Arguments nsub {_} _ _. Arguments nmul {_} _ _.
Arguments ndiv {_} _ _. Arguments nopp {_} _. Arguments nabs {_} _.
Arguments nsqrt {_} _. Arguments nltb {_} _ _. Arguments nleb {_} _ _.
Arguments neqb {_} _ _. Arguments nofZ {_} _. Arguments nfinite {_} _.
Arguments nnan {_} _.

Declare Scope num_scope.
Delimit Scope num_scope with num.
Notation "x + y" := (nadd x y) : num_scope.
Notation "x - y" := (nsub x y) : num_scope.
Notation "x * y" := (nmul x y) : num_scope.
Notation "x / y" := (ndiv x y) : num_scope.
Notation "- x" := (nopp x) : num_scope.
Notation "x <? y" := (nltb x y) : num_scope.
Notation "x <=? y" := (nleb x y) : num_scope.
Notation "x =? y" := (neqb x y) : num_scope.

(** * IEEE-754 binary64 and binary32, round to nearest even *)

Definition f64 := binary_float 53 1024.
Definition f32 := binary_float 24 128.

Lemma Hprec64 : Prec_gt_0 53. Proof. reflexivity. Qed.
Lemma Hmax64 : Prec_lt_emax 53 1024. Proof. reflexivity. Qed.
Lemma Hprec32 : Prec_gt_0 24. Proof. reflexivity. Qed.
Lemma Hmax32 : Prec_lt_emax 24 128. Proof. reflexivity. Qed.
#[global] Existing Instance Hprec64.
#[global] Existing Instance Hmax64.
#[global] Existing Instance Hprec32.
#[global] Existing Instance Hmax32.

Definition f64_ofZ (z : Z) : f64 := binary_normalize 53 1024 Hprec64 Hmax64 mode_NE z 0 false.

Definition F64 : Num := {|
  T := f64;
  nadd := Bplus mode_NE;
  nsub := Bminus mode_NE;
  nmul := Bmult mode_NE;
  ndiv := Bdiv mode_NE;
  nopp := Bopp;
  nabs := Babs;
  nsqrt := Bsqrt mode_NE;
  nltb := Bltb;
  nleb := Bleb;
  neqb := Beqb;
  nofZ := f64_ofZ;
  nfinite := is_finite;
  nnan := is_nan
|}.

Definition f64_nan : f64 := B754_nan.
Definition f64_inf : f64 := B754_infinity false.
Definition f64_ninf : f64 := B754_infinity true.

(** Decimal literal m/10^k: correctly rounded for |m| < 2^53 and k <= 22, since
    both operands of the division are then exact. *)
Definition f64_dec (m : Z) (k : Z) : f64 := Bdiv mode_NE (f64_ofZ m) (f64_ofZ (10 ^ k)).

(** Exact conversion f64 -> integer by truncation; [None] outside int32
    (undefined behaviour in C++) and for NaN/infinities. *)
Definition f64_to_i32 (x : f64) : option Z :=
  if is_finite x then
    let z := Btrunc x in
    if (- 2^31 <=? z)%Z && (z <? 2^31)%Z then Some z else None
  else None.

(** * Real numbers *)

Definition Rltb (x y : R) : bool := if Rlt_dec x y then true else false.
Definition Rleb (x y : R) : bool := if Rle_dec x y then true else false.
Definition Reqb (x y : R) : bool := if Req_EM_T x y then true else false.

Definition RNum : Num := {|
  T := R;
  nadd := Rplus;
  nsub := Rminus;
  nmul := Rmult;
  ndiv := Rdiv;
  nopp := Ropp;
  nabs := Rabs;
  nsqrt := sqrt;
  nltb := Rltb;
  nleb := Rleb;
  neqb := Reqb;
  nofZ := IZR;
  nfinite := fun _ => true;
  nnan := fun _ => false
|}.

Lemma Rltb_true x y : Rltb x y = true <-> (x < y)%R.
Proof. unfold Rltb; destruct (Rlt_dec x y); split; intros; try congruence; contradiction. Qed.
Lemma Rltb_false x y : Rltb x y = false <-> (y <= x)%R.
Proof. unfold Rltb; destruct (Rlt_dec x y); split; intros; try congruence; lra. Qed.
Lemma Rleb_true x y : Rleb x y = true <-> (x <= y)%R.
Proof. unfold Rleb; destruct (Rle_dec x y); split; intros; try congruence; contradiction. Qed.
Lemma Rleb_false x y : Rleb x y = false <-> (y < x)%R.
Proof. unfold Rleb; destruct (Rle_dec x y); split; intros; try congruence; lra. Qed.
Lemma Reqb_true x y : Reqb x y = true <-> x = y.
Proof. unfold Reqb; destruct (Req_EM_T x y); split; intros; congruence. Qed.
Lemma Reqb_false x y : Reqb x y = false <-> x <> y.
Proof. unfold Reqb; destruct (Req_EM_T x y); split; intros; congruence. Qed.

Ltac rbool :=
  repeat match goal with
  | H : Rltb _ _ = true |- _ => apply Rltb_true in H
  | H : Rltb _ _ = false |- _ => apply Rltb_false in H
  | H : Rleb _ _ = true |- _ => apply Rleb_true in H
  | H : Rleb _ _ = false |- _ => apply Rleb_false in H
  | H : Reqb _ _ = true |- _ => apply Reqb_true in H
  | H : Reqb _ _ = false |- _ => apply Reqb_false in H
  end.

(** * Rational numbers (for computable examples; [sqrt] is not available and
    answers 0, examples do not use it) *)

Definition QNum : Num := {|
  T := Q;
  nadd := fun x y => Qred (Qplus x y);
  nsub := fun x y => Qred (Qminus x y);
  nmul := fun x y => Qred (Qmult x y);
  ndiv := fun x y => Qred (Qdiv x y);
  nopp := Qopp;
  nabs := Qabs;
  nsqrt := fun _ => 0%Q;
  nltb := fun x y => match (x ?= y)%Q with Lt => true | _ => false end;
  nleb := Qle_bool;
  neqb := Qeq_bool;
  nofZ := inject_Z;
  nfinite := fun _ => true;
  nnan := fun _ => false
|}.
