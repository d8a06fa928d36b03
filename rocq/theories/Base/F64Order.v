(** Order of the binary64 numbers. *)

From Coq Require Import ZArith Bool Reals Lia Lra Psatz.
From Flocq Require Import Core.Core IEEE754.BinarySingleNaN Relative.
From Verif.Base Require Import Num F64.
Local Open Scope R_scope.

(** Order of all numbers that are not NaN: infinities beyond the finite ones. *)
Definition fkey (x : f64) : option R :=
  match x with
  | B754_nan => None
  | B754_infinity false => Some (bpow radix2 1024)
  | B754_infinity true => Some (- bpow radix2 1024)
  | _ => Some (B2R x)
  end.

Lemma f64_ltb_key (x y : f64) : Bltb x y = true <-> exists a b, fkey x = Some a /\ fkey y = Some b /\ a < b.
Proof.
  assert (F : forall z : f64, is_finite z = true -> fkey z = Some (B2R z)) by (intros [ | [] | | ]; simpl; congruence).
  assert (B : forall z : f64, - bpow radix2 1024 < B2R z < bpow radix2 1024).
  { intros z. pose proof (abs_B2R_lt_emax 53 1024 z) as H. apply Rabs_def2 in H. lra. }
  assert (H0 : 0 < bpow radix2 1024) by apply bpow_gt_0.
  destruct (is_finite x) eqn:Fx; destruct (is_finite y) eqn:Fy.
  - rewrite (F x Fx), (F y Fy), (Bltb_correct 53 1024 x y Fx Fy). split.
    + intros H. exists (B2R x), (B2R y). split; [reflexivity|]. split; [reflexivity|]. revert H. case Rlt_bool_spec; [auto|discriminate].
    + intros (a & b & Ha & Hb & H). assert (B2R x = a) by congruence. assert (B2R y = b) by congruence. subst. apply Rlt_bool_true. exact H.
  - rewrite (F x Fx). pose proof (B x). destruct y as [|[]| |]; try discriminate Fy.
    + split; [destruct x as [|[]| |[]]; try discriminate Fx; intros X; discriminate X|].
      intros (a & b & Ha & Hb & L). cbn [fkey] in Hb. assert (B2R x = a) by congruence. assert (- bpow radix2 1024 = b) by congruence. lra.
    + split; [|destruct x as [[]|[]| |[]]; try discriminate Fx; reflexivity].
      intros _. eexists _, _. split; [reflexivity|]. split; [reflexivity|]. lra.
    + split; [destruct x as [|[]| |[]]; try discriminate Fx; intros X; discriminate X|]. intros (a & b & _ & X & _). discriminate X.
  - rewrite (F y Fy). pose proof (B y). destruct x as [|[]| |]; try discriminate Fx.
    + split; [|destruct y as [[]|[]| |[]]; try discriminate Fy; reflexivity].
      intros _. eexists _, _. split; [reflexivity|]. split; [reflexivity|]. lra.
    + split; [destruct y as [|[]| |[]]; try discriminate Fy; intros X; discriminate X|].
      intros (a & b & Ha & Hb & L). cbn [fkey] in Ha. assert (B2R y = b) by congruence. assert (bpow radix2 1024 = a) by congruence. lra.
    + split; [destruct y as [|[]| |[]]; try discriminate Fy; intros X; discriminate X|]. intros (a & b & X & _). discriminate X.
  - destruct x as [|[]| |]; try discriminate Fx; destruct y as [|[]| |]; try discriminate Fy; cbn [fkey].
    all: split; [intros X; first [discriminate X|eexists _, _; split; [reflexivity|]; split; [reflexivity|]; lra]|].
    all: intros (a & b & Ha & Hb & L); try discriminate Ha; try discriminate Hb; try reflexivity.
    all: exfalso; injection Ha as Ha; injection Hb as Hb; lra.
Qed.
