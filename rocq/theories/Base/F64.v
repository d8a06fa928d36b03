(** Facts about binary64 arithmetic used by the proofs. *)

From Coq Require Import ZArith Bool Reals Lia Lra Psatz.
From Flocq Require Import Core.Core IEEE754.BinarySingleNaN Relative.
From Verif.Base Require Import Num.
Local Open Scope R_scope.

(** Rounding to binary64, nearest even. *)
Definition rnd (x : R) : R := round radix2 (SpecFloat.fexp 53 1024) ZnearestE x.

Lemma rnd_flt x : rnd x = round radix2 (FLT_exp (-1074) 53) ZnearestE x.
Proof. reflexivity. Qed.

Lemma rnd_le x y : x <= y -> rnd x <= rnd y.
Proof. intros H. rewrite !rnd_flt. apply round_le; auto with typeclass_instances. Qed.

Lemma rnd_0 : rnd 0 = 0.
Proof. rewrite rnd_flt. apply round_0; auto with typeclass_instances. Qed.

Lemma generic_Z z : (Z.abs z <= 2 ^ 53)%Z ->
  generic_format radix2 (FLT_exp (-1074) 53) (IZR z).
Proof.
  intros H.
  destruct (Z.eq_dec (Z.abs z) (2^53)) as [E|E].
  - assert (IZR z = bpow radix2 53 \/ IZR z = - bpow radix2 53) as [Hz|Hz].
    { rewrite <- IZR_Zpower by lia. change (IZR (radix2 ^ 53)) with (IZR (2^53)).
      destruct (Z.abs_spec z) as [[? ?]|[? ?]].
      - left. f_equal. lia.
      - right. rewrite <- opp_IZR. f_equal. lia. }
    + rewrite Hz. apply generic_format_bpow. unfold FLT_exp; lia.
    + rewrite Hz. apply generic_format_opp, generic_format_bpow. unfold FLT_exp; lia.
  - apply generic_format_FLT. exists (Float radix2 z 0).
    + unfold F2R; simpl; lra.
    + simpl. change (Z.pow_pos 2 53) with (2^53)%Z. lia.
    + simpl; lia.
Qed.

Lemma rnd_Z z : (Z.abs z <= 2 ^ 53)%Z -> rnd (IZR z) = IZR z.
Proof.
  intros H. rewrite rnd_flt. apply round_generic; auto with typeclass_instances.
  apply generic_Z; assumption.
Qed.

Lemma rnd_B2R (x : f64) : rnd (B2R x) = B2R x.
Proof.
  rewrite rnd_flt. apply round_generic; auto with typeclass_instances.
  apply (generic_format_B2R 53 1024 x).
Qed.

Lemma rnd_bound_lt x (e : Z) : Rabs x <= bpow radix2 e -> (-1000 <= e < 1024)%Z ->
  Rabs (rnd x) < bpow radix2 1024.
Proof.
  intros H He. apply Rle_lt_trans with (bpow radix2 e).
  - rewrite rnd_flt. apply abs_round_le_generic; auto with typeclass_instances.
    apply generic_format_bpow. unfold FLT_exp; lia.
  - apply bpow_lt; lia.
Qed.

Lemma rnd_rel x : bpow radix2 (-1022) <= Rabs x ->
  Rabs (rnd x - x) <= / 2 ^ 53 * Rabs x.
Proof.
  intros H. rewrite rnd_flt.
  pose proof (relative_error_N_FLT radix2 (-1074) 53 eq_refl (fun z => negb (Z.even z)) x) as K.
  simpl (-1074 + 53 - 1)%Z in K. specialize (K H).
  replace (/ 2 ^ 53) with (/ 2 * bpow radix2 (- (53) + 1)).
  exact K.
  simpl. lra.
Qed.

Lemma f64_ofZ_R z : (Z.abs z <= 2 ^ 53)%Z ->
  B2R (f64_ofZ z) = IZR z /\ is_finite (f64_ofZ z) = true.
Proof.
  intros H. unfold f64_ofZ.
  pose proof (binary_normalize_correct 53 1024 Hprec64 Hmax64 mode_NE z 0 false) as K.
  cbv zeta in K.
  assert (E : F2R (Float radix2 z 0) = IZR z) by (unfold F2R; simpl; lra).
  rewrite E in K.
  fold (rnd (IZR z)) in K. rewrite rnd_Z in K by assumption.
  rewrite Rlt_bool_true in K.
  - destruct K as (K1 & K2 & _). split; assumption.
  - rewrite <- abs_IZR. apply Rle_lt_trans with (bpow radix2 53).
    + rewrite <- IZR_Zpower by lia. apply IZR_le. exact H.
    + apply bpow_lt; lia.
Qed.

Lemma f64_div_R (x y : f64) e :
  is_finite x = true -> B2R y <> 0 ->
  Rabs (B2R x / B2R y) <= bpow radix2 e -> (-1000 <= e < 1024)%Z ->
  B2R (@ndiv F64 x y) = rnd (B2R x / B2R y) /\ is_finite (@ndiv F64 x y) = true.
Proof.
  intros Hx Hy Hb He. simpl.
  pose proof (Bdiv_correct 53 1024 Hprec64 Hmax64 mode_NE x y Hy) as K.
  change (round_mode mode_NE) with ZnearestE in K.
  fold (rnd (B2R x / B2R y)) in K.
  rewrite Rlt_bool_true in K by (eapply rnd_bound_lt; eauto).
  destruct K as (K1 & K2 & _). split; congruence.
Qed.

Lemma f64_mul_R (x y : f64) e :
  is_finite x = true -> is_finite y = true ->
  Rabs (B2R x * B2R y) <= bpow radix2 e -> (-1000 <= e < 1024)%Z ->
  B2R (@nmul F64 x y) = rnd (B2R x * B2R y) /\ is_finite (@nmul F64 x y) = true.
Proof.
  intros Hx Hy Hb He. simpl.
  pose proof (Bmult_correct 53 1024 Hprec64 Hmax64 mode_NE x y) as K.
  change (round_mode mode_NE) with ZnearestE in K.
  fold (rnd (B2R x * B2R y)) in K.
  rewrite Rlt_bool_true in K by (eapply rnd_bound_lt; eauto).
  destruct K as (K1 & K2 & _). split; [assumption|].
  rewrite K2, Hx, Hy. reflexivity.
Qed.

Lemma f64_add_R (x y : f64) e :
  is_finite x = true -> is_finite y = true ->
  Rabs (B2R x + B2R y) <= bpow radix2 e -> (-1000 <= e < 1024)%Z ->
  B2R (@nadd F64 x y) = rnd (B2R x + B2R y) /\ is_finite (@nadd F64 x y) = true.
Proof.
  intros Hx Hy Hb He. simpl.
  pose proof (Bplus_correct 53 1024 Hprec64 Hmax64 mode_NE x y Hx Hy) as K.
  change (round_mode mode_NE) with ZnearestE in K.
  fold (rnd (B2R x + B2R y)) in K.
  rewrite Rlt_bool_true in K by (eapply rnd_bound_lt; eauto).
  destruct K as (K1 & K2 & _). split; assumption.
Qed.

Lemma f64_trunc_R (x : f64) : Btrunc x = Ztrunc (B2R x).
Proof.
  apply eq_IZR. rewrite Btrunc_correct by reflexivity.
  unfold round, scaled_mantissa, cexp, FIX_exp, F2R. simpl. rewrite !Rmult_1_r. reflexivity.
Qed.

Lemma f64_to_i32_R (x : f64) z :
  is_finite x = true -> Ztrunc (B2R x) = z -> (-2^31 <= z < 2^31)%Z ->
  f64_to_i32 x = Some z.
Proof.
  intros Hf E Hr. unfold f64_to_i32. rewrite Hf, f64_trunc_R, E.
  replace (- 2 ^ 31 <=? z)%Z with true by (symmetry; apply Z.leb_le; lia).
  replace (z <? 2 ^ 31)%Z with true by (symmetry; apply Z.ltb_lt; lia).
  reflexivity.
Qed.

Lemma f64_eqb_true (x y : f64) :
  is_finite x = true -> is_finite y = true ->
  (@neqb F64 x y = true <-> B2R x = B2R y).
Proof.
  intros Hx Hy. simpl. rewrite Beqb_correct by assumption.
  destruct (Req_bool_spec (B2R x) (B2R y)); split; intros; congruence.
Qed.

Lemma f64_ltb_true (x y : f64) :
  is_finite x = true -> is_finite y = true ->
  (@nltb F64 x y = true <-> B2R x < B2R y).
Proof.
  intros Hx Hy. simpl. rewrite Bltb_correct by assumption.
  destruct (Rlt_bool_spec (B2R x) (B2R y)); split; intros; try congruence; lra.
Qed.

Lemma f64_leb_true (x y : f64) :
  is_finite x = true -> is_finite y = true ->
  (@nleb F64 x y = true <-> B2R x <= B2R y).
Proof.
  intros Hx Hy. simpl. rewrite Bleb_correct by assumption.
  destruct (Rle_bool_spec (B2R x) (B2R y)); split; intros; try congruence; lra.
Qed.
