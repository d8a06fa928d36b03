(** IEEE-754 binary32 (C++ [float]), round to nearest even. *)
From Coq Require Import ZArith Bool List Lia Reals Lra.
From Flocq Require Import Core.Core IEEE754.BinarySingleNaN Relative.
From Verif.Base Require Import Num F64.
Local Open Scope Z_scope.

Definition f32_ofZ (z : Z) : f32 := binary_normalize 24 128 Hprec32 Hmax32 mode_NE z 0 false.
Definition f32_add : f32 -> f32 -> f32 := Bplus mode_NE.
Definition f32_sub : f32 -> f32 -> f32 := Bminus mode_NE.
Definition f32_mul : f32 -> f32 -> f32 := Bmult mode_NE.
Definition f32_div : f32 -> f32 -> f32 := Bdiv mode_NE.

(** Conversions between float and double. *)
Definition f32_to_f64 (x : f32) : f64 :=
  match x with
  | B754_zero s => B754_zero s
  | B754_infinity s => B754_infinity s
  | B754_nan => B754_nan
  | B754_finite s m e _ => binary_normalize 53 1024 Hprec64 Hmax64 mode_NE (cond_Zopp s (Zpos m)) e s
  end.
Definition f64_to_f32 (x : f64) : f32 :=
  match x with
  | B754_zero s => B754_zero s
  | B754_infinity s => B754_infinity s
  | B754_nan => B754_nan
  | B754_finite s m e _ => binary_normalize 24 128 Hprec32 Hmax32 mode_NE (cond_Zopp s (Zpos m)) e s
  end.

(** * Comparisons of binary32 *)

Definition rnd32 (x : R) : R := round radix2 (SpecFloat.fexp 24 128) ZnearestE x.
Lemma rnd32_flt x : rnd32 x = round radix2 (FLT_exp (-149) 24) ZnearestE x.
Proof. reflexivity. Qed.

Lemma rnd32_le x y : (x <= y)%R -> (rnd32 x <= rnd32 y)%R.
Proof. rewrite !rnd32_flt. intros H. apply round_le; auto with typeclass_instances. Qed.

Lemma eqb32 (x y : f32) : is_finite x = true -> is_finite y = true ->
  (Beqb x y = true <-> B2R x = B2R y).
Proof.
  intros Hx Hy. rewrite Beqb_correct by assumption.
  destruct (Req_bool_spec (B2R x) (B2R y)); split; intros; congruence.
Qed.
Lemma ltb32 (x y : f32) : is_finite x = true -> is_finite y = true ->
  (Bltb x y = true <-> (B2R x < B2R y)%R).
Proof.
  intros Hx Hy. rewrite Bltb_correct by assumption.
  destruct (Rlt_bool_spec (B2R x) (B2R y)); split; intros; try congruence; lra.
Qed.
Lemma leb32 (x y : f32) : is_finite x = true -> is_finite y = true ->
  (Bleb x y = true <-> (B2R x <= B2R y)%R).
Proof.
  intros Hx Hy. rewrite Bleb_correct by assumption.
  destruct (Rle_bool_spec (B2R x) (B2R y)); split; intros; try congruence; lra.
Qed.

(** * Integers *)

Lemma generic_Z32 z : (Z.abs z <= 2 ^ 24)%Z ->
  generic_format radix2 (FLT_exp (-149) 24) (IZR z).
Proof.
  intros H.
  destruct (Z.eq_dec (Z.abs z) (2^24)) as [E|E].
  - assert (IZR z = bpow radix2 24 \/ IZR z = - bpow radix2 24)%R as [Hz|Hz].
    { rewrite <- IZR_Zpower by lia. change (IZR (radix2 ^ 24)) with (IZR (2^24)).
      destruct (Z.abs_spec z) as [[? ?]|[? ?]].
      - left. f_equal. lia.
      - right. rewrite <- opp_IZR. f_equal. lia. }
    + rewrite Hz. apply generic_format_bpow. unfold FLT_exp; lia.
    + rewrite Hz. apply generic_format_opp, generic_format_bpow. unfold FLT_exp; lia.
  - apply generic_format_FLT. exists (Float radix2 z 0).
    + unfold F2R; simpl; lra.
    + simpl. change (Z.pow_pos 2 24) with (2^24)%Z. lia.
    + simpl; lia.
Qed.

Lemma rnd32_Z z : (Z.abs z <= 2 ^ 24)%Z -> rnd32 (IZR z) = IZR z.
Proof.
  intros H. rewrite rnd32_flt. apply round_generic; auto with typeclass_instances.
  apply generic_Z32; assumption.
Qed.

Lemma lt_bpow_Z z n k : (Z.abs z <= 2 ^ k)%Z -> (0 <= k < n)%Z -> (Rabs (IZR z) < bpow radix2 n)%R.
Proof.
  intros H Hk. rewrite <- abs_IZR. apply Rle_lt_trans with (bpow radix2 k).
  - rewrite <- IZR_Zpower by lia. apply IZR_le. exact H.
  - apply bpow_lt; lia.
Qed.

Lemma f32_ofZ_R z : (Z.abs z <= 2 ^ 24)%Z ->
  B2R (f32_ofZ z) = IZR z /\ is_finite (f32_ofZ z) = true.
Proof.
  intros H. unfold f32_ofZ.
  pose proof (binary_normalize_correct 24 128 Hprec32 Hmax32 mode_NE z 0 false) as K.
  cbv zeta in K.
  assert (E : F2R (Float radix2 z 0) = IZR z) by (unfold F2R; simpl; lra).
  rewrite E in K.
  fold (rnd32 (IZR z)) in K. rewrite rnd32_Z in K by assumption.
  rewrite Rlt_bool_true in K by (apply (lt_bpow_Z z 128 24); lia).
  destruct K as (K1 & K2 & _). split; assumption.
Qed.

Lemma f32_to_f64_Z (x : f32) z : (Z.abs z <= 2 ^ 24)%Z ->
  is_finite x = true -> B2R x = IZR z ->
  B2R (f32_to_f64 x) = IZR z /\ is_finite (f32_to_f64 x) = true.
Proof.
  intros Hz F E. destruct x as [s|s| |s m e Hm]; try discriminate.
  - simpl in *. auto.
  - cbn [f32_to_f64].
    pose proof (binary_normalize_correct 53 1024 Hprec64 Hmax64 mode_NE (cond_Zopp s (Z.pos m)) e s) as K.
    cbv zeta in K. change (F2R (Float radix2 (cond_Zopp s (Z.pos m)) e)) with (B2R (B754_finite s m e Hm)) in K.
    rewrite E in K. fold (rnd (IZR z)) in K. rewrite rnd_Z in K by lia.
    rewrite Rlt_bool_true in K by (apply (lt_bpow_Z z 1024 24); lia).
    destruct K as (K1 & K2 & _). split; assumption.
Qed.

Lemma f64_to_f32_Z (x : f64) z : (Z.abs z <= 2 ^ 24)%Z ->
  is_finite x = true -> B2R x = IZR z ->
  B2R (f64_to_f32 x) = IZR z /\ is_finite (f64_to_f32 x) = true.
Proof.
  intros Hz F E. destruct x as [s|s| |s m e Hm]; try discriminate.
  - simpl in *. auto.
  - cbn [f64_to_f32].
    pose proof (binary_normalize_correct 24 128 Hprec32 Hmax32 mode_NE (cond_Zopp s (Z.pos m)) e s) as K.
    cbv zeta in K. change (F2R (Float radix2 (cond_Zopp s (Z.pos m)) e)) with (B2R (B754_finite s m e Hm)) in K.
    rewrite E in K. fold (rnd32 (IZR z)) in K. rewrite rnd32_Z in K by lia.
    rewrite Rlt_bool_true in K by (apply (lt_bpow_Z z 128 24); lia).
    destruct K as (K1 & K2 & _). split; assumption.
Qed.


(** * Arithmetic in range *)

Lemma rnd32_err x : (Rabs (rnd32 x - x) <= / 2 ^ 24 * Rabs x + bpow radix2 (-150))%R.
Proof.
  rewrite rnd32_flt.
  destruct (error_N_FLT radix2 (-149) 24 eq_refl (fun z => negb (Z.even z)) x) as (eps & eta & H1 & H2 & _ & H3).
  fold ZnearestE in H3. rewrite H3.
  replace (x * (1 + eps) + eta - x)%R with (eps * x + eta)%R by ring.
  eapply Rle_trans; [apply Rabs_triang|]. rewrite Rabs_mult. apply Rplus_le_compat.
  - apply Rmult_le_compat_r; [apply Rabs_pos|]. eapply Rle_trans; [exact H1|].
    unfold u_ro. simpl. lra.
  - eapply Rle_trans; [exact H2|]. simpl. lra.
Qed.

Lemma rnd32_bound x (e : Z) : (Rabs x <= bpow radix2 e)%R -> -100 <= e < 128 ->
  (Rabs (rnd32 x) < bpow radix2 128)%R.
Proof.
  intros H He. apply Rle_lt_trans with (bpow radix2 e).
  - rewrite rnd32_flt. apply abs_round_le_generic; auto with typeclass_instances.
    apply generic_format_bpow. unfold FLT_exp; lia.
  - apply bpow_lt. lia.
Qed.

Lemma rnd32_B2R (x : f32) : rnd32 (B2R x) = B2R x.
Proof.
  rewrite rnd32_flt. apply round_generic; auto with typeclass_instances.
  apply (generic_format_B2R 24 128 x).
Qed.

Lemma f32_add_R (x y : f32) e : is_finite x = true -> is_finite y = true ->
  (Rabs (B2R x + B2R y) <= bpow radix2 e)%R -> -100 <= e < 128 ->
  B2R (f32_add x y) = rnd32 (B2R x + B2R y) /\ is_finite (f32_add x y) = true.
Proof.
  intros Hx Hy Hb He. unfold f32_add.
  pose proof (Bplus_correct 24 128 Hprec32 Hmax32 mode_NE x y Hx Hy) as K.
  rewrite Rlt_bool_true in K by (apply (rnd32_bound _ e); assumption).
  destruct K as (K1 & K2 & _). split; assumption.
Qed.
Lemma f32_sub_R (x y : f32) e : is_finite x = true -> is_finite y = true ->
  (Rabs (B2R x - B2R y) <= bpow radix2 e)%R -> -100 <= e < 128 ->
  B2R (f32_sub x y) = rnd32 (B2R x - B2R y) /\ is_finite (f32_sub x y) = true.
Proof.
  intros Hx Hy Hb He. unfold f32_sub.
  pose proof (Bminus_correct 24 128 Hprec32 Hmax32 mode_NE x y Hx Hy) as K.
  rewrite Rlt_bool_true in K by (apply (rnd32_bound _ e); assumption).
  destruct K as (K1 & K2 & _). split; assumption.
Qed.
Lemma f32_mul_R (x y : f32) e : is_finite x = true -> is_finite y = true ->
  (Rabs (B2R x * B2R y) <= bpow radix2 e)%R -> -100 <= e < 128 ->
  B2R (f32_mul x y) = rnd32 (B2R x * B2R y) /\ is_finite (f32_mul x y) = true.
Proof.
  intros Hx Hy Hb He. unfold f32_mul.
  pose proof (Bmult_correct 24 128 Hprec32 Hmax32 mode_NE x y) as K.
  rewrite Rlt_bool_true in K by (apply (rnd32_bound _ e); assumption).
  destruct K as (K1 & K2 & _). rewrite Hx, Hy in K2. split; assumption.
Qed.

Lemma f32_to_f64_R (x : f32) : is_finite x = true ->
  B2R (f32_to_f64 x) = B2R x /\ is_finite (f32_to_f64 x) = true.
Proof.
  intros F. destruct x as [s|s| |s m e Hm]; try discriminate.
  - simpl. auto.
  - cbn [f32_to_f64].
    pose proof (binary_normalize_correct 53 1024 Hprec64 Hmax64 mode_NE (cond_Zopp s (Z.pos m)) e s) as K.
    cbv zeta in K. change (F2R (Float radix2 (cond_Zopp s (Z.pos m)) e)) with (B2R (@B754_finite 24 128 s m e Hm)) in K.
    assert (G : generic_format radix2 (SpecFloat.fexp 53 1024) (B2R (@B754_finite 24 128 s m e Hm))).
    { apply generic_inclusion_mag with (fexp1 := FLT_exp (-149) 24).
      - intros _. unfold FLT_exp, SpecFloat.fexp, SpecFloat.emin. lia.
      - apply (generic_format_B2R 24 128). }
    assert (E : round radix2 (SpecFloat.fexp 53 1024) (round_mode mode_NE) (B2R (@B754_finite 24 128 s m e Hm))
                = B2R (@B754_finite 24 128 s m e Hm)).
    { apply round_generic; auto with typeclass_instances. }
    rewrite E in K. rewrite Rlt_bool_true in K.
    + destruct K as (K1 & K2 & _). split; assumption.
    + apply Rlt_trans with (bpow radix2 128); [apply (abs_B2R_lt_emax 24 128)|apply bpow_lt; lia].
Qed.
