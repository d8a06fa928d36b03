From Coq Require Import ZArith Bool List Lia Reals Lra.
From Flocq Require Import Core.Core IEEE754.BinarySingleNaN.
From Verif.Base Require Import Num F64 F32.
From Verif.Isoline Require Import Model ModelSteps ProofsLevels.
Import ListNotations.
Local Open Scope R_scope.

Lemma f64_sub_R (x y : f64) e :
  is_finite x = true -> is_finite y = true ->
  Rabs (B2R x - B2R y) <= bpow radix2 e -> (-1000 <= e < 1024)%Z ->
  B2R (@nsub F64 x y) = rnd (B2R x - B2R y) /\ is_finite (@nsub F64 x y) = true.
Proof.
  intros Hx Hy Hb He. simpl.
  pose proof (Bminus_correct 53 1024 Hprec64 Hmax64 mode_NE x y Hx Hy) as K.
  change (round_mode mode_NE) with ZnearestE in K.
  fold (rnd (B2R x - B2R y)) in K.
  rewrite Rlt_bool_true in K by (eapply rnd_bound_lt; eauto).
  destruct K as (K1 & K2 & _). split; assumption.
Qed.

(** Different floats differ by at least 2^-25 of their size. *)
Lemma gap32 (a b : f32) : 0 <= B2R a < B2R b -> B2R b <= bpow radix2 25 * (B2R b - B2R a).
Proof.
  intros (Ha & Hab).
  assert (Fa : generic_format radix2 (FLT_exp (-149) 24) (B2R a)) by apply (generic_format_B2R 24 128 a).
  assert (Fb : generic_format radix2 (FLT_exp (-149) 24) (B2R b)) by apply (generic_format_B2R 24 128 b).
  assert (P : Prec_gt_0 24) by reflexivity.
  pose proof (succ_le_lt radix2 (FLT_exp (-149) 24) _ _ Fa Fb Hab) as S.
  rewrite succ_eq_pos in S by exact Ha.
  pose proof (ulp_FLT_gt radix2 (-149) 24 (B2R a)) as U. rewrite Rabs_pos_eq in U by exact Ha.
  change (bpow radix2 (- (24))) with (/ 16777216) in U. change (bpow radix2 25) with 33554432. lra.
Qed.
Lemma gap32' (a b : f32) : B2R a < B2R b ->
  Rabs (B2R a) <= bpow radix2 25 * (B2R b - B2R a) /\ Rabs (B2R b) <= bpow radix2 25 * (B2R b - B2R a).
Proof.
  intros H. change (bpow radix2 25) with 33554432.
  destruct (Rle_lt_dec 0 (B2R a)) as [Ha|Ha].
  - pose proof (gap32 a b (conj Ha H)) as G. change (bpow radix2 25) with 33554432 in G. rewrite !Rabs_pos_eq by lra. lra.
  - destruct (Rle_lt_dec (B2R b) 0) as [Hb|Hb].
    + pose proof (gap32 (Bopp b) (Bopp a)) as G. rewrite !B2R_Bopp in G. change (bpow radix2 25) with 33554432 in G.
      rewrite !Rabs_left1 by lra. specialize (G ltac:(lra)). lra.
    + rewrite (Rabs_left (B2R a)), (Rabs_pos_eq (B2R b)) by lra. lra.
Qed.
Lemma gap32_abs (a b : f32) : B2R a < B2R b -> bpow radix2 (-174) <= B2R b - B2R a.
Proof.
  intros H. destruct (gap32' a b H) as (A & B).
  assert (M : bpow radix2 (-149) <= Rabs (B2R a) \/ bpow radix2 (-149) <= Rabs (B2R b)).
  { assert (Q : forall x : f32, B2R x <> 0 -> bpow radix2 (-149) <= Rabs (B2R x)).
    { intros x N. apply (abs_B2R_ge_emin 24 128). destruct x; try reflexivity; simpl in N; lra. }
    destruct (Req_dec (B2R a) 0); [right; apply Q; lra|left; apply Q; assumption]. }
  apply Rmult_le_reg_l with (bpow radix2 25); [apply bpow_gt_0|]. rewrite <- bpow_plus.
  replace (25 + -174)%Z with (-149)%Z by reflexivity. destruct M; lra.
Qed.
Lemma size32 (a : f32) : Rabs (B2R a) < bpow radix2 128.
Proof. apply (abs_B2R_lt_emax 24 128). Qed.

Lemma rnd_near x d : Rabs x <= d -> bpow radix2 (-960) <= d -> Rabs (rnd x - x) <= / 2 ^ 53 * d.
Proof.
  intros H Hd. destruct (Rle_lt_dec (bpow radix2 (-1022)) (Rabs x)) as [Big|Small].
  - eapply Rle_trans; [apply rnd_rel; exact Big|]. apply Rmult_le_compat_l; [|exact H]. left. apply Rinv_0_lt_compat, pow_lt. lra.
  - assert (Q : Rabs (rnd x) <= bpow radix2 (-1022)).
    { rewrite rnd_flt. apply abs_round_le_generic; auto with typeclass_instances.
      - apply generic_format_bpow. unfold FLT_exp; lia.
      - lra. }
    apply Rle_trans with (bpow radix2 (-1021)).
    + unfold Rminus. eapply Rle_trans; [apply Rabs_triang|]. rewrite Rabs_Ropp.
      change (-1021)%Z with (1 + -1022)%Z. rewrite bpow_plus. change (bpow radix2 1) with 2. lra.
    + apply Rle_trans with (/ 2 ^ 53 * bpow radix2 (-960)).
      * replace (/ 2 ^ 53) with (bpow radix2 (-53)) by (simpl; lra). rewrite <- bpow_plus. apply bpow_le. lia.
      * apply Rmult_le_compat_l; [|exact Hd]. left. apply Rinv_0_lt_compat, pow_lt. lra.
Qed.

(** A range that is wide enough for its numbers. *)
Definition wide (lo hi : f64) : Prop :=
  is_finite lo = true /\ is_finite hi = true /\ bpow radix2 (-950) <= B2R hi - B2R lo /\
  Rabs (B2R lo) <= bpow radix2 40 * (B2R hi - B2R lo) /\ Rabs (B2R hi) <= bpow radix2 40 * (B2R hi - B2R lo) /\
  Rabs (B2R lo) <= bpow radix2 1021 /\ Rabs (B2R hi) <= bpow radix2 1021.
Lemma wide32 (a b : f32) : is_finite a = true -> is_finite b = true -> B2R a < B2R b -> wide (f32_to_f64 a) (f32_to_f64 b).
Proof.
  intros Fa Fb H. destruct (f32_to_f64_R a Fa) as (Ea & Fa'). destruct (f32_to_f64_R b Fb) as (Eb & Fb').
  unfold wide. rewrite Ea, Eb. destruct (gap32' a b H) as (Ga & Gb). pose proof (gap32_abs a b H).
  pose proof (size32 a). pose proof (size32 b).
  assert (bpow radix2 (-950) <= bpow radix2 (-174)) by (apply bpow_le; lia).
  assert (bpow radix2 128 <= bpow radix2 1021) by (apply bpow_le; lia).
  assert (bpow radix2 25 * (B2R b - B2R a) <= bpow radix2 40 * (B2R b - B2R a)) by (apply Rmult_le_compat_r; [lra|apply bpow_le; lia]).
  repeat split; try assumption; lra.
Qed.

(** The step is a 33rd of the range. *)
Lemma step_size (lo hi : f64) : wide lo hi ->
  let dv := @ndiv F64 (@nsub F64 hi lo) (f64_ofZ 33) in
  let D := B2R hi - B2R lo in
  is_finite dv = true /\ Rabs (B2R dv - D / 33) <= D / 6000.
Proof.
  intros (Fa & Fb & G & _ & _ & Sa & Sb) dv D. apply Rabs_le_inv in Sa. apply Rabs_le_inv in Sb. fold D in G.
  assert (DP : 0 < D) by (pose proof (bpow_gt_0 radix2 (-950)); lra).
  assert (K : bpow radix2 1021 + bpow radix2 1021 = bpow radix2 1022).
  { change 1022%Z with (1 + 1021)%Z. rewrite bpow_plus. change (bpow radix2 1) with 2. lra. }
  assert (DU : D <= bpow radix2 1022) by (unfold D; lra).
  destruct (f64_sub_R hi lo 1022 Fb Fa) as (E1 & F1); [fold D; rewrite Rabs_pos_eq; lra|lia|]. fold D in E1.
  assert (B200 : bpow radix2 (-960) <= bpow radix2 (-950)) by (apply bpow_le; lia).
  pose proof (rnd_near D D ltac:(rewrite Rabs_pos_eq; lra) ltac:(lra)) as N1.
  set (r := rnd D) in *. apply Rabs_le_inv in N1.
  destruct (f64_ofZ_R 33) as (E33 & F33); [lia|].
  assert (T : / 2 ^ 53 <= / 1000000) by (apply Rinv_le; lra).
  assert (T2 : / 2 ^ 53 * D <= / 1000000 * D) by (apply Rmult_le_compat_r; lra).
  assert (R1 : Rabs (r / 33) <= D) by (apply Rabs_le; lra).
  destruct (f64_div_R (@nsub F64 hi lo) (f64_ofZ 33) 1022 F1) as (E2 & F2).
  { rewrite E33. lra. }
  { rewrite E33, E1. lra. }
  { lia. }
  split; [exact F2|]. unfold dv. rewrite E2, E33, E1.
  pose proof (rnd_near (r / 33) D R1 ltac:(lra)) as N2. apply Rabs_le_inv in N2. apply Rabs_le. lra.
Qed.

(** One level to the next. *)
Lemma next_level (lo hi v : f64) : wide lo hi ->
  let dv := @ndiv F64 (@nsub F64 hi lo) (f64_ofZ 33) in
  let D := B2R hi - B2R lo in
  is_finite v = true -> B2R lo <= B2R v <= B2R hi ->
  is_finite (@nadd F64 v dv) = true /\ Rabs (B2R (@nadd F64 v dv) - (B2R v + D / 33)) <= D / 3000.
Proof.
  intros W dv D Fv Hv. destruct (step_size lo hi W) as (Fd & Sd). fold dv D in Fd, Sd.
  destruct W as (_ & _ & G & Ga & Gb & Sa & Sb). fold D in G, Ga, Gb.
  apply Rabs_le_inv in Sd. apply Rabs_le_inv in Sa. apply Rabs_le_inv in Sb. apply Rabs_le_inv in Ga. apply Rabs_le_inv in Gb.
  assert (DP : 0 < D) by (pose proof (bpow_gt_0 radix2 (-950)); lra).
  assert (K : bpow radix2 1021 + bpow radix2 1021 = bpow radix2 1022).
  { change 1022%Z with (1 + 1021)%Z. rewrite bpow_plus. change (bpow radix2 1) with 2. lra. }
  assert (K2 : bpow radix2 1022 + bpow radix2 1022 = bpow radix2 1023).
  { change 1023%Z with (1 + 1022)%Z. rewrite bpow_plus. change (bpow radix2 1) with 2. lra. }
  assert (DU : D <= bpow radix2 1022) by (unfold D; lra).
  assert (B200 : bpow radix2 (-960) <= bpow radix2 (-950)) by (apply bpow_le; lia).
  destruct (f64_add_R v dv 1023 Fv Fd) as (E & F); [apply Rabs_le; lra|lia|].
  split; [exact F|]. rewrite E.
  change (bpow radix2 40) with 1099511627776 in Ga, Gb.
  pose proof (rnd_near (B2R v + B2R dv) (1099511627777 * D) ltac:(apply Rabs_le; lra) ltac:(lra)) as N.
  assert (T : / 2 ^ 53 * (1099511627777 * D) <= D / 6000).
  { replace (D / 6000) with (/ 6000 * D) by field. rewrite <- Rmult_assoc. apply Rmult_le_compat_r; [lra|].
    apply Rmult_le_reg_l with (2 ^ 53); [apply pow_lt; lra|]. rewrite <- Rmult_assoc, Rinv_r by (apply pow_nonzero; lra). lra. }
  apply Rabs_le_inv in N. apply Rabs_le. lra.
Qed.

Lemma all_levels (a b : f64) : wide a b ->
  let dv := @ndiv F64 (@nsub F64 b a) (f64_ofZ 33) in
  let D := B2R b - B2R a in
  forall n k v, (n + k = 34)%nat -> is_finite v = true ->
  Rabs (B2R v - (B2R a + INR k * (D / 33))) <= INR k * (D / 3000) ->
  exists l, levels n v b dv = Some l /\ (33 - k <= List.length l <= 34 - k)%nat /\
    forall i x, nth_error l i = Some x -> is_finite x = true /\ B2R a <= B2R x <= B2R b /\
      Rabs (B2R x - (B2R a + INR (k + i) * (D / 33))) <= INR (k + i) * (D / 3000).
Proof.
  intros H dv D. pose proof H as (Fa & Fb & G & _). fold D in G.
  assert (DP : 0 < D) by (pose proof (bpow_gt_0 radix2 (-950)); lra).
  induction n as [|n IH]; intros k v Hk Fv Hv; cbn [levels].
  - assert (k = 34%nat) by lia. subst k. destruct (@nleb F64 v b) eqn:E.
    + exfalso. apply f64_leb_true in E; try assumption.  apply Rabs_le_inv in Hv.
      replace (INR 34) with 34 in Hv by (simpl; lra). unfold D in *. lra.
    + exists []. split; [reflexivity|]. split; [simpl; lia|]. intros i x Hi. destruct i; discriminate.
  - assert (Kr : 0 <= INR k <= 33) by (split; [apply pos_INR|replace 33 with (INR 33) by (simpl; lra); apply le_INR; lia]).
    pose proof Hv as Hv'. apply Rabs_le_inv in Hv'.
    destruct (@nleb F64 v b) eqn:E.
    + apply f64_leb_true in E; try assumption. 
      assert (La : B2R a <= B2R v).
      { assert (INR k * (D / 3000) <= INR k * (D / 33)) by (apply Rmult_le_compat_l; lra). lra. }
      destruct (next_level a b v H Fv (conj La E)) as (F & N). fold dv D in F, N.
      destruct (IH (S k) (@nadd F64 v dv)) as (l & L & Ln & Ls); [lia|exact F| |].
      { rewrite S_INR. apply Rabs_le_inv in N. apply Rabs_le. lra. }
      rewrite L. exists (v :: l). split; [reflexivity|]. split; [cbn [List.length]; lia|].
      intros i x Hi. destruct i as [|i]; [|replace (k + S i)%nat with (S k + i)%nat by lia; exact (Ls i x Hi)].
      injection Hi as <-. rewrite Nat.add_0_r. repeat split; assumption.
    + exists []. split; [reflexivity|]. split.
      * cbn [List.length]. split; [|lia]. destruct (Nat.eq_dec k 33) as [->|Nk]; [lia|]. exfalso.
        assert (INR k <= 32) by (replace 32 with (INR 32) by (simpl; lra); apply le_INR; lia).
        assert (X : @nleb F64 v b = true).
        { apply f64_leb_true; try assumption.
          assert (INR k * (D / 33) <= 32 * (D / 33)) by (apply Rmult_le_compat_r; lra).
          assert (INR k * (D / 3000) <= 32 * (D / 3000)) by (apply Rmult_le_compat_r; lra).
          unfold D in *. lra. }
        congruence.
      * intros i x Hi. destruct i; discriminate.
Qed.
