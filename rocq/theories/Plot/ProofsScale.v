From Coq Require Import ZArith Bool List String Reals Lia Lra.
From Flocq Require Import Core.Core IEEE754.BinarySingleNaN.
From Verif.Base Require Import Num F64 F32.
From Verif.Field Require Import Model Spec ProofsMore.
From Verif.Field Require Properties.
From Verif.Print Require Import Model Spec Proofs ModelInfo.
From Verif.Plot Require Import ModelScale.
Import ListNotations.
Local Open Scope R_scope.

Lemma finite_double (x : f64) : is_finite x = true -> finite (of_double x).
Proof. destruct x as [s|s| |s m [|e|e] H]; try discriminate; intros _; exact I. Qed.
Lemma real_double (x : f64) : is_finite x = true -> real (of_double x) = B2R x.
Proof.
  destruct x as [s|s| |s m e H]; try discriminate; intros _; [reflexivity|].
  assert (S : forall r, signed s r = (if s then -1 else 1) * r) by (intros r; destruct s; cbn [signed]; ring).
  assert (C : IZR (cond_Zopp s (Zpos m)) = (if s then -1 else 1) * IZR (Zpos m)) by (destruct s; cbn [cond_Zopp]; rewrite ?opp_IZR; ring).
  unfold B2R, F2R. cbn [Fnum Fexp]. rewrite C.
  destruct e as [|e|e]; cbn [of_double real]; rewrite S, Rmult_assoc; f_equal.
  - cbn [bpow]. field.
  - rewrite Pos2Z.inj_mul, mult_IZR, Pos2Z.inj_pow. cbn [bpow]. unfold Rdiv. rewrite Rinv_1, Rmult_1_r. reflexivity.
  - rewrite Pos2Z.inj_pow. cbn [bpow]. reflexivity.
Qed.

Definition shows (x : f64) : R := printed 6 (of_double x).
Lemma num_shows x : is_finite x = true -> reads (num x) (shows x).
Proof. intros F. apply show_g_printed; [lia|apply finite_double, F]. Qed.
Lemma shows_mono x y : is_finite x = true -> is_finite y = true -> B2R x <= B2R y -> shows x <= shows y.
Proof. intros Fx Fy H. apply printed_mono; [lia|]. rewrite !real_double by assumption. exact H. Qed.
Lemma shows_pos x : is_finite x = true -> 0 < B2R x -> 0 < shows x.
Proof.
  intros F H. pose proof (printed_near 6 (of_double x) ltac:(lia)) as N. fold (shows x) in N. rewrite real_double in N by exact F.
  rewrite (Rabs_pos_eq (B2R x)) in N by lra. replace (2 * 10 ^ (6 - 1)) with 200000 in N by (simpl; lra).
  assert (K : Rabs (shows x - B2R x) <= B2R x / 200000) by lra. apply Rabs_le_inv in K. lra.
Qed.

Lemma div_R (x : f64) n : is_finite x = true -> (1 <= n <= 2 ^ 53)%Z ->
  is_finite (@ndiv F64 x (f64_ofZ n)) = true /\ B2R (@ndiv F64 x (f64_ofZ n)) = rnd (B2R x / IZR n).
Proof.
  intros F Hn. destruct (f64_ofZ_R n) as (E & _); [lia|].
  assert (N : 1 <= IZR n) by (apply IZR_le; lia).
  assert (I0 : 0 < / IZR n <= 1) by (split; [apply Rinv_0_lt_compat; lra|rewrite <- Rinv_1; apply Rinv_le; lra]).
  pose proof (Bdiv_correct 53 1024 Hprec64 Hmax64 mode_NE x (f64_ofZ n)) as K. rewrite E in K. specialize (K ltac:(lra)).
  change (round_mode mode_NE) with ZnearestE in K. fold (rnd (B2R x / IZR n)) in K.
  assert (B : Rabs (rnd (B2R x / IZR n)) <= Rabs (B2R x)).
  { rewrite rnd_flt. apply abs_round_le_generic; auto with typeclass_instances.
    - apply generic_format_abs, (generic_format_B2R 53 1024).
    - unfold Rdiv. rewrite Rabs_mult, (Rabs_pos_eq (/ IZR n)) by lra. pose proof (Rabs_pos (B2R x)). nra. }
  rewrite Rlt_bool_true in K by (eapply Rle_lt_trans; [exact B|apply (abs_B2R_lt_emax 53 1024)]).
  destruct K as (K1 & K2 & _). split; [|exact K1]. rewrite F in K2. exact K2.
Qed.
Lemma div_one (x : f64) : is_finite x = true -> B2R (@ndiv F64 x (f64_ofZ 1)) = B2R x.
Proof. intros F. destruct (div_R x 1 F) as (_ & E); [lia|]. rewrite E. unfold Rdiv. rewrite Rinv_1, Rmult_1_r. apply rnd_B2R. Qed.
Lemma rnd_mono a b : a <= b -> rnd a <= rnd b.
Proof. intros H. rewrite (rnd_flt a), (rnd_flt b). apply Flocq.Core.Generic_fmt.round_le; auto with typeclass_instances. Qed.
Lemma div_three (x : f64) : is_finite x = true ->
  (0 <= B2R x -> 0 <= B2R (@ndiv F64 x (f64_ofZ 3)) <= B2R x) /\ (B2R x <= 0 -> B2R x <= B2R (@ndiv F64 x (f64_ofZ 3)) <= 0).
Proof.
  intros F. destruct (div_R x 3 F) as (_ & E); [lia|]. rewrite E.
  assert (Z0 : rnd 0 = 0) by (apply (rnd_Z 0); lia).
  pose proof (rnd_B2R x) as X.
  split; intros H.
  - pose proof (rnd_mono 0 (B2R x / 3) ltac:(lra)). pose proof (rnd_mono (B2R x / 3) (B2R x) ltac:(lra)). lra.
  - pose proof (rnd_mono (B2R x / 3) 0 ltac:(lra)). pose proof (rnd_mono (B2R x) (B2R x / 3) ltac:(lra)). lra.
Qed.

(** Counting. *)
Lemma count_le {A} (f g : A -> bool) l : (forall y, In y l -> f y = true -> g y = true) ->
  (List.length (filter f l) <= List.length (filter g l))%nat.
Proof.
  induction l as [|y l IH]; intros H; [reflexivity|]. cbn [filter].
  pose proof (IH (fun z Hz => H z (or_intror Hz))). pose proof (H y (or_introl eq_refl)).
  destruct (f y), (g y); cbn [List.length]; lia.
Qed.
Lemma count_both {A} (f g : A -> bool) l : (forall y, In y l -> f y = true \/ g y = true) ->
  (List.length l <= List.length (filter f l) + List.length (filter g l))%nat.
Proof.
  induction l as [|y l IH]; intros H; [reflexivity|]. cbn [filter].
  pose proof (IH (fun z Hz => H z (or_intror Hz))). destruct (H y (or_introl eq_refl)) as [E|E]; rewrite E;
    [destruct (g y)|destruct (f y)]; cbn [List.length]; lia.
Qed.

Lemma low_R : is_finite low = true /\ B2R low = 10737418 / 536870912.
Proof.
  assert (S : B2SF low = SpecFloat.S754_finite false 10737418 (-29)) by (vm_compute; reflexivity).
  split; [rewrite <- is_finite_SF_B2SF, S; reflexivity|]. rewrite <- SF2R_B2SF, S. unfold SF2R, F2R. simpl. lra.
Qed.
Lemma high_R : is_finite high = true /\ B2R high = 16441672 / 16777216.
Proof.
  assert (S : B2SF high = SpecFloat.S754_finite false 16441672 (-24)) by (vm_compute; reflexivity).
  split; [rewrite <- is_finite_SF_B2SF, S; reflexivity|]. rewrite <- SF2R_B2SF, S. unfold SF2R, F2R. simpl. lra.
Qed.
Lemma rest_R : B2R (f32_sub (f32_ofZ 1) high) = 10737408 / 536870912.
Proof.
  assert (S : B2SF (f32_sub (f32_ofZ 1) high) = SpecFloat.S754_finite false 10737408 (-29)) by (vm_compute; reflexivity).
  rewrite <- SF2R_B2SF, S. unfold SF2R, F2R. simpl. lra.
Qed.

(** The rank is at least one from 51 values on and at most one above a fiftieth. *)
Lemma rank_bounds n q : (51 <= n <= Z.to_nat (2 ^ 24))%nat -> 1 / 51 <= q <= 1 / 50 ->
  let N := Zfloor (rnd32 (IZR (Z.of_nat n) * q)) in (0 < N)%Z /\ (50 * (Z.to_nat N - 1) <= n)%nat /\ (50 * Z.to_nat N <= n + 50)%nat.
Proof.
  intros Hn Hq N. assert (L : 51 <= IZR (Z.of_nat n)) by (apply (IZR_le 51); lia).
  set (x := IZR (Z.of_nat n)) in *.
  assert (Lo : 1 <= x * q) by (replace 1 with (51 * (1 / 51)) by field; apply Rmult_le_compat; lra).
  assert (Up : x * q <= x / 50) by (unfold Rdiv; rewrite <- (Rmult_1_l (/ 50)); apply Rmult_le_compat_l; lra).
  assert (N1 : (0 < N)%Z).
  { unfold N. apply Z.lt_le_trans with 1%Z; [lia|]. apply Zfloor_lub. rewrite <- (rnd32_Z 1) by lia. apply rnd32_le. exact Lo. }
  set (k := (Z.of_nat n / 50 + 1)%Z).
  assert (D : (50 * (Z.of_nat n / 50) <= Z.of_nat n < 50 * (Z.of_nat n / 50) + 50)%Z).
  { pose proof (Z.div_mod (Z.of_nat n) 50 ltac:(lia)). pose proof (Z.mod_pos_bound (Z.of_nat n) 50 ltac:(lia)). lia. }
  assert (N2 : (N <= k)%Z).
  { unfold N. apply le_IZR. eapply Rle_trans; [apply Zfloor_lb|]. rewrite <- (rnd32_Z k) by (unfold k; lia). apply rnd32_le.
    assert (x <= 50 * IZR k).
    { unfold x. rewrite <- mult_IZR. apply IZR_le. unfold k. lia. }
    lra. }
  split; [exact N1|]. unfold k in N2. lia.
Qed.
