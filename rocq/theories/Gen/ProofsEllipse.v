(** The ellipse. *)

From Coq Require Import ZArith Bool List String Reals Ratan Lia Lra Psatz.
From Flocq Require Import Core.Core.
From Verif.Base Require Import Num.
From Verif.Body Require Import Model Spec.
From Verif.Gen Require Import Model Spec ProofsCurve ProofsShapes.
Import ListNotations.
Local Open Scope R_scope.

Section Ellipse.
Variables dl Rx Ry : R.
Hypothesis D : 0 < dl.
Hypothesis Y : 0 < Ry.
Hypothesis X : Ry <= Rx.

Lemma da_bounds a : dl / Rx <= ell_da Rlib dl Rx Ry a <= dl / Ry.
Proof.
  unfold ell_da, Model.sqr. rn. change (@nsqrt RNum) with sqrt.
  pose proof (sin2_cos2 a) as U. unfold Rsqr in U.
  set (q := Rx * sin a * (Rx * sin a) + Ry * cos a * (Ry * cos a)).
  assert (S : 0 <= sin a * sin a) by nra. assert (C : 0 <= cos a * cos a) by nra.
  assert (Q : Ry * Ry <= Rx * Rx) by (apply Rmult_le_compat; lra).
  assert (Eq : q = Rx * Rx * (sin a * sin a) + Ry * Ry * (cos a * cos a)) by (unfold q; ring).
  assert (QS : Ry * Ry * (sin a * sin a) <= Rx * Rx * (sin a * sin a)) by (apply Rmult_le_compat_r; assumption).
  assert (QC : Ry * Ry * (cos a * cos a) <= Rx * Rx * (cos a * cos a)) by (apply Rmult_le_compat_r; assumption).
  assert (L : Ry <= sqrt q).
  { rewrite <- (sqrt_square Ry) by lra. apply sqrt_le_1_alt. rewrite Eq.
    assert (Ry * Ry = Ry * Ry * (sin a * sin a) + Ry * Ry * (cos a * cos a)) by (rewrite <- Rmult_plus_distr_l, U; ring). lra. }
  assert (H : sqrt q <= Rx).
  { rewrite <- (sqrt_square Rx) by lra. apply sqrt_le_1_alt. rewrite Eq.
    assert (Rx * Rx = Rx * Rx * (sin a * sin a) + Rx * Rx * (cos a * cos a)) by (rewrite <- Rmult_plus_distr_l, U; ring). lra. }
  unfold Rdiv. split; apply Rmult_le_compat_l; try lra; apply Rinv_le_contravar; lra.
Qed.

Lemma next_bounds a : a + dl / Rx <= ell_next Rlib dl Rx Ry a <= a + dl / Ry.
Proof.
  unfold ell_next. rn. pose proof (da_bounds a). pose proof (da_bounds (a + ell_da Rlib dl Rx Ry a)). rn. lra.
Qed.

Lemma semiell_ends stop k : forall a, stop - a <= INR k * (dl / Rx) -> exists s, semiell Rlib (S k) dl Rx Ry stop a = Some s.
Proof.
  induction k as [|k IH]; intros a H.
  - cbn [INR] in H. cbn [semiell]. change (@nltb RNum a stop) with (Rltb a stop).
    destruct (Rltb a stop) eqn:L; rbool; [lra|]. exists []. reflexivity.
  - cbn [semiell] in *. change (@nltb RNum a stop) with (Rltb a stop). destruct (Rltb a stop) eqn:L; rbool; [|exists []; reflexivity].
    destruct (IH (ell_next Rlib dl Rx Ry a)) as [s E].
    + rewrite S_INR in H. pose proof (next_bounds a). nra.
    + rewrite E. eexists. reflexivity.
Qed.

Lemma semiell_more stop f : forall a s, semiell Rlib f dl Rx Ry stop a = Some s -> forall g, (f <= g)%nat -> semiell Rlib g dl Rx Ry stop a = Some s.
Proof using.
  induction f as [|f IH]; intros a s E g G; [discriminate|]. destruct g as [|g]; [lia|]. cbn [semiell] in *.
  destruct (nltb a stop); [|exact E]. destruct (semiell Rlib f dl Rx Ry stop _) as [r|] eqn:F; [|discriminate].
  rewrite (IH _ _ F g ltac:(lia)). exact E.
Qed.

Lemma semiell_some stop a : exists f s, forall g, (f <= g)%nat -> semiell Rlib g dl Rx Ry stop a = Some s.
Proof.
  assert (P : 0 < dl / Rx) by (apply Rdiv_lt_0_compat; lra).
  destruct (archimed ((stop - a) / (dl / Rx))) as [A _]. set (k := Z.to_nat (up ((stop - a) / (dl / Rx)))).
  destruct (semiell_ends stop k a) as [s E].
  - apply Rle_trans with ((stop - a) / (dl / Rx) * (dl / Rx)); [right; field; lra|]. apply Rmult_le_compat_r; [lra|].
    apply Rle_trans with (IZR (up ((stop - a) / (dl / Rx)))); [lra|]. rewrite INR_IZR_INZ. apply IZR_le. unfold k. lia.
  - exists (S k), s. apply semiell_more, E.
Qed.

Lemma semiell_head stop f a s : semiell Rlib f dl Rx Ry stop a = Some s -> a < stop -> ell_next Rlib dl Rx Ry a < stop ->
  exists b t, s = a :: b :: t.
Proof using.
  intros E L N. destruct f as [|[|f]]; [discriminate| |].
  - cbn [semiell] in E. apply (Rltb_true a stop) in L. change (@nltb RNum) with Rltb in E. rewrite L in E. discriminate.
  - cbn [semiell] in E. change (@nltb RNum) with Rltb in E. apply Rltb_true in L. apply Rltb_true in N. rewrite L in E. rewrite N in E.
    destruct (semiell Rlib f dl Rx Ry stop _); [|discriminate]. cbn [option_map] in E. injection E as <-. eauto.
Qed.

Hypothesis F : dl < Ry / (19 / 10).

Lemma first_angle : 0 < asin (dl / (2 * Ry)) < PI / 6 /\ sin (asin (dl / (2 * Ry))) = dl / (2 * Ry).
Proof using D Y F.
  assert (B : 0 < dl / (2 * Ry) < 1 / 2).
  { split; [apply Rdiv_lt_0_compat; lra|]. apply (Rmult_lt_reg_r (2 * Ry)); [lra|]. replace (dl / (2 * Ry) * (2 * Ry)) with dl by (field; lra). lra. }
  assert (S : sin (asin (dl / (2 * Ry))) = dl / (2 * Ry)) by (apply sin_asin; lra).
  split; [|exact S]. pose proof (asin_bound (dl / (2 * Ry))) as Bd. pose proof PI_RGT_0.
  split.
  - apply sin_increasing_0; try lra. rewrite S, sin_0. lra.
  - apply sin_increasing_0; try lra. rewrite S, sin_PI6. lra.
Qed.

Lemma two_angles f s : let a0 := asin (dl / (2 * Ry)) in semiell Rlib f dl Rx Ry (PI - a0) a0 = Some s -> exists b t, s = a0 :: b :: t.
Proof.
  intros a0 E. destruct first_angle as [B _]. fold a0 in B. pose proof PI2_3_2. apply (semiell_head _ _ _ _ E); [lra|].
  pose proof (next_bounds a0) as N. assert (dl / Ry < 1 / (19 / 10)).
  { apply (Rmult_lt_reg_r Ry); [lra|]. replace (dl / Ry * Ry) with dl by (field; lra). lra. }
  lra.
Qed.
End Ellipse.

(** The corners. *)
Lemma blend_mirror s m i : (0 < m)%nat -> (i <= m)%nat -> blend Rlib s m (m - i) = PI - blend Rlib s m i.
Proof.
  intros M I. unfold blend. rewrite !nofZ_INR. replace (m - (m - i))%nat with i by lia. rewrite minus_INR by exact I.
  assert (INR m <> 0) by (apply not_0_INR; lia). rn.
  match goal with |- context [nth i s ?z] => set (u := nth i s z); set (v := nth (m - i) s z); clearbody u v end. rn. field. assumption.
Qed.

Lemma ell_nth Rx Ry s m : List.length s = S m -> List.length (ell_corners Rlib Rx Ry s) = (2 * S m)%nat /\
  forall i, (i <= m)%nat ->
  nth_error (points (ell_corners Rlib Rx Ry s)) i = Some (P (Rx * cos (blend Rlib s m i)) (- Ry * sin (blend Rlib s m i))) /\
  nth_error (points (ell_corners Rlib Rx Ry s)) (S m + i) = Some (P (- Rx * cos (blend Rlib s m i)) (Ry * sin (blend Rlib s m i))).
Proof.
  intros L. unfold ell_corners. destruct s as [|a s]; [discriminate|]. rewrite L. replace (S m - 1)%nat with m by lia. split.
  - rewrite app_length, !map_length, !seq_length. lia.
  - intros i I. unfold points. rewrite map_app, !map_map. cbn [fst].
    assert (Q : forall (g : nat -> pt) j, (j <= m)%nat -> nth_error (map g (seq 0 (S m))) j = Some (g j)).
    { intros g j J. rewrite nth_error_map. rewrite (nth_error_nth' _ 0%nat) by (rewrite seq_length; lia). rewrite seq_nth by lia. reflexivity. }
    split.
    + rewrite nth_error_app1 by (rewrite map_length, seq_length; lia). apply Q, I.
    + rewrite nth_error_app2 by (rewrite map_length, seq_length; lia). rewrite map_length, seq_length.
      replace (S m + i - S m)%nat with i by lia. apply Q, I.
Qed.

Lemma blend_first s m : (0 < m)%nat -> blend Rlib s m 0 = nth 0 s 0.
Proof.
  intros M. unfold blend. rewrite !nofZ_INR. cbn [INR]. assert (INR m <> 0) by (apply not_0_INR; lia).
  rewrite Nat.sub_0_r. rn.
  match goal with |- context [nth m s ?z] => set (u := nth 0 s z); set (v := nth m s z); clearbody u v end. rn. field. assumption.
Qed.
