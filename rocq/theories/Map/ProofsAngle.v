(** Angles, and the derivative of the angle of a moving point. *)

From Coq Require Import List Reals ZArith Lra Psatz.
From Verif.Base Require Import Num.
From Verif.Body Require Import Model.
From Verif.Map Require Import Model Spec.
Local Open Scope R_scope.

Lemma cos_one : forall d, - (2 * PI) < d < 2 * PI -> cos d = 1 -> d = 0.
Proof.
  intros d H E.
  assert (S : sin (d / 2) = 0).
  { replace d with (2 * (d / 2)) in E by field. rewrite cos_2a_sin in E.
    assert (sin (d / 2) * sin (d / 2) = 0) by lra. nra. }
  destruct (Rtotal_order (d / 2) 0) as [L | [L | L]].
  - assert (- PI < d / 2) by lra. pose proof (sin_lt_0_var (d / 2) H0 L). lra.
  - lra.
  - assert (d / 2 < PI) by lra. pose proof (sin_gt_0 (d / 2) L H0). lra.
Qed.

Lemma root_pos : forall x y, x <> 0 \/ y <> 0 -> 0 < sqrt (x * x + y * y).
Proof. intros x y [H | H]; apply sqrt_lt_R0; nra. Qed.
Lemma root_sq : forall x y, sqrt (x * x + y * y) * sqrt (x * x + y * y) = x * x + y * y.
Proof. intros. apply sqrt_sqrt. nra. Qed.

(** There is only one angle. *)
Lemma angle_unique : forall y x s t, x <> 0 \/ y <> 0 -> is_angle y x s -> is_angle y x t -> s = t.
Proof.
  intros y x s t N [Bs [Xs Ys]] [Bt [Xt Yt]]. pose proof (root_pos x y N) as P.
  set (m := sqrt (x * x + y * y)) in *.
  assert (C : cos s = cos t) by (apply (Rmult_eq_reg_l m); lra).
  assert (S : sin s = sin t) by (apply (Rmult_eq_reg_l m); lra).
  assert (cos (s - t) = 1) by (rewrite cos_minus, C, S; pose proof (sin2_cos2 t); unfold Rsqr in *; lra).
  assert (s - t = 0) by (apply cos_one; [lra | assumption]). lra.
Qed.

Lemma scaled_root : forall a b, a <> 0 -> sqrt (a * a + b * b) = Rabs a * sqrt (1 + (b / a)²).
Proof.
  intros a b N. rewrite <- (sqrt_Rsqr_abs a), <- sqrt_mult.
  - f_equal. unfold Rsqr. field. exact N.
  - apply Rle_0_sqr.
  - pose proof (Rle_0_sqr (b / a)); lra.
Qed.
Lemma root1_pos : forall z, 0 < sqrt (1 + z²).
Proof. intro z. apply sqrt_lt_R0. pose proof (Rle_0_sqr z). lra. Qed.

Lemma angle_right : forall y x, 0 < x -> is_angle y x (atan (y / x)).
Proof.
  intros y x H. pose proof (atan_bound (y / x)). pose proof PI_RGT_0. pose proof (root1_pos (y / x)).
  unfold is_angle; split; [lra |].
  rewrite (scaled_root x y) by lra. rewrite (Rabs_right x) by lra. rewrite cos_atan, sin_atan.
  split; field; repeat split; lra.
Qed.
Lemma angle_up : forall y x, 0 < y -> is_angle y x (PI / 2 - atan (x / y)).
Proof.
  intros y x H. pose proof (atan_bound (x / y)). pose proof PI_RGT_0. pose proof (root1_pos (x / y)).
  unfold is_angle; split; [lra |].
  rewrite cos_shift, sin_shift. rewrite (Rplus_comm (x * x)), (scaled_root y x) by lra. rewrite (Rabs_right y) by lra.
  rewrite cos_atan, sin_atan. split; field; repeat split; lra.
Qed.
Lemma angle_down : forall y x, y < 0 -> is_angle y x (- (PI / 2) - atan (x / y)).
Proof.
  intros y x H. pose proof (atan_bound (x / y)). pose proof PI_RGT_0. pose proof (root1_pos (x / y)).
  unfold is_angle; split; [lra |].
  replace (- (PI / 2) - atan (x / y)) with (- (PI / 2 + atan (x / y))) by ring.
  rewrite cos_neg, sin_neg.
  replace (cos (PI / 2 + atan (x / y))) with (- sin (atan (x / y))) by (rewrite (sin_cos (atan (x / y))); ring).
  replace (sin (PI / 2 + atan (x / y))) with (cos (atan (x / y))) by (rewrite cos_sin; reflexivity).
  rewrite (Rplus_comm (x * x)), (scaled_root y x) by lra. rewrite (Rabs_left y) by lra.
  rewrite cos_atan, sin_atan. split; field; repeat split; lra.
Qed.
Lemma angle_left : forall x, x < 0 -> is_angle 0 x PI.
Proof.
  intros x H. pose proof PI_RGT_0. unfold is_angle; split; [lra |]. rewrite cos_PI, sin_PI, Rmult_0_r, Rplus_0_r.
  change (x * x) with (Rsqr x). rewrite sqrt_Rsqr_abs, Rabs_left by lra. split; ring.
Qed.

Lemma Ratan2_principal : principal Ratan2.
Proof.
  intros y x N. unfold Ratan2.
  destruct (Rlt_dec 0 x); [apply angle_right; assumption |].
  destruct (Rlt_dec 0 y); [apply angle_up; assumption |].
  destruct (Rlt_dec y 0); [apply angle_down; assumption |].
  assert (y = 0) by lra; subst y.
  destruct (Rlt_dec x 0); [apply angle_left; assumption |]. exfalso; destruct N; lra.
Qed.

(** ** Ranges *)
Section F.
Variable f : R -> R -> R.
Hypothesis P : principal f.

Lemma f_right : forall y x, 0 < x -> f y x = atan (y / x).
Proof. intros. apply (angle_unique y x); [left; lra | apply P; left; lra | apply angle_right; assumption]. Qed.
Lemma f_up : forall y x, 0 < y -> f y x = PI / 2 - atan (x / y).
Proof. intros. apply (angle_unique y x); [right; lra | apply P; right; lra | apply angle_up; assumption]. Qed.
Lemma f_down : forall y x, y < 0 -> f y x = - (PI / 2) - atan (x / y).
Proof. intros. apply (angle_unique y x); [right; lra | apply P; right; lra | apply angle_down; assumption]. Qed.
Lemma f_left : forall x, x < 0 -> f 0 x = PI.
Proof. intros. apply (angle_unique 0 x); [left; lra | apply P; left; lra | apply angle_left; assumption]. Qed.

Lemma range_right : forall y x, 0 < x -> - (PI / 2) < f y x < PI / 2.
Proof. intros. rewrite f_right by assumption. pose proof (atan_bound (y / x)). lra. Qed.
Lemma range_up : forall y x, 0 < y -> 0 < f y x < PI.
Proof. intros. rewrite f_up by assumption. pose proof (atan_bound (x / y)). lra. Qed.
Lemma range_down : forall y x, y < 0 -> - PI < f y x < 0.
Proof. intros. rewrite f_down by assumption. pose proof (atan_bound (x / y)). lra. Qed.
Lemma range_zero : forall y, (0 < y -> f y 0 = PI / 2) /\ (y < 0 -> f y 0 = - (PI / 2)).
Proof.
  intro y. split; intro H; [rewrite f_up | rewrite f_down]; try assumption; unfold Rdiv at 2; rewrite Rmult_0_l, atan_0; ring.
Qed.
Lemma atan_neg : forall z, z < 0 -> atan z < 0.
Proof. intros. rewrite <- atan_0. apply atan_increasing. assumption. Qed.
Lemma atan_pos : forall z, 0 < z -> 0 < atan z.
Proof. intros. rewrite <- atan_0. apply atan_increasing. assumption. Qed.
Lemma div_neg : forall a b, a < 0 -> 0 < b -> a / b < 0.
Proof. intros. unfold Rdiv. pose proof (Rinv_0_lt_compat b H0). nra. Qed.
Lemma div_neg2 : forall a b, a < 0 -> b < 0 -> 0 < a / b.
Proof. intros. unfold Rdiv. pose proof (Rinv_lt_0_compat b H0). nra. Qed.
Lemma range_left_up : forall y x, x < 0 -> 0 <= y -> PI / 2 < f y x <= PI.
Proof.
  intros y x Hx Hy. pose proof PI_RGT_0. destruct (Req_dec y 0) as [-> | N].
  - rewrite f_left by assumption. lra.
  - assert (0 < y) by lra. rewrite f_up by assumption. pose proof (atan_bound (x / y)). pose proof (atan_neg _ (div_neg x y Hx H0)). lra.
Qed.
Lemma range_left_down : forall y x, x < 0 -> y < 0 -> - PI < f y x < - (PI / 2).
Proof.
  intros y x Hx Hy. rewrite f_down by assumption. pose proof (atan_bound (x / y)). pose proof (atan_pos _ (div_neg2 x y Hx Hy)). lra.
Qed.

(** ** Derivatives *)

Lemma deriv_local : forall (g h : R -> R) t l,
  (exists d, 0 < d /\ forall s, Rabs (s - t) < d -> g s = h s) -> derivable_pt_lim g t l -> derivable_pt_lim h t l.
Proof.
  intros g h t l [d [D E]] G eps He. destruct (G eps He) as [del Hd].
  assert (M : 0 < Rmin del d) by (apply Rmin_pos; [apply cond_pos | exact D]).
  exists (mkposreal _ M). intros k Nk Hk. cbn in Hk.
  rewrite <- !E.
  - apply Hd; [exact Nk |]. eapply Rlt_le_trans; [exact Hk | apply Rmin_l].
  - rewrite Rminus_diag_eq by reflexivity. rewrite Rabs_R0. exact D.
  - replace (t + k - t) with k by ring. eapply Rlt_le_trans; [exact Hk | apply Rmin_r].
Qed.
Lemma stays : forall (g : R -> R) t l, derivable_pt_lim g t l -> 0 < g t -> exists d, 0 < d /\ forall s, Rabs (s - t) < d -> 0 < g s.
Proof.
  intros g t l D H. assert (C : continuity_pt g t) by (apply derivable_continuous_pt; exists l; exact D).
  destruct (C (g t) H) as [d [Hd Hc]]. exists d. split; [exact Hd |]. intros s Hs.
  destruct (Req_dec s t) as [-> | N]; [exact H |].
  assert (Rabs (g s - g t) < g t).
  { apply (Hc s). split; [split; [exact I | intro; apply N; symmetry; assumption] | exact Hs]. }
  apply Rabs_def2 in H0. lra.
Qed.

Lemma atan_path : forall (X Y : R -> R) t X' Y', derivable_pt_lim X t X' -> derivable_pt_lim Y t Y' -> X t <> 0 ->
  derivable_pt_lim (fun s => atan (Y s / X s)) t ((X t * Y' - Y t * X') / (X t * X t + Y t * Y t)).
Proof.
  intros X Y t X' Y' DX DY N.
  replace ((X t * Y' - Y t * X') / (X t * X t + Y t * Y t))
    with (/ (1 + (Y t / X t) ^ 2) * ((Y' * X t - X' * Y t) / (X t)²)).
  - apply (derivable_pt_lim_comp (fun s => Y s / X s) atan); [| apply derivable_pt_lim_atan].
    apply (derivable_pt_lim_div Y X); assumption.
  - assert (0 < X t * X t + Y t * Y t) by nra. unfold Rsqr. field.
    repeat split; try assumption; try lra; nra.
Qed.

Lemma angle_path : forall (X Y : R -> R) t X' Y', derivable_pt_lim X t X' -> derivable_pt_lim Y t Y' ->
  (0 < X t \/ Y t <> 0) ->
  derivable_pt_lim (fun s => f (Y s) (X s)) t ((X t * Y' - Y t * X') / (X t * X t + Y t * Y t)).
Proof.
  intros X Y t X' Y' DX DY C.
  destruct (Rlt_dec 0 (X t)) as [HX | HX].
  - apply (deriv_local (fun s => atan (Y s / X s))); [| apply atan_path; [assumption .. | lra]].
    destruct (stays X t X' DX HX) as [d [Hd Hs]]. exists d. split; [exact Hd |]. intros s H.
    symmetry. apply f_right. apply Hs. exact H.
  - destruct C as [C | C]; [lra |].
    assert (Q : derivable_pt_lim (fun s => atan (X s / Y s)) t (- ((X t * Y' - Y t * X') / (X t * X t + Y t * Y t)))).
    { replace (- ((X t * Y' - Y t * X') / (X t * X t + Y t * Y t))) with ((Y t * X' - X t * Y') / (Y t * Y t + X t * X t)).
      - apply (atan_path Y X); assumption.
      - assert (0 < X t * X t + Y t * Y t) by nra. field; repeat split; lra. }
    set (L := (X t * Y' - Y t * X') / (X t * X t + Y t * Y t)) in *.
    assert (B : forall c, derivable_pt_lim (fun s => c - atan (X s / Y s)) t L).
    { intro c. replace L with (0 - - L) by ring. apply (derivable_pt_lim_minus (fun _ => c) (fun s => atan (X s / Y s))); [apply derivable_pt_lim_const | exact Q]. }
    destruct (Rlt_dec 0 (Y t)) as [HY | HY].
    + apply (deriv_local (fun s => PI / 2 - atan (X s / Y s))); [| apply B].
      destruct (stays Y t Y' DY HY) as [d [Hd Hs]]. exists d. split; [exact Hd |]. intros s H.
      symmetry. apply f_up. apply Hs. exact H.
    + apply (deriv_local (fun s => - (PI / 2) - atan (X s / Y s))); [| apply B].
      assert (HY' : 0 < - Y t) by lra.
      destruct (stays (fun s => - Y s) t (- Y') (derivable_pt_lim_opp Y t Y' DY) HY') as [d [Hd Hs]]. exists d. split; [exact Hd |]. intros s H.
      symmetry. apply f_down. specialize (Hs s H). lra.
Qed.
End F.
