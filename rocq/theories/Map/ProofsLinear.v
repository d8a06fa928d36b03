(** The linear source. *)

From Coq Require Import List Reals ZArith Lra Psatz Bool.
From Verif.Base Require Import Num.
From Verif.Body Require Import Model.
From Verif.Vortex Require Import Model.
From Verif.Map Require Import Model Spec ModelLinear SpecLinear ProofsAngle ProofsStream ProofsFlow ProofsVelocity.
Local Open Scope R_scope.

Lemma integral_unique : forall f v w, integral f v -> integral f w -> v = w.
Proof.
  intros f v w [F [DF ->]] [G [DG ->]].
  assert (D : forall t, 0 <= t <= 1 -> derivable_pt_lim (fun s => F s - G s) t ((fun _ => 0) t)).
  { intros t H. replace ((fun _ : R => 0) t) with (f t - f t) by ring. apply (derivable_pt_lim_minus F G); [apply DF | apply DG]; exact H. }
  destruct (MVT_cor2 (fun s => F s - G s) (fun _ => 0) 0 1 ltac:(lra) D) as [c [E _]]. lra.
Qed.

Section Angle.
Variable f : R -> R -> R.
Hypothesis P : principal f.

Lemma f_scale : forall Y X m, 0 < m -> X <> 0 \/ Y <> 0 -> f (Y / m) (X / m) = f Y X.
Proof.
  intros Y X m M N. assert (I : 0 < / m) by (apply Rinv_0_lt_compat; exact M).
  assert (N' : X / m <> 0 \/ Y / m <> 0) by (unfold Rdiv; destruct N; [left | right]; intro E; apply Rmult_integral in E; lra).
  apply (angle_unique (Y / m) (X / m)); [exact N' | apply P; exact N' |].
  destruct (P Y X N) as [B [EX EY]]. split; [exact B |].
  assert (Q : sqrt (X / m * (X / m) + Y / m * (Y / m)) = sqrt (X * X + Y * Y) / m).
  { replace (X / m * (X / m) + Y / m * (Y / m)) with ((X * X + Y * Y) * (/ m * / m)) by (field; lra).
    rewrite sqrt_mult by nra. rewrite sqrt_square by lra. reflexivity. }
  rewrite Q. split; unfold Rdiv; [rewrite EX at 1 | rewrite EY at 1]; ring.
Qed.
Lemma f_conj : forall Y X, 0 < X \/ Y <> 0 -> f (- Y) X = - f Y X.
Proof.
  intros Y X C.
  assert (N : X <> 0 \/ Y <> 0) by (destruct C; [left; lra | right; assumption]).
  assert (N' : X <> 0 \/ - Y <> 0) by (destruct N; [left | right]; lra).
  apply (angle_unique (- Y) X); [exact N' | apply P; exact N' |].
  destruct (P Y X N) as [B [EX EY]].
  assert (f Y X <> PI).
  { intro E. rewrite E in EX, EY. rewrite sin_PI, cos_PI in *. pose proof (sqrt_pos (X * X + Y * Y)). destruct C; [lra | lra]. }
  split; [lra |]. rewrite cos_neg, sin_neg. replace (- Y * - Y) with (Y * Y) by ring. split; lra.
Qed.

(** The line from z1 to z2 = z1 - d. *)
Section Path.
Variables a b c d : R.      (* z1 = (a, b), d = (c, d) *)
Hypothesis D : 0 < c * c + d * d.
Hypothesis off : forall t, 0 <= t <= 1 -> a - t * c <> 0 \/ b - t * d <> 0.

Let u t := a - t * c.
Let v t := b - t * d.
Let m t := u t * u t + v t * v t.
Lemma m_pos : forall t, 0 <= t <= 1 -> 0 < m t.
Proof.
  intros t H. unfold m, u, v. destruct (off t H) as [N | N].
  - apply Rplus_lt_le_0_compat; [apply Rsqr_pos_lt; exact N | apply Rle_0_sqr].
  - apply Rplus_le_lt_0_compat; [apply Rle_0_sqr | apply Rsqr_pos_lt; exact N].
Qed.
Lemma z1_pos : 0 < a * a + b * b.
Proof. pose proof (m_pos 0 ltac:(lra)) as H. unfold m, u, v in H. rewrite !Rmult_0_l, !Rminus_0_r in H. exact H. Qed.

Definition lnp t := (ln (m t) - ln (a * a + b * b)) / 2.
Definition arg t := f (v t * a - u t * b) (u t * a + v t * b).

Lemma clear : forall t, 0 <= t <= 1 -> 0 < u t * a + v t * b \/ v t * a - u t * b <> 0.
Proof.
  intros t H. destruct (Rlt_dec 0 (u t * a + v t * b)) as [L | L]; [left; exact L |]. right. intro E.
  (* u = -k z1 with k >= 0, so the origin is on the way *)
  pose proof z1_pos as Z. pose proof (m_pos t H) as M.
  assert (VA : v t * a = u t * b) by lra.
  set (k := - (u t * a + v t * b) / (a * a + b * b)).
  assert (K : 0 <= k) by (unfold k; apply Rmult_le_pos; [lra | left; apply Rinv_0_lt_compat; exact Z]).
  assert (U : u t = - k * a).
  { unfold k. apply (Rmult_eq_reg_r (a * a + b * b)); [| lra].
    transitivity ((u t * a + v t * b) * a); [| field; lra].
    replace ((u t * a + v t * b) * a) with (u t * a * a + b * (v t * a)) by ring. rewrite VA. ring. }
  assert (V : v t = - k * b).
  { unfold k. apply (Rmult_eq_reg_r (a * a + b * b)); [| lra].
    transitivity ((u t * a + v t * b) * b); [| field; lra].
    replace ((u t * a + v t * b) * b) with (a * (u t * b) + v t * b * b) by ring. rewrite <- VA. ring. }
  assert (K1 : 0 < 1 + k) by lra.
  assert (S : 0 <= t / (1 + k) <= 1).
  { split; [apply Rmult_le_pos; [lra | left; apply Rinv_0_lt_compat; lra] |].
    apply (Rmult_le_reg_r (1 + k)); [lra |]. unfold Rdiv. rewrite Rmult_assoc, Rinv_l by lra. lra. }
  unfold u in U. unfold v in V.
  destruct (off _ S) as [Q | Q]; apply Q.
  - apply (Rmult_eq_reg_r (1 + k)); [| lra]. transitivity (a * (1 + k) - t * c); [field; lra |]. lra.
  - apply (Rmult_eq_reg_r (1 + k)); [| lra]. transitivity (b * (1 + k) - t * d); [field; lra |]. lra.
Qed.

Lemma du : forall t, derivable_pt_lim u t (- c).
Proof.
  intro t. unfold u. replace (- c) with (0 - (1 * c + t * 0)) by ring.
  apply (derivable_pt_lim_minus (fun _ => a) (fun t => t * c)); [apply derivable_pt_lim_const |].
  apply (derivable_pt_lim_mult (fun t => t) (fun _ => c)); [apply derivable_pt_lim_id | apply derivable_pt_lim_const].
Qed.
Lemma dv : forall t, derivable_pt_lim v t (- d).
Proof.
  intro t. unfold v. replace (- d) with (0 - (1 * d + t * 0)) by ring.
  apply (derivable_pt_lim_minus (fun _ => b) (fun t => t * d)); [apply derivable_pt_lim_const |].
  apply (derivable_pt_lim_mult (fun t => t) (fun _ => d)); [apply derivable_pt_lim_id | apply derivable_pt_lim_const].
Qed.
Lemma d_comb : forall (g h : R -> R) t g' h' k l, derivable_pt_lim g t g' -> derivable_pt_lim h t h' ->
  derivable_pt_lim (fun s => k * g s + l * h s) t (k * g' + l * h').
Proof.
  intros g h t g' h' k l G H. apply (derivable_pt_lim_plus (fun s => k * g s) (fun s => l * h s)).
  - apply (derivable_pt_lim_scal g k); exact G.
  - apply (derivable_pt_lim_scal h l); exact H.
Qed.

Lemma dln : forall t, 0 <= t <= 1 -> derivable_pt_lim lnp t (- (c * u t + d * v t) / m t).
Proof.
  intros t H. pose proof (m_pos t H) as M. unfold lnp.
  assert (Dm : derivable_pt_lim m t (- c * u t + u t * - c + (- d * v t + v t * - d))).
  { unfold m. apply (derivable_pt_lim_plus (fun s => u s * u s) (fun s => v s * v s)).
    - apply (derivable_pt_lim_mult u u); apply du.
    - apply (derivable_pt_lim_mult v v); apply dv. }
  apply (deriv_local (fun s => / 2 * ln (m s) + - (ln (a * a + b * b) / 2) * 1)).
  - exists 1. split; [lra |]. intros s _. field.
  - replace (- (c * u t + d * v t) / m t)
      with (/ 2 * (/ m t * (- c * u t + u t * - c + (- d * v t + v t * - d))) + - (ln (a * a + b * b) / 2) * 0) by (field; lra).
    apply (d_comb (fun s => ln (m s)) (fun _ => 1)); [| apply derivable_pt_lim_const].
    apply (derivable_pt_lim_comp m ln); [exact Dm | apply derivable_pt_lim_ln; exact M].
Qed.
Lemma darg : forall t, 0 <= t <= 1 -> derivable_pt_lim arg t (- (d * u t - c * v t) / m t).
Proof.
  intros t H. pose proof (m_pos t H) as M. pose proof z1_pos as Z. unfold arg.
  assert (DX : derivable_pt_lim (fun s => u s * a + v s * b) t (a * - c + b * - d)).
  { apply (deriv_local (fun s => a * u s + b * v s)); [exists 1; split; [lra |]; intros; ring |].
    apply d_comb; [apply du | apply dv]. }
  assert (DY : derivable_pt_lim (fun s => v s * a - u s * b) t (a * - d + - b * - c)).
  { apply (deriv_local (fun s => a * v s + - b * u s)); [exists 1; split; [lra |]; intros; ring |].
    apply d_comb; [apply dv | apply du]. }
  pose proof (angle_path f P _ _ t _ _ DX DY (clear t H)) as Q.
  replace (- (d * u t - c * v t) / m t)
    with (((u t * a + v t * b) * (a * - d + - b * - c) - (v t * a - u t * b) * (a * - c + b * - d)) /
          ((u t * a + v t * b) * (u t * a + v t * b) + (v t * a - u t * b) * (v t * a - u t * b))); [exact Q |].
  replace ((u t * a + v t * b) * (u t * a + v t * b) + (v t * a - u t * b) * (v t * a - u t * b)) with ((a * a + b * b) * m t) by (unfold m; ring).
  unfold m in *. field. split; lra.
Qed.

(** Sources growing linearly from q1 to q2. *)
Section Strength.
Variables q1 q2 : R.
Let n := c * c + d * d.
Let Xr := q1 + (q2 - q1) * (a * c + b * d) / n.
Let Xi := (q2 - q1) * (b * c - a * d) / n.
Let Wr t := - (Xr * lnp t - Xi * arg t) - (q2 - q1) * t.
Let Wi t := - (Xr * arg t + Xi * lnp t).
Definition Fx t := (Wr t * c + Wi t * d) / n.
Definition Fy t := (Wr t * d - Wi t * c) / n.

Lemma dF : forall t, 0 <= t <= 1 ->
  derivable_pt_lim Fx t (u t * (q1 + t * (q2 - q1)) / m t) /\ derivable_pt_lim Fy t (v t * (q1 + t * (q2 - q1)) / m t).
Proof.
  intros t H. pose proof (m_pos t H) as M. pose proof (dln t H) as DL. pose proof (darg t H) as DA.
  assert (DR : derivable_pt_lim Wr t (- (Xr * (- (c * u t + d * v t) / m t) - Xi * (- (d * u t - c * v t) / m t)) - (q2 - q1))).
  { apply (deriv_local (fun s => - Xr * lnp s + (1 * (Xi * arg s + - (q2 - q1) * s)))).
    - exists 1. split; [lra |]. intros s _. unfold Wr. ring.
    - replace (- (Xr * (- (c * u t + d * v t) / m t) - Xi * (- (d * u t - c * v t) / m t)) - (q2 - q1))
        with (- Xr * (- (c * u t + d * v t) / m t) + 1 * (Xi * (- (d * u t - c * v t) / m t) + - (q2 - q1) * 1)) by (field; lra).
      apply (d_comb lnp (fun s => Xi * arg s + - (q2 - q1) * s)); [exact DL |].
      apply (d_comb arg (fun s => s)); [exact DA | apply derivable_pt_lim_id]. }
  assert (DI : derivable_pt_lim Wi t (- (Xr * (- (d * u t - c * v t) / m t) + Xi * (- (c * u t + d * v t) / m t)))).
  { apply (deriv_local (fun s => - Xr * arg s + - Xi * lnp s)).
    - exists 1. split; [lra |]. intros s _. unfold Wi. ring.
    - replace (- (Xr * (- (d * u t - c * v t) / m t) + Xi * (- (c * u t + d * v t) / m t)))
        with (- Xr * (- (d * u t - c * v t) / m t) + - Xi * (- (c * u t + d * v t) / m t)) by ring.
      apply d_comb; assumption. }
  split.
  - apply (deriv_local (fun s => c / n * Wr s + d / n * Wi s)).
    + exists 1. split; [lra |]. intros s _. unfold Fx, Rdiv. ring.
    + match goal with |- derivable_pt_lim _ _ ?g => replace g with (c / n * (- (Xr * (- (c * u t + d * v t) / m t) - Xi * (- (d * u t - c * v t) / m t)) - (q2 - q1))
        + d / n * (- (Xr * (- (d * u t - c * v t) / m t) + Xi * (- (c * u t + d * v t) / m t)))) end; [apply d_comb; assumption |].
      unfold Xr, Xi, m, n, u, v in *. field. split; lra.
  - apply (deriv_local (fun s => d / n * Wr s + - c / n * Wi s)).
    + exists 1. split; [lra |]. intros s _. unfold Fy, Rdiv. ring.
    + match goal with |- derivable_pt_lim _ _ ?g => replace g with (d / n * (- (Xr * (- (c * u t + d * v t) / m t) - Xi * (- (d * u t - c * v t) / m t)) - (q2 - q1))
        + - c / n * (- (Xr * (- (d * u t - c * v t) / m t) + Xi * (- (c * u t + d * v t) / m t)))) end; [apply d_comb; assumption |].
      unfold Xr, Xi, m, n, u, v in *. field. split; lra.
Qed.
End Strength.
End Path.
End Angle.

Lemma ln_root : forall z, 0 < z -> ln (sqrt z) = ln z / 2.
Proof.
  intros z H. pose proof (sqrt_lt_R0 z H) as S.
  assert (E : ln z = ln (sqrt z) + ln (sqrt z)) by (rewrite <- ln_mult by assumption; rewrite sqrt_sqrt by lra; reflexivity).
  lra.
Qed.

(** The segment with its middle in the middle. *)
Definition straight (s : att RNum) : Prop :=
  x (r s) = x (corner s) + x (dl s) / 2 /\ y (r s) = y (corner s) + y (dl s) / 2.

Lemma influence_form : forall f, principal f -> forall (p : rvec) (s : att RNum) (q1 q2 : R),
  straight s -> 0 < x (dl s) * x (dl s) + y (dl s) * y (dl s) ->
  (forall t, 0 <= t <= 1 -> x p - x (corner s) - t * x (dl s) <> 0 \/ y p - y (corner s) - t * y (dl s) <> 0) ->
  let n := x (dl s) * x (dl s) + y (dl s) * y (dl s) in
  let v := linear_influence (K := RNum) ln f p s q1 q2 in
  let F := Fx f (x p - x (corner s)) (y p - y (corner s)) (x (dl s)) (y (dl s)) q1 q2 in
  let G := Fy f (x p - x (corner s)) (y p - y (corner s)) (x (dl s)) (y (dl s)) q1 q2 in
  x v = F 1 - F 0 + 2 * (q2 - q1) * x (dl s) / n /\ y v = G 1 - G 0 + 2 * (q2 - q1) * y (dl s) / n.
Proof.
  intros f P p s q1 q2 [Sx Sy] N off. cbv zeta.
  destruct s as [[kx ky] sl [c d] [rx ry] ep]. destruct p as [px py]. cbn [corner dl r x y] in *.
  change (T RNum) with R in *.
  assert (C1 := clear _ _ _ _ off 1 ltac:(lra)).
  assert (M1 := m_pos _ _ _ _ off 1 ltac:(lra)).
  assert (Z := z1_pos _ _ _ _ off).
  unfold linear_influence. cbv zeta. cbn [corner dl r x y].
  set (a := px - kx) in *. set (b := py - ky) in *.
  assert (E1 : vsub (mkVec (K := RNum) px py) (vsub (mkVec (K := RNum) rx ry) (vscale (mkVec (K := RNum) c d) (ndiv (nofZ 1) (nofZ 2)))) = mkVec (K := RNum) a b).
  { unfold vsub, vscale. cbn [x y nadd nsub nmul ndiv RNum]. change (@nofZ RNum 1) with 1. change (@nofZ RNum 2) with 2. unfold a, b. apply vec_eq; cbn [x y]; rewrite ?Sx, ?Sy; rfield. }
  assert (E2 : vsub (mkVec (K := RNum) px py) (vadd (mkVec (K := RNum) rx ry) (vscale (mkVec (K := RNum) c d) (ndiv (nofZ 1) (nofZ 2)))) = mkVec (K := RNum) (a - c) (b - d)).
  { unfold vsub, vadd, vscale. cbn [x y nadd nsub nmul ndiv RNum]. change (@nofZ RNum 1) with 1. change (@nofZ RNum 2) with 2. unfold a, b. apply vec_eq; cbn [x y]; rewrite ?Sx, ?Sy; rfield. }
  rewrite E1, E2. clear E1 E2. cbv beta zeta in C1, M1. rewrite !Rmult_1_l in C1, M1.
  unfold clog, cdiv, cmul, conj, vsub, vscale, abs2, vabs. cbn [x y nadd nsub nmul ndiv nopp nsqrt RNum].
  set (th := f ((b - d) * a - (a - c) * b) ((a - c) * a + (b - d) * b)).
  assert (TH : f ((- (b - d) * a - (a - c) * - b) / (a * a + - b * - b)) (((a - c) * a + - (b - d) * - b) / (a * a + - b * - b)) = - th).
  { unfold th. rewrite <- (f_conj f P ((b - d) * a - (a - c) * b) ((a - c) * a + (b - d) * b) C1).
    replace (a * a + - b * - b) with (a * a + b * b) by ring.
    replace (- (b - d) * a - (a - c) * - b) with (- ((b - d) * a - (a - c) * b)) by ring.
    replace ((a - c) * a + - (b - d) * - b) with ((a - c) * a + (b - d) * b) by ring.
    apply f_scale; [exact P | exact Z |]. destruct C1 as [C1 | C1]; [left | right]; lra. }
  rewrite TH. clear TH.
  set (lg := (ln ((a - c) * (a - c) + (b - d) * (b - d)) - ln (a * a + b * b)) / 2).
  match goal with |- context [sqrt ?e] => assert (LN : ln (sqrt e) = lg) end.
  { match goal with |- ln (sqrt ?e) = _ => replace e with (((a - c) * (a - c) + (b - d) * (b - d)) * / (a * a + b * b)) by (field; replace (a * a + - b * - b) with (a * a + b * b) by ring; repeat split; apply Rgt_not_eq; exact Z) end.
    pose proof (Rinv_0_lt_compat _ Z). rewrite ln_root by (apply Rmult_lt_0_compat; assumption).
    rewrite ln_mult by assumption. rewrite ln_Rinv by exact Z. unfold lg. field. }
  rewrite LN. clear LN.
  assert (A0 : arg f a b c d 0 = 0).
  { unfold arg. rewrite !Rmult_0_l, !Rminus_0_r. replace (b * a - a * b) with 0 by ring.
    rewrite (f_right f P) by exact Z. unfold Rdiv. rewrite Rmult_0_l. apply atan_0. }
  assert (L0 : lnp a b c d 0 = 0) by (unfold lnp; rewrite !Rmult_0_l, !Rminus_0_r; field).
  assert (A1 : arg f a b c d 1 = th) by (unfold arg, th; rewrite !Rmult_1_l; reflexivity).
  assert (L1 : lnp a b c d 1 = lg) by (unfold lnp, lg; rewrite !Rmult_1_l; reflexivity).
  unfold Fx, Fy. rewrite A0, L0, A1, L1.
  split; rfield; lra.
Qed.
