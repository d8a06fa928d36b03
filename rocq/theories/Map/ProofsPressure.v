(** Pressure far away, and beside other maps. *)

From Coq Require Import List Reals ZArith Lra Psatz Bool Arith Lia Permutation.
From Verif.Base Require Import Num.
From Verif.Body Require Import Model.
From Verif.Vortex Require Import Model.
From Verif.Map Require Import Model Spec ProofsAngle ProofsStream ProofsFlow ProofsVelocity.
Import ListNotations.
Local Open Scope R_scope.

Lemma v_zero : vanishes (fun _ => 0).
Proof. intros e H. exists 0. intros. rewrite Rabs_R0. exact H. Qed.
Lemma v_plus : forall g h, vanishes g -> vanishes h -> vanishes (fun p => g p + h p).
Proof.
  intros g h G H e He. destruct (G (e / 2)) as [a A]; [lra |]. destruct (H (e / 2)) as [b B]; [lra |].
  exists (Rmax a b). intros p Hp. pose proof (Rmax_l a b). pose proof (Rmax_r a b).
  specialize (A p ltac:(lra)). specialize (B p ltac:(lra)). pose proof (Rabs_triang (g p) (h p)). lra.
Qed.
Lemma v_scale : forall g c, vanishes g -> vanishes (fun p => g p * c).
Proof.
  intros g c G e He. pose proof (Rabs_pos c).
  destruct (G (e / (Rabs c + 1))) as [a A]; [apply Rdiv_lt_0_compat; lra |].
  exists a. intros p Hp. specialize (A p Hp). rewrite Rabs_mult.
  apply Rle_lt_trans with (e / (Rabs c + 1) * Rabs c).
  - apply Rmult_le_compat_r; [lra | lra].
  - apply Rmult_lt_reg_r with (Rabs c + 1); [lra |].
    replace (e / (Rabs c + 1) * Rabs c * (Rabs c + 1)) with (e * Rabs c) by (field; lra). nra.
Qed.
Lemma v_ext : forall g h, (forall p, g p = h p) -> vanishes g -> vanishes h.
Proof. intros g h E G e He. destruct (G e He) as [a A]. exists a. intros p Hp. rewrite <- E. apply A. exact Hp. Qed.
Lemma v_total : forall {A} (g : A -> rvec -> R) l, (forall a, In a l -> vanishes (g a)) -> vanishes (fun p => total (fun a => g a p) l).
Proof.
  intros A g l H. induction l as [| a l IH]; cbn [total]; [apply v_zero |].
  apply (v_plus (g a) (fun p => total (fun a => g a p) l)); [apply H; left; reflexivity |]. apply IH. intros; apply H; right; assumption.
Qed.
(** Products of bounded by vanishing. *)
Lemma v_mult : forall g h, vanishes g -> vanishes h -> vanishes (fun p => g p * h p).
Proof.
  intros g h G H e He. destruct (G 1 Rlt_0_1) as [a A]. destruct (H e He) as [b B].
  exists (Rmax a b). intros p Hp. pose proof (Rmax_l a b). pose proof (Rmax_r a b).
  specialize (A p ltac:(lra)). specialize (B p ltac:(lra)). rewrite Rabs_mult. pose proof (Rabs_pos (g p)). pose proof (Rabs_pos (h p)). nra.
Qed.

Lemma far_sq : forall a p : rvec, x p * x p + y p * y p <= 2 * sq p a + 2 * (x a * x a + y a * y a).
Proof. intros [ax ay] [px py]. unfold sq. cbn [x y]. pose proof (Rle_0_sqr (px - 2 * ax)). pose proof (Rle_0_sqr (py - 2 * ay)). unfold Rsqr in *. nra. Qed.
Lemma v_part : forall (u : rvec -> R) (a : rvec), (forall p, u p * u p <= sq p a) -> vanishes (fun p => u p * (1 / sq p a)).
Proof.
  intros u a U e He. exists (2 * (1 / (e * e)) + 2 * (x a * x a + y a * y a)). intros p Hp.
  pose proof (far_sq a p) as F. specialize (U p).
  assert (Q : 1 / (e * e) < sq p a) by lra.
  assert (E2 : 0 < e * e) by nra. assert (0 < 1 / (e * e)) by (apply Rdiv_lt_0_compat; lra).
  assert (Q2 : 1 < sq p a * (e * e)).
  { apply Rmult_lt_compat_r with (r := e * e) in Q; [| exact E2]. replace (1 / (e * e) * (e * e)) with 1 in Q by (field; lra). exact Q. }
  set (w := u p * (1 / sq p a)). assert (W : w * sq p a = u p) by (unfold w; field; lra).
  assert (L : w * w < e * e).
  { assert (w * w * (sq p a * sq p a) <= sq p a) by (rewrite <- W in U; nra).
    assert (w * w * sq p a <= 1) by (apply Rmult_le_reg_r with (sq p a); nra).
    apply Rmult_lt_reg_r with (sq p a); lra. }
  apply Rabs_def1; nra.
Qed.
Lemma kernel_x : forall a : rvec, vanishes (fun p => x (kernel (K := RNum) a p)).
Proof.
  intro a. apply (v_ext (fun p : rvec => (x p - x a) * (1 / sq p a))); [intro p; reflexivity |].
  apply v_part. intro p. unfold sq. pose proof (Rle_0_sqr (y p - y a)). unfold Rsqr in *. lra.
Qed.
Lemma kernel_y : forall a : rvec, vanishes (fun p => y (kernel (K := RNum) a p)).
Proof.
  intro a. apply (v_ext (fun p : rvec => (y p - y a) * (1 / sq p a))); [intro p; reflexivity |].
  apply v_part. intro p. unfold sq. pose proof (Rle_0_sqr (x p - x a)). unfold Rsqr in *. lra.
Qed.

(** ** The sums of the model *)

Definition moving_term (b : rshape) (p : rvec) (w : rwall) : R :=
  let a := seg w in let v := speed_at (K := RNum) b (r a) in
  dot (vadd (vscale (rotl (kernel (r a) p)) (strength_g v (dl a))) (vscale (kernel (r a) p) (strength_q v (dl a)))) v.
Lemma moving_form : forall b p s, pressure_moving (K := RNum) b p s = s + total (moving_term b p) (walls b).
Proof. intros. unfold pressure_moving. apply (model_total (moving_term b p)). Qed.

Definition sheet_term (step : R) (p : rvec) (w : rwall) : R := dot (K := RNum) (vdiv (dl (seg w)) step) (rotl (kernel (r (seg w)) p)).
Fixpoint sheet_sum (step : R) (p : rvec) (g : R) (ws : list rwall) : R :=
  match ws with [] => 0 | w :: ws => sheet_term step p w * (g + wgsum w) + sheet_sum step p (g + wgsum w) ws end.
Lemma sheet_form : forall step b p s, pressure_sheet (K := RNum) step b p s = s - sheet_sum step p 0 (walls b).
Proof.
  intros step b p s. unfold pressure_sheet. change (@nofZ RNum 0) with 0.
  assert (E : forall ws g s, snd (fold_left (fun (s : RNum * RNum) (w : rwall) => let a := seg w in let g := (fst s + wgsum w)%num in
      (g, (snd s - dot (vdiv (dl a) step) (rotl (kernel (r a) p)) * g)%num)) ws (g, s)) = s - sheet_sum step p g ws).
  { induction ws as [| w ws IH]; intros g t; cbn [fold_left sheet_sum fst snd].
    - rring.
    - cbv zeta. rewrite IH. cbn [nadd nsub nmul RNum]. fold (sheet_term step p w). rring. }
  apply E.
Qed.

Lemma v_moving : forall b w, vanishes (fun p => moving_term b p w).
Proof.
  intros b w. unfold moving_term. cbv zeta. set (v := speed_at b (r (seg w))). set (g := strength_g v (dl (seg w))). set (q := strength_q v (dl (seg w))).
  apply (v_ext (fun p => x (kernel (K := RNum) (r (seg w)) p) * (g * y v + q * x v) + y (kernel (K := RNum) (r (seg w)) p) * (- (g * x v) + q * y v))).
  - intro p. unfold dot, vadd, vscale, rotl. cbn [x y nadd nmul nopp RNum]. change (T RNum) with R. ring.
  - apply v_plus; apply v_scale; [apply kernel_x | apply kernel_y].
Qed.
Lemma v_sheet : forall step w, vanishes (fun p => sheet_term step p w).
Proof.
  intros step w. unfold sheet_term. set (d := vdiv (dl (seg w)) step).
  apply (v_ext (fun p => x (kernel (K := RNum) (r (seg w)) p) * y d + y (kernel (K := RNum) (r (seg w)) p) * - x d)).
  - intro p. unfold dot, rotl. cbn [x y nadd nmul nopp RNum]. change (T RNum) with R. ring.
  - apply v_plus; apply v_scale; [apply kernel_x | apply kernel_y].
Qed.
Lemma v_sheet_sum : forall step ws g, vanishes (fun p => sheet_sum step p g ws).
Proof.
  intros step ws. induction ws as [| w ws IH]; intro g; cbn [sheet_sum]; [apply v_zero |].
  apply (v_plus (fun p => sheet_term step p w * (g + wgsum w)) (fun p => sheet_sum step p (g + wgsum w) ws)); [| apply IH].
  apply v_scale. apply v_sheet.
Qed.
Definition vortex_term (p : rvec) (o : rpart) : R := dot (K := RNum) (pv o) (rotl (kernel (pr o) p)) * pg o.
Lemma v_vortex : forall o : rpart, vanishes (fun p => vortex_term p o).
Proof.
  intro o. unfold vortex_term.
  apply (v_ext (fun p => x (kernel (K := RNum) (pr o) p) * (y (pv o) * pg o) + y (kernel (K := RNum) (pr o) p) * - (x (pv o) * pg o))).
  - intro p. unfold dot, rotl. cbn [x y nadd nmul nopp RNum]. change (T RNum) with R. ring.
  - apply v_plus; apply v_scale; [apply kernel_x | apply kernel_y].
Qed.

Definition bodies_term (step : R) (p : rvec) (b : rshape) : R := total (moving_term b p) (walls b) - sheet_sum step p 0 (walls b).
Lemma pressure_form : forall i2 S vel ref p,
  pressure (K := RNum) i2 S vel ref p =
    i2 * (total (bodies_term (dt S) p) (bodies S) + total (vortex_term p) (vortices S))
    + / 2 * (abs2 (flow S) - abs2 (vel p))
    + match ref with None => 0 | Some v => / 2 * abs2 (vsub (vel p) v) end.
Proof.
  intros i2 S vel ref p. unfold pressure. cbv zeta.
  assert (B : forall bs s, fold_left (fun s b => pressure_sheet (K := RNum) (dt S) b p (pressure_moving b p s)) bs s
            = s + total (bodies_term (dt S) p) bs).
  { induction bs as [| b bs IH]; intro s; cbn [fold_left total]; [rring |].
    rewrite IH, sheet_form, moving_form. unfold bodies_term. rring. }
  rewrite B. change (@nofZ RNum 0) with 0.
  rewrite (model_total (vortex_term p) (vortices S)).
  assert (H : @half RNum = / 2) by (unfold half; cbn; field). rewrite H.
  cbn [nadd nsub nmul RNum]. destruct ref; rring.
Qed.

Lemma pressure_far : forall (i2 : R) (S : rspace) (vel : rvec -> rvec),
  vanishes (fun p => x (vel p) - x (flow S)) -> vanishes (fun p => y (vel p) - y (flow S)) ->
  vanishes (pressure (K := RNum) i2 S vel None).
Proof.
  intros i2 S vel Hx Hy.
  apply (v_ext (fun p =>
     (total (bodies_term (dt S) p) (bodies S) + total (vortex_term p) (vortices S)) * i2
     + ((x (vel p) - x (flow S)) * (x (vel p) - x (flow S)) * - / 2 + (y (vel p) - y (flow S)) * (y (vel p) - y (flow S)) * - / 2
        + ((x (vel p) - x (flow S)) * - x (flow S) + (y (vel p) - y (flow S)) * - y (flow S))))).
  - intro p. rewrite pressure_form. unfold abs2. cbn [nadd nmul RNum]. change (T RNum) with R. field.
  - apply v_plus; [apply v_scale; apply v_plus |].
    + apply (v_total (fun b p => bodies_term (dt S) p b)). intros b _. unfold bodies_term.
      apply (v_ext (fun p => total (moving_term b p) (walls b) + sheet_sum (dt S) p 0 (walls b) * -1)); [intro; ring |].
      apply v_plus; [| apply v_scale; apply v_sheet_sum].
      apply (v_total (fun w p => moving_term b p w)). intros w _. apply v_moving.
    + apply (v_total (fun o p => vortex_term p o)). intros o _. apply v_vortex.
    + apply v_plus; apply v_plus; try (apply v_scale; apply v_mult; assumption); apply v_scale; assumption.
Qed.

(** ** Drawn after the vorticity *)

Lemma shed_velocity : forall tiny10 i2 ip ls (S : rspace) nd p,
  velocity (K := RNum) tiny10 i2 ip ls (mkSpace (shed_bodies (bodies S)) (vortices S) (sources S) (flow S) (dt S)) nd p
  = velocity (K := RNum) tiny10 i2 ip ls S nd p.
Proof.
  intros. unfold velocity. destruct nd as [[nb far] |]; [| reflexivity]. cbv zeta. cbn [bodies vortices sources flow dt].
  f_equal. f_equal. unfold body_influence. f_equal. generalize (vzero (K := RNum)) as s.
  induction (bodies S) as [| b bs IH]; intro s; cbn [shed_bodies map fold_left]; [reflexivity |].
  fold (shed_bodies bs). rewrite IH. cbn [walls speed axis]. f_equal.
  assert (E : existsb (fun w => slip (seg w)) (map shed_wall (walls b)) = existsb (fun w => slip (seg w)) (walls b)).
  { generalize (walls b) as ws. induction ws as [| w ws IHw]; cbn [map existsb]; [reflexivity | rewrite IHw; reflexivity]. }
  rewrite E. clear E IH.
  assert (F : forall (h : rvec -> rwall -> rvec), (forall s w, h s (shed_wall w) = h s w) -> forall ws s, fold_left h (map shed_wall ws) s = fold_left h ws s).
  { intros h Hh ws. induction ws as [| w ws IHw]; intro t; cbn [map fold_left]; [reflexivity | rewrite Hh, IHw; reflexivity]. }
  rewrite (F (fun s w => if slip (seg w) then vadd s (biot_savart (part_of w) p) else s)) by (intros; reflexivity).
  cbv zeta. destruct (at_rest tiny10 (speed b)); [reflexivity |].
  rewrite (F (fun s w => vadd s (segment_speed ls {| walls := map shed_wall (walls b); speed := speed b; axis := axis b; mid := mid b |} p w))) by (intros; reflexivity).
  reflexivity.
Qed.

Lemma born_shed : forall tiny4 remove (bs : list rshape), born (K := RNum) tiny4 remove (shed_bodies bs) = born tiny4 remove bs.
Proof.
  intros. unfold born, shed_bodies. induction bs as [| b bs IH]; cbn [map flat_map]; [reflexivity |]. rewrite IH. f_equal.
  cbn [walls]. induction (walls b) as [| w ws IHw]; cbn [map flat_map]; [reflexivity |]. rewrite IHw. reflexivity.
Qed.

Definition gsum_of (w : rwall) : R := wgsum w + wg w.
Lemma sheet_again : forall step p ws g h, 
  sheet_sum step p (g + h) (map shed_wall (map shed_wall ws)) - sheet_sum step p g (map shed_wall ws) = sheet step p wg h ws.
Proof.
  intros step p ws. induction ws as [| w ws IH]; intros g h; cbn [map sheet_sum sheet]; [ring |].
  rewrite <- (IH (g + wgsum (shed_wall w)) (h + wg w)).
  replace (g + wgsum (shed_wall w) + (h + wg w)) with (g + h + wgsum (shed_wall (shed_wall w))) by (cbn; ring).
  replace ((y (dl (seg w)) * (x p - x (r (seg w))) - x (dl (seg w)) * (y p - y (r (seg w)))) / sq p (r (seg w)) / step) with (sheet_term step p w).
  - replace (sheet_term step p (shed_wall (shed_wall w))) with (sheet_term step p w) by reflexivity.
    replace (sheet_term step p (shed_wall w)) with (sheet_term step p w) by reflexivity.
    replace (wgsum (shed_wall (shed_wall w))) with (wgsum w + wg w + wg w) by reflexivity.
    replace (wgsum (shed_wall w)) with (wgsum w + wg w) by reflexivity. change (T RNum) with R. ring.
  - unfold sheet_term, dot, vdiv, vscale, rotl, kernel, vsub, abs2, sq, vdiv, vscale. cbn [x y nadd nsub nmul ndiv nopp RNum].
    change (@nofZ RNum 1) with 1. change (T RNum) with R. unfold Rdiv. ring.
Qed.

Lemma moving_shed : forall b p, total (moving_term (mkShape (map shed_wall (walls b)) (speed b) (axis b) (mid b)) p) (map shed_wall (walls b))
  = total (moving_term b p) (walls b).
Proof.
  intros b p. set (c := mkShape (map shed_wall (walls b)) (speed b) (axis b) (mid b)).
  assert (E : forall ws, total (moving_term c p) (map shed_wall ws) = total (moving_term b p) ws).
  { induction ws as [| w ws IH]; cbn [map total]; [reflexivity |]. rewrite IH. reflexivity. }
  apply E.
Qed.

Lemma pressure_after : forall tiny10 tiny4 ip ls remove (S : rspace) (nd : rspace -> rvec -> option (list nat * list rpart)) ref p,
  (forall S T q, vortices S = vortices T -> nd S q = nd T q) ->
  let vel S q := velocity (K := RNum) tiny10 (/ (2 * PI)) ip ls S (nd S q) q in
  pressure_map (K := RNum) tiny4 (/ (2 * PI)) remove true S vel ref p
  = pressure_map tiny4 (/ (2 * PI)) remove false S vel ref p
    - total (fun b => sheet (dt S) p wg 0 (walls b)) (bodies S) / (2 * PI).
Proof.
  intros tiny10 tiny4 ip ls remove S nd ref p Hnd vel. unfold pressure_map. cbv zeta. unfold shed. cbn [bodies vortices sources flow dt].
  rewrite born_shed.
  set (S1 := mkSpace (shed_bodies (bodies S)) (vortices S ++ born tiny4 remove (bodies S)) (sources S) (flow S) (dt S)).
  set (S2 := mkSpace (shed_bodies (shed_bodies (bodies S))) (vortices S ++ born tiny4 remove (bodies S)) (sources S) (flow S) (dt S)).
  assert (V12 : vel S2 p = vel S1 p).
  { unfold vel. rewrite (Hnd S2 S1 p) by reflexivity. apply (shed_velocity tiny10 (/ (2 * PI)) ip ls S1). }
  rewrite !pressure_form, V12. cbn [bodies vortices flow dt S1 S2].
  assert (B : forall bs, total (bodies_term (dt S) p) (shed_bodies (shed_bodies bs))
            = total (bodies_term (dt S) p) (shed_bodies bs) - total (fun b => sheet (dt S) p wg 0 (walls b)) bs).
  { induction bs as [| b bs IH]; cbn [shed_bodies map total]; [ring |]. fold (shed_bodies bs). fold (shed_bodies (shed_bodies bs)). rewrite IH.
    unfold bodies_term at 1 3. cbn [walls speed axis mid].
    rewrite <- (sheet_again (dt S) p (walls b) 0 0). rewrite Rplus_0_r.
    pose proof (moving_shed b p) as M1.
    pose proof (moving_shed (mkShape (map shed_wall (walls b)) (speed b) (axis b) (mid b)) p) as M2. cbn [walls speed axis mid] in M2.
    rewrite M2, M1. ring. }
  rewrite B. pose proof PI_RGT_0. unfold S1, S2. cbn [bodies vortices flow dt]. destruct ref; (match goal with |- ?a = ?b => apply (Rplus_eq_reg_l 0 a b) end); change (T RNum) with R; field; lra.
Qed.
