(** C100: the flow beside a moving wall. *)

From Coq Require Import List Reals ZArith Lra Psatz Bool.
From Verif.Base Require Import Num.
From Verif.Body Require Import Model.
From Verif.Vortex Require Import Model.
From Verif.Map Require Import Model Spec ModelLinear SpecLinear ProofsAngle ProofsStream ProofsFlow ProofsVelocity ProofsLinear.
Import ListNotations.
Local Open Scope R_scope.

(** A point near a wall, not on it. *)
Definition beside (a : att RNum) (p : rvec) : Prop :=
  sq p (r a) < x (dl a) * x (dl a) + y (dl a) * y (dl a) /\
  ~ between (corner a) (mkVec (K := RNum) (x (corner a) + x (dl a)) (y (corner a) + y (dl a))) p.

(** What is computed is the flow of the wall and twice the turning speed times the
    length of the segment, along the segment. *)
Theorem C100_turning_partial : forall f, principal f -> forall (b : rshape) (w : rwall) (p : rvec),
  straight (seg w) -> beside (seg w) p ->
  let v := segment_speed (K := RNum) (linear_influence (K := RNum) ln f) b p w in
  let o := o3 (speed b) in
  vintegral (wall_element b (seg w) p) (mkVec (K := RNum) (x v - 2 * o * x (dl (seg w))) (y v - 2 * o * y (dl (seg w)))).
Proof.
  intros f P b w p S [Near Off]. cbv zeta.
  destruct w as [s wg0 ws0]. cbn [seg] in *. unfold segment_speed. cbv zeta. cbn [seg].
  assert (N : 0 < x (dl s) * x (dl s) + y (dl s) * y (dl s)).
  { eapply Rle_lt_trans; [| exact Near]. unfold sq. apply Rplus_le_le_0_compat; apply Rle_0_sqr. }
  assert (O : forall t, 0 <= t <= 1 -> x p - x (corner s) - t * x (dl s) <> 0 \/ y p - y (corner s) - t * y (dl s) <> 0).
  { intros t Ht. change (T RNum) with R in *.
    destruct (Req_dec (x p - x (corner s) - t * x (dl s)) 0) as [Ex | Ex]; [| left; exact Ex].
    right. intro Ey. apply Off. exists t. cbn [x y]. split; [exact Ht |]. split; lra. }
  replace (nltb (abs2 (vsub p (r s))) (abs2 (dl s))) with true by (symmetry; apply Rltb_true; exact Near).
  set (v1 := speed_at b (corner s)).
  set (v2 := vadd (r3 (speed b)) (vscale (rotl (vsub (vadd (corner s) (dl s)) (axis b))) (o3 (speed b)))).
  destruct (influence_form f P p s (strength_g v1 (dl s)) (strength_g v2 (dl s)) S N O) as [Gx Gy].
  destruct (influence_form f P p s (strength_q v1 (dl s)) (strength_q v2 (dl s)) S N O) as [Qx Qy].
  cbv zeta in Gx, Gy, Qx, Qy.
  pose proof (fun q1 q2 t Ht => dF f P _ _ _ _ N O q1 q2 t Ht) as D. cbv beta zeta in D.
  set (g1 := strength_g v1 (dl s)) in *. set (g2 := strength_g v2 (dl s)) in *.
  set (q1 := strength_q v1 (dl s)) in *. set (q2 := strength_q v2 (dl s)) in *.
  set (a := x p - x (corner s)) in *. set (d := y p - y (corner s)) in *.
  assert (EG : g2 - g1 = 0).
  { unfold g1, g2, v1, v2, strength_g, speed_at, opposite, dot, rotl, vadd, vsub, vscale. cbn [x y nadd nsub nmul nopp RNum]. rring. }
  assert (EQ : q2 - q1 = o3 (speed b) * (x (dl s) * x (dl s) + y (dl s) * y (dl s))).
  { unfold q1, q2, v1, v2, strength_q, speed_at, opposite, dot, rotl, vadd, vsub, vscale. cbn [x y nadd nsub nmul nopp RNum]. rring. }
  assert (Gt : forall t, - (x (moves b (along s t)) * x (dl s) + y (moves b (along s t)) * y (dl s)) = g1 + t * (g2 - g1)).
  { intro t. unfold g1, g2, v1, v2, moves, along, strength_g, speed_at, opposite, dot, rotl, vadd, vsub, vscale. cbn [x y nadd nsub nmul nopp RNum]. rring. }
  assert (Qt : forall t, y (moves b (along s t)) * x (dl s) - x (moves b (along s t)) * y (dl s) = q1 + t * (q2 - q1)).
  { intro t. unfold q1, q2, v1, v2, moves, along, strength_q, speed_at, opposite, dot, rotl, vadd, vsub, vscale. cbn [x y nadd nsub nmul nopp RNum]. rring. }
  assert (SQ : forall t, sq p (along s t) = (a - t * x (dl s)) * (a - t * x (dl s)) + (d - t * y (dl s)) * (d - t * y (dl s))).
  { intro t. unfold sq, along, a, d. cbn [x y]. rring. }
  assert (X1 : forall t, x p - x (along s t) = a - t * x (dl s)) by (intro t; unfold along, a; cbn [x y]; rring).
  assert (Y1 : forall t, y p - y (along s t) = d - t * y (dl s)) by (intro t; unfold along, d; cbn [x y]; rring).
  split.
  - exists (fun t => Fx f a d (x (dl s)) (y (dl s)) q1 q2 t - Fy f a d (x (dl s)) (y (dl s)) g1 g2 t). split.
    + intros t Ht. destruct (D q1 q2 t Ht) as [DQ _]. destruct (D g1 g2 t Ht) as [_ DG].
      unfold wall_element, element. cbv zeta. cbn [x y]. rewrite Gt, Qt, SQ, X1, Y1.
      replace (((a - t * x (dl s)) * (q1 + t * (q2 - q1)) - (d - t * y (dl s)) * (g1 + t * (g2 - g1))) /
               ((a - t * x (dl s)) * (a - t * x (dl s)) + (d - t * y (dl s)) * (d - t * y (dl s))))
        with ((a - t * x (dl s)) * (q1 + t * (q2 - q1)) / ((a - t * x (dl s)) * (a - t * x (dl s)) + (d - t * y (dl s)) * (d - t * y (dl s)))
            - (d - t * y (dl s)) * (g1 + t * (g2 - g1)) / ((a - t * x (dl s)) * (a - t * x (dl s)) + (d - t * y (dl s)) * (d - t * y (dl s))))
        by (unfold Rdiv; ring).
      apply (derivable_pt_lim_minus (Fx f a d (x (dl s)) (y (dl s)) q1 q2) (Fy f a d (x (dl s)) (y (dl s)) g1 g2)); assumption.
    + unfold vadd, rotl. cbn [x y nadd nopp RNum]. rewrite Gy, Qx, EG, EQ. change (T RNum) with R in *. field. lra.
  - exists (fun t => Fy f a d (x (dl s)) (y (dl s)) q1 q2 t + Fx f a d (x (dl s)) (y (dl s)) g1 g2 t). split.
    + intros t Ht. destruct (D q1 q2 t Ht) as [_ DQ]. destruct (D g1 g2 t Ht) as [DG _].
      unfold wall_element, element. cbv zeta. cbn [x y]. rewrite Gt, Qt, SQ, X1, Y1.
      replace (((d - t * y (dl s)) * (q1 + t * (q2 - q1)) + (a - t * x (dl s)) * (g1 + t * (g2 - g1))) /
               ((a - t * x (dl s)) * (a - t * x (dl s)) + (d - t * y (dl s)) * (d - t * y (dl s))))
        with ((d - t * y (dl s)) * (q1 + t * (q2 - q1)) / ((a - t * x (dl s)) * (a - t * x (dl s)) + (d - t * y (dl s)) * (d - t * y (dl s)))
            + (a - t * x (dl s)) * (g1 + t * (g2 - g1)) / ((a - t * x (dl s)) * (a - t * x (dl s)) + (d - t * y (dl s)) * (d - t * y (dl s))))
        by (unfold Rdiv; ring).
      apply (derivable_pt_lim_plus (Fy f a d (x (dl s)) (y (dl s)) q1 q2) (Fx f a d (x (dl s)) (y (dl s)) g1 g2)); assumption.
    + unfold vadd, rotl. cbn [x y nadd nopp RNum]. rewrite Gx, Qy, EG, EQ. change (T RNum) with R in *. field. lra.
Qed.
Print Assumptions C100_turning_partial.

(** So it is the flow of the wall exactly when the body does not turn. *)
Theorem C100_moving_partial : forall f, principal f -> forall (b : rshape) (w : rwall) (p : rvec),
  straight (seg w) -> beside (seg w) p -> o3 (speed b) = 0 ->
  vintegral (wall_element b (seg w) p) (segment_speed (K := RNum) (linear_influence (K := RNum) ln f) b p w).
Proof.
  intros f P b w p S B Z. pose proof (C100_turning_partial f P b w p S B) as [HX HY]. cbv zeta in HX, HY. cbn [x y] in HX, HY.
  rewrite Z in HX, HY. rewrite !Rmult_0_r, !Rmult_0_l, !Rminus_0_r in HX, HY. split; assumption.
Qed.
Print Assumptions C100_moving_partial.

Theorem C100_refuted : forall f, principal f -> forall (b : rshape) (w : rwall) (p : rvec),
  straight (seg w) -> beside (seg w) p -> o3 (speed b) <> 0 ->
  ~ vintegral (wall_element b (seg w) p) (segment_speed (K := RNum) (linear_influence (K := RNum) ln f) b p w).
Proof.
  intros f P b w p S B Z [IX IY]. pose proof (C100_turning_partial f P b w p S B) as [HX HY]. cbv zeta in HX, HY. cbn [x y] in HX, HY.
  pose proof (integral_unique _ _ _ IX HX) as EX. pose proof (integral_unique _ _ _ IY HY) as EY.
  assert (N : 0 < x (dl (seg w)) * x (dl (seg w)) + y (dl (seg w)) * y (dl (seg w))).
  { eapply Rle_lt_trans; [| apply B]. unfold sq. apply Rplus_le_le_0_compat; apply Rle_0_sqr. }
  change (T RNum) with R in *.
  assert (X0 : x (dl (seg w)) = 0) by (apply (Rmult_eq_reg_l (o3 (speed b))); [lra | exact Z]).
  assert (Y0 : y (dl (seg w)) = 0) by (apply (Rmult_eq_reg_l (o3 (speed b))); [lra | exact Z]).
  rewrite X0, Y0 in N. lra.
Qed.
Print Assumptions C100_refuted.

(** A wall from (0,0) to (2,0), beside its middle; the body moves or turns. *)
Definition wall0 : rwall :=
  mkWall (K := RNum) (mkAtt (K := RNum) (at_ 0 0) false (at_ 2 0) (at_ 1 0) 1) 0 0.
Lemma beside0 : straight (seg wall0) /\ beside (seg wall0) (at_ 1 1).
Proof.
  unfold straight, beside, wall0, sq. cbn. change (T RNum) with R. split; [lra |]. split; [lra |].
  intros [s [_ [_ E]]]. cbn in E. change (T RNum) with R in *. lra.
Qed.
Definition body0 (o : R) : rshape :=
  mkShape (K := RNum) [wall0] (mkVec3 (K := RNum) (at_ 1 0) o) (at_ 0 0) (at_ 1 (-1)).
Example C100_ex :
  vintegral (wall_element (body0 0) (seg wall0) (at_ 1 1)) (segment_speed (K := RNum) (linear_influence (K := RNum) ln Ratan2) (body0 0) (at_ 1 1) wall0) /\
  ~ vintegral (wall_element (body0 3) (seg wall0) (at_ 1 1)) (segment_speed (K := RNum) (linear_influence (K := RNum) ln Ratan2) (body0 3) (at_ 1 1) wall0).
Proof.
  split; [apply C100_moving_partial | apply C100_refuted]; try apply Ratan2_principal; try apply beside0; cbn; [reflexivity | lra].
Qed.
(** The circulation of the moving wall drives the flow along it: the angle seen is pi/2. *)
Example C100_ex_value : x (wall_element (body0 0) (seg wall0) (at_ 1 1) (/ 2)) = 2.
Proof. unfold wall_element, element, moves, along, sq. cbn. change (T RNum) with R. field_simplify; lra. Qed.
