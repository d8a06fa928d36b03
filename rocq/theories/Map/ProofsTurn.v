(** Velocities with turned axes. *)

From Coq Require Import ZArith Bool List Lia Reals Lra.
From Verif.Base Require Import Num.
From Verif.Body Require Import Model Spec.
From Verif.Vortex Require Import Model ProofsKernel.
From Verif.Map Require Import Model ModelLinear SpecSimilar SpecTurn.
Import ListNotations.
Local Open Scope R_scope.

Ltac unt := unfold rot, vadd, vsub, vscale, vdiv, dot, abs2, rotl, vzero in *; cbn [x y r3 o3] in *; unr.

Section Turn.
Variables c s : R.
Hypothesis H1 : c * c + s * s = 1.
Notation rt := (rot c s).
Notation prt := (part_rot c s).

Lemma vsub_rot p q : vsub (rt p) (rt q) = rt (vsub p q).
Proof. unt. apply (f_equal2 (@mkVec RNum)); eqR; ring. Qed.
Lemma vadd_rot p q : vadd (rt p) (rt q) = rt (vadd p q).
Proof. unt. apply (f_equal2 (@mkVec RNum)); eqR; ring. Qed.
Lemma vscale_rot p a : vscale (rt p) a = rt (vscale p a).
Proof. unt. apply (f_equal2 (@mkVec RNum)); eqR; ring. Qed.
Lemma vdiv_rot p a : vdiv (rt p) a = rt (vdiv p a).
Proof. unfold vdiv, vscale, rot. cbn [x y]. unr. unfold Rdiv. apply (f_equal2 (@mkVec RNum)); eqR; ring. Qed.
Lemma rotl_rot p : rotl (rt p) = rt (rotl p).
Proof. unt. apply (f_equal2 (@mkVec RNum)); eqR; ring. Qed.
Lemma dot_rot p q : dot (rt p) (rt q) = dot p q.
Proof.
  unt. eqR. replace ((c * x p - s * y p) * (c * x q - s * y q) + (s * x p + c * y p) * (s * x q + c * y q)) with ((c * c + s * s) * (x p * x q + y p * y q)) by ring.
  rewrite H1. ring.
Qed.
Lemma abs2_rot p : abs2 (rt p) = abs2 p.
Proof. exact (dot_rot p p). Qed.
Lemma vabs_rot p : vabs (rt p) = vabs p.
Proof. exact (f_equal sqrt (abs2_rot p)). Qed.
Lemma rot_zero : rt (vzero (K:=RNum)) = vzero.
Proof. unt. apply (f_equal2 (@mkVec RNum)); eqR; ring. Qed.

(** ** Induced velocity *)

Lemma biot_savart_rot o p : biot_savart (K:=RNum) (prt o) (rt p) = rt (biot_savart (K:=RNum) o p).
Proof. unfold biot_savart. cbn [pr pg pe part_rot]. rewrite vsub_rot, rotl_rot, abs2_rot, vscale_rot. reflexivity. Qed.

Lemma near_influence_rot ip nb vs p : near_influence (K:=RNum) ip nb (map prt vs) (rt p) = rt (near_influence (K:=RNum) ip nb vs p).
Proof.
  unfold near_influence. rewrite <- vscale_rot. f_equal.
  change (@mkVec RNum (nofZ 0) (nofZ 0)) with (vzero (K:=RNum)). rewrite <- rot_zero at 1. generalize (vzero (K:=RNum)).
  induction nb as [|j nb IH]; intros z; [reflexivity|]. cbn [fold_left]. rewrite nth_error_map. rewrite <- IH. f_equal.
  destruct (nth_error vs j) as [o|]; cbn [option_map]; [|reflexivity]. cbn [pg part_rot].
  destruct (_ =? _)%num; [reflexivity|]. rewrite biot_savart_rot, vadd_rot. reflexivity.
Qed.

Lemma far_influence_rot ip cm p : far_influence (K:=RNum) ip (map prt cm) (rt p) = rt (far_influence (K:=RNum) ip cm p).
Proof.
  unfold far_influence. rewrite <- vscale_rot. f_equal.
  change (@mkVec RNum (nofZ 0) (nofZ 0)) with (vzero (K:=RNum)). rewrite <- rot_zero at 1. generalize (vzero (K:=RNum)).
  induction cm as [|o cm IH]; intros z; [reflexivity|]. cbn [fold_left map]. rewrite <- IH. f_equal. rewrite biot_savart_rot, vadd_rot. reflexivity.
Qed.

Lemma sink_influence_rot ip ip1 d l p : sink_influence (K:=RNum) ip ip1 d (map prt l) (rt p) = rt (sink_influence (K:=RNum) ip ip1 d l p).
Proof.
  unfold sink_influence. rewrite <- vscale_rot. f_equal.
  change (@mkVec RNum (nofZ 0) (nofZ 0)) with (vzero (K:=RNum)). rewrite <- rot_zero at 1. generalize (vzero (K:=RNum)).
  induction l as [|o l IH]; intros z; [reflexivity|]. cbn [fold_left map]. rewrite <- IH. f_equal.
  cbn [pr pg part_rot]. rewrite vsub_rot, abs2_rot, vscale_rot, vadd_rot. reflexivity.
Qed.

(** ** Influence of the walls *)

(** The turn of the conjugate number is the other way round. *)
Notation rb := (rot c (- s)).
Lemma conj_rot p : conj (K:=RNum) (rt p) = rb (conj p).
Proof. unfold conj. unt. apply (f_equal2 (@mkVec RNum)); eqR; ring. Qed.
Lemma abs2_back p : abs2 (rb p) = abs2 p.
Proof.
  unt. eqR. replace ((c * x p - - s * y p) * (c * x p - - s * y p) + (- s * x p + c * y p) * (- s * x p + c * y p)) with ((c * c + s * s) * (x p * x p + y p * y p)) by ring.
  rewrite H1. ring.
Qed.
Lemma cdiv_back p q : cdiv (K:=RNum) (rb p) (rb q) = cdiv p q.
Proof.
  unfold cdiv. rewrite abs2_back. set (Q := abs2 q). unfold rot. cbn [x y]. unr. change (Num.T RNum) with R in *.
  apply (f_equal2 (@mkVec RNum)); eqR; f_equal.
  - replace ((c * x p - - s * y p) * (c * x q - - s * y q) + (- s * x p + c * y p) * (- s * x q + c * y q)) with ((c * c + s * s) * (x p * x q + y p * y q)) by ring.
    rewrite H1. ring.
  - replace ((- s * x p + c * y p) * (c * x q - - s * y q) - (c * x p - - s * y p) * (- s * x q + c * y q)) with ((c * c + s * s) * (y p * x q - x p * y q)) by ring.
    rewrite H1. ring.
Qed.
Lemma cdiv_by_back p q : cdiv (K:=RNum) p (rb q) = rt (cdiv p q).
Proof.
  unfold cdiv. rewrite abs2_back. set (Q := abs2 q). unfold rot. cbn [x y]. unr. unfold Rdiv. change (Num.T RNum) with R in *.
  apply (f_equal2 (@mkVec RNum)); eqR; ring.
Qed.

Lemma linear_influence_rot lnf at2 p a q1 q2 :
  linear_influence (K:=RNum) lnf at2 (rt p) (att_rot c s a) q1 q2 = rt (linear_influence (K:=RNum) lnf at2 p a q1 q2).
Proof.
  unfold linear_influence. cbv zeta. cbn [att_rot r dl]. rewrite !vscale_rot, !vsub_rot, !vadd_rot, !vsub_rot, !vscale_rot, !vsub_rot, !conj_rot.
  rewrite !cdiv_back, cdiv_by_back. reflexivity.
Qed.

Lemma speed_at_rot b q : speed_at (K:=RNum) (shape_rot c s b) (rt q) = rt (speed_at b q).
Proof. unfold speed_at. cbn [shape_rot speed axis speed_rot r3 o3]. rewrite vsub_rot, rotl_rot, vscale_rot, vadd_rot. reflexivity. Qed.
Lemma opposite_rot q : opposite (K:=RNum) (rt q) = rt (opposite q).
Proof. unfold opposite. unt. apply (f_equal2 (@mkVec RNum)); eqR; ring. Qed.
Lemma strength_g_rot v d : strength_g (K:=RNum) (rt v) (rt d) = strength_g v d.
Proof. unfold strength_g. rewrite ?opposite_rot, ?rotl_rot, ?opposite_rot, ?rotl_rot. apply dot_rot. Qed.
Lemma strength_q_rot v d : strength_q (K:=RNum) (rt v) (rt d) = strength_q v d.
Proof. unfold strength_q. rewrite ?opposite_rot, ?rotl_rot, ?opposite_rot, ?rotl_rot. apply dot_rot. Qed.

Lemma segment_speed_rot lnf at2 b p w :
  segment_speed (K:=RNum) (linear_influence lnf at2) (shape_rot c s b) (rt p) (wall_rot c s w) =
  rt (segment_speed (K:=RNum) (linear_influence lnf at2) b p w).
Proof.
  unfold segment_speed. cbv zeta. cbn [wall_rot seg]. change (r (att_rot c s (seg w))) with (rt (r (seg w))).
  change (dl (att_rot c s (seg w))) with (rt (dl (seg w))). change (corner (att_rot c s (seg w))) with (rt (corner (seg w))).
  rewrite vsub_rot, !abs2_rot, vadd_rot.
  fold (speed_at (K:=RNum) (shape_rot c s b) (rt (vadd (corner (seg w)) (dl (seg w))))). rewrite !speed_at_rot.
  fold (speed_at (K:=RNum) b (vadd (corner (seg w)) (dl (seg w)))). rewrite !strength_g_rot, !strength_q_rot.
  destruct (_ <? _)%num.
  - rewrite !linear_influence_rot, rotl_rot, vadd_rot. reflexivity.
  - rewrite rotl_rot, !vscale_rot, vadd_rot, vdiv_rot. reflexivity.
Qed.

Lemma ltb_iff a b d : (a < d <-> b < d) -> Rltb a d = Rltb b d.
Proof. intros E. destruct (Rltb b d) eqn:X; [apply Rltb_true; apply E, Rltb_true, X|apply Rltb_false; apply Rltb_false in X; destruct (Rlt_dec a d) as [Y|Y]; [apply E in Y|]; lra]. Qed.

Lemma at_rest_rot tiny b : moving_both tiny c s b -> at_rest (K:=RNum) tiny (speed (shape_rot c s b)) = at_rest (K:=RNum) tiny (speed b).
Proof. exact (ltb_iff _ _ _). Qed.

Lemma part_of_rot w : part_of (K:=RNum) (wall_rot c s w) = prt (part_of w).
Proof. unfold part_of, part_rot. cbn [wall_rot seg att_rot r wg eps1 pr pg pv pe]. rewrite rot_zero. reflexivity. Qed.

Lemma body_influence_rot tiny ip lnf at2 bs p : Forall (moving_both tiny c s) bs ->
  body_influence (K:=RNum) tiny ip (linear_influence lnf at2) (map (shape_rot c s) bs) (rt p) =
  rt (body_influence (K:=RNum) tiny ip (linear_influence lnf at2) bs p).
Proof.
  intros M. unfold body_influence. rewrite <- vscale_rot. f_equal. rewrite <- rot_zero at 1. generalize (vzero (K:=RNum)).
  induction M as [|b bs M0 M IH]; intros z; [reflexivity|]. cbn [fold_left map]. rewrite <- IH. f_equal. clear IH M bs.
  cbv zeta. rewrite at_rest_rot by assumption. change (Map.Model.walls (shape_rot c s b)) with (map (wall_rot c s) (Map.Model.walls b)).
  assert (X : existsb (fun w => slip (seg w)) (map (wall_rot c s) (Map.Model.walls b)) = existsb (fun w => slip (seg w)) (Map.Model.walls b)).
  { induction (Map.Model.walls b) as [|w t IHt]; [reflexivity|]. cbn [map existsb]. rewrite IHt. reflexivity. }
  cbn [map] in *. rewrite X. clear X.
  assert (Y : forall l z, fold_left (fun s w => if slip (seg w) then vadd s (biot_savart (part_of w) (rt p)) else s) (map (wall_rot c s) l) (rt z) =
    rt (fold_left (fun s w => if slip (seg w) then vadd s (biot_savart (part_of w) p) else s) l z)).
  { induction l as [|w t IHt]; intros z'; [reflexivity|]. cbn [map fold_left]. rewrite <- IHt. f_equal.
    rewrite part_of_rot. change (slip (seg (wall_rot c s w))) with (slip (seg w)). destruct (slip (seg w)); [|reflexivity].
    rewrite biot_savart_rot, vadd_rot. reflexivity. }
  assert (Z : forall l z, fold_left (fun z w => vadd z (segment_speed (linear_influence lnf at2) (shape_rot c s b) (rt p) w)) (map (wall_rot c s) l) (rt z) =
    rt (fold_left (fun z w => vadd z (segment_speed (linear_influence lnf at2) b p w)) l z)).
  { induction l as [|w t IHt]; intros z'; [reflexivity|]. cbn [map fold_left]. rewrite <- IHt. f_equal. rewrite segment_speed_rot, vadd_rot. reflexivity. }
  destruct (existsb _ _); destruct (at_rest _ _); rewrite ?Y, ?Z; reflexivity.
Qed.

Lemma velocity_rot tiny ip ip1 lnf at2 S near far p : Forall (moving_both tiny c s) (bodies S) ->
  velocity (K:=RNum) tiny ip ip1 (linear_influence lnf at2) (space_rot c s S) (Some (near, map prt far)) (rt p) =
  rt (velocity (K:=RNum) tiny ip ip1 (linear_influence lnf at2) S (Some (near, far)) p).
Proof.
  intros M. unfold velocity. cbn [space_rot bodies vortices sources flow dt].
  rewrite near_influence_rot, far_influence_rot, sink_influence_rot, body_influence_rot by assumption.
  rewrite <- rot_zero at 1. rewrite !vadd_rot. reflexivity.
Qed.

(** The expansion at the centre of a node: the terms of second order turn twice. *)
Definition twice_rot (t : taylor RNum) : taylor RNum :=
  @mkTaylor RNum (c * t1 t - s * t2 t) (s * t1 t + c * t2 t)
    ((c * c - s * s) * t3 t - c * s * t4 t) ((c * c - s * s) * t4 t + 4 * c * s * t3 t).

Lemma taylor_rot o cm t : fold_left (taylor_step (K:=RNum) (rt o)) (map (fun m => (prt (fst m), prt (snd m))) cm) (twice_rot t) =
  twice_rot (fold_left (taylor_step (K:=RNum) o) cm t).
Proof.
  revert t. induction cm as [|[P M] l IH]; intros t; [reflexivity|]. cbn [map fold_left fst snd]. rewrite <- IH. f_equal. clear IH.
  unfold taylor_step, twice_rot. cbn [part_rot pr pg t1 t2 t3 t4]. rewrite !vsub_rot, !abs2_rot.
  set (dp := vsub o (pr P)). set (dm := vsub o (pr M)). unfold rot. cbn [x y]. unr. set (A := abs2 dp). set (B := abs2 dm). change (Num.T RNum) with R in *.
  unfold Rdiv. generalize (/ A) (/ B) (/ (A * A)) (/ (B * B)). intros a b aa bb. f_equal; eqR; ring.
Qed.

Lemma far_taylor_rot ip o cm p :
  far_taylor (K:=RNum) ip (2 * ip) (rt o) (map (fun m => (prt (fst m), prt (snd m))) cm) (rt p) = rt (far_taylor (K:=RNum) ip (2 * ip) o cm p).
Proof.
  unfold far_taylor, taylor_of. cbv zeta. pose proof (taylor_rot o cm (@mkTaylor RNum 0 0 0 0)) as F.
  replace (twice_rot (@mkTaylor RNum 0 0 0 0)) with (@mkTaylor RNum 0 0 0 0) in F by (unfold twice_rot; cbn [t1 t2 t3 t4]; f_equal; eqR; ring).
  unr. rewrite F. clear F. set (t := fold_left _ cm _). unfold twice_rot. cbn [t1 t2 t3 t4]. rewrite vsub_rot. set (d := vsub p o).
  unfold dot, vadd, rot. cbn [x y]. unr. change (Num.T RNum) with R in *.
  set (a := t1 t). set (b := t2 t). set (e := t3 t). set (f := t4 t). set (u := x d). set (v := y d). change (Num.T RNum) with R in *.
  apply (f_equal2 (@mkVec RNum)); eqR.
  - replace ((c * a - s * b) * ip + (((c * c - s * s) * e - c * s * f) * (2 * ip) * (c * u - s * v) + ((c * c - s * s) * f + 4 * c * s * e) * ip * (s * u + c * v)))
      with ((c * a - s * b) * ip + (c * c + s * s) * ip * (2 * c * e * u + 2 * s * e * v + (c * f * v - s * f * u))) by ring.
    rewrite H1. ring.
  - replace ((s * a + c * b) * ip + (((c * c - s * s) * f + 4 * c * s * e) * ip * (c * u - s * v) + - (((c * c - s * s) * e - c * s * f) * (2 * ip)) * (s * u + c * v)))
      with ((s * a + c * b) * ip + (c * c + s * s) * ip * (2 * s * e * u - 2 * c * e * v + (c * f * u + s * f * v))) by ring.
    rewrite H1. ring.
Qed.
End Turn.
