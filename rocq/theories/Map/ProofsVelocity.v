(** When the velocity is the flow of the stream function, and when not. *)

From Coq Require Import List Reals ZArith Lra Psatz Bool Arith Lia.
From Verif.Base Require Import Num.
From Verif.Body Require Import Model.
From Verif.Vortex Require Import Model.
From Verif.Map Require Import Model Spec ProofsAngle ProofsStream ProofsFlow.
Import ListNotations.
Local Open Scope R_scope.

Lemma vec_eq : forall a b : rvec, x a = x b -> y a = y b -> a = b.
Proof. intros [ax ay] [bx b_y] H1 H2. cbn in *. congruence. Qed.

(** The flow is determined by the stream function. *)
Lemma stream_unique : forall psi p u v, stream_of psi p u -> stream_of psi p v -> u = v.
Proof.
  intros psi p u v Hu Hv. apply vec_eq.
  - pose proof (uniqueness_limite _ _ _ _ (Hu (V 0 1)) (Hv (V 0 1))) as E. cbn [x y] in E. change (T RNum) with R in *. lra.
  - pose proof (uniqueness_limite _ _ _ _ (Hu (V 1 0)) (Hv (V 1 0))) as E. cbn [x y] in E. change (T RNum) with R in *. lra.
Qed.

Lemma fold_vadd : forall {A} (f : A -> rvec) l (s : rvec),
  fold_left (fun s a => vadd s (f a)) l s = vplus s (vtotal f l).
Proof.
  intros A f l. induction l as [| a l IH]; intro s; cbn [fold_left vtotal].
  - apply vec_eq; unfold vplus; cbn; rring.
  - rewrite IH. apply vec_eq; unfold vplus, vadd; cbn; rring.
Qed.
Lemma vtotal_scale : forall {A} (f g : A -> rvec) c l, (forall a, In a l -> vscale (f a) c = g a) ->
  vscale (vplus (V 0 0) (vtotal f l)) c = vtotal g l.
Proof.
  intros A f g c l. induction l as [| a l IH]; intro H; cbn [vtotal].
  - apply vec_eq; unfold vplus, vscale; cbn; rring.
  - rewrite <- IH by (intros; apply H; right; assumption). rewrite <- (H a) by (left; reflexivity).
    apply vec_eq; unfold vplus, vscale; cbn; rring.
Qed.

Lemma biot_flow : forall (o : rpart) p e, 1 / pe o * (1 / pe o) = e -> 0 < sq p (pr o) + e ->
  vscale (biot_savart (K := RNum) o p) (/ (2 * PI)) = vortex_flow (pr o) e (pg o) p.
Proof.
  intros o p e E H. pose proof PI_RGT_0. unfold biot_savart, vortex_flow.
  change (@nofZ RNum 1) with 1. cbn [nadd nmul ndiv RNum]. rewrite E.
  assert (Q : abs2 (vsub p (pr o)) = sq p (pr o)) by reflexivity. rewrite Q.
  apply vec_eq; unfold vscale, rotl, vsub; cbn [x y nadd nsub nmul ndiv nopp RNum]; change (T RNum) with R in *; field; repeat split; lra.
Qed.

Lemma near_flow : forall nb (l : list rpart) p,
  (forall o, In o (picked nb l) -> 1 / pe o * (1 / pe o) = x (pv o) /\ 0 < sq p (pr o) + x (pv o)) ->
  near_influence (K := RNum) (/ (2 * PI)) nb l p = vtotal (fun o => vortex_flow (pr o) (x (pv o)) (pg o) p) (picked nb l).
Proof.
  intros nb l p H. unfold near_influence.
  assert (E : forall s, fold_left (fun s j => match nth_error l j with
      | None => s | Some o => if (pg o =? nofZ 0)%num then s else vadd s (biot_savart (K := RNum) o p) end) nb s
      = fold_left (fun s o => vadd s (biot_savart (K := RNum) o p)) (picked nb l) s).
  { clear H. induction nb as [| j nb IH]; intro s; cbn [fold_left picked flat_map]; [reflexivity |].
    rewrite IH. fold (picked nb l). destruct (nth_error l j) as [o |]; cbn [app fold_left]; [| reflexivity].
    destruct (pg o =? nofZ 0)%num eqn:Z; [| reflexivity].
    f_equal. assert (G : pg o = 0) by (apply Reqb_true; exact Z).
    unfold biot_savart. rewrite G. apply vec_eq; unfold vadd, vscale, rotl; cbn [x y nadd nsub nmul ndiv nopp RNum]; unfold Rdiv; rring. }
  rewrite E, fold_vadd. apply vtotal_scale. intros o Ho. destruct (H o Ho). apply biot_flow; assumption.
Qed.
Lemma far_flow : forall (l : list rpart) e p,
  (forall o, In o l -> 1 / pe o * (1 / pe o) = e /\ 0 < sq p (pr o) + e) ->
  far_influence (K := RNum) (/ (2 * PI)) l p = vtotal (fun o => vortex_flow (pr o) e (pg o) p) l.
Proof.
  intros l e p H. unfold far_influence. rewrite fold_vadd. apply vtotal_scale. intros o Ho. destruct (H o Ho). apply biot_flow; assumption.
Qed.

Lemma body_still : forall (bs : list rshape) tiny10 ls p,
  (forall b, In b bs -> at_rest (K := RNum) tiny10 (speed b) = true /\ forall w, In w (walls b) -> slip (seg w) = false) ->
  body_influence (K := RNum) tiny10 (/ (2 * PI)) ls bs p = V 0 0.
Proof.
  intros bs tiny10 ls p H. unfold body_influence.
  assert (E : forall s, fold_left (fun s b =>
    let s := if existsb (fun w => slip (seg w)) (walls b)
             then fold_left (fun s w => if slip (seg w) then vadd s (biot_savart (K := RNum) (part_of w) p) else s) (walls b) s
             else s in
    if at_rest (K := RNum) tiny10 (speed b) then s else fold_left (fun s w => vadd s (segment_speed ls b p w)) (walls b) s) bs s = s).
  { induction bs as [| b bs IH]; intro s; cbn [fold_left]; [reflexivity |].
    destruct (H b (or_introl eq_refl)) as [A B].
    rewrite A. cbv zeta.
    assert (X : existsb (fun w => slip (seg w)) (walls b) = false).
    { apply not_true_is_false. intro X. apply existsb_exists in X. destruct X as [w [I W]]. rewrite (B w I) in W. discriminate. }
    rewrite X. apply IH. intros; apply H; right; assumption. }
  rewrite E. apply vec_eq; unfold vscale, vzero; cbn; rring.
Qed.
Lemma body_flow_still : forall still e p (b : rshape), still b = true -> (forall w, In w (walls b) -> wg w = 0) ->
  body_flow still e p b = V 0 0.
Proof.
  intros still e p b A G. unfold body_flow. rewrite A.
  assert (Z : forall ws : list rwall, (forall w, In w ws -> wg w = 0) -> vtotal (fun w => vortex_flow (r (seg w)) e (wg w) p) ws = V 0 0).
  { induction ws as [| w ws IH]; intro H; cbn [vtotal]; [reflexivity |].
    rewrite IH by (intros; apply H; right; assumption). rewrite (H w (or_introl eq_refl)).
    apply vec_eq; unfold vplus, vortex_flow, Rdiv; cbn [x y]; rring. }
  rewrite (Z _ G). apply vec_eq; unfold vplus; cbn; rring.
Qed.

Lemma velocity_flow : forall tiny10 ls (S : rspace) nb (far : list rpart) (e : R) (p : rvec),
  sources S = [] ->
  (forall b, In b (bodies S) -> at_rest (K := RNum) tiny10 (speed b) = true) ->
  (forall b w, In b (bodies S) -> In w (walls b) -> slip (seg w) = false /\ wg w = 0) ->
  (forall o, In o far -> 1 / pe o * (1 / pe o) = e) ->
  (forall o, In o (picked nb (vortices S)) -> 1 / pe o * (1 / pe o) = x (pv o)) ->
  smooth (fun b => at_rest (K := RNum) tiny10 (speed b)) S e (picked nb (vortices S)) far p ->
  velocity (K := RNum) tiny10 (/ (2 * PI)) (/ PI) ls S (Some (nb, far)) p
  = flow_of (fun b => at_rest (K := RNum) tiny10 (speed b)) S e (V 0 0) (picked nb (vortices S)) far p.
Proof.
  intros tiny10 ls S nb far e p Hs Hr Hw Hf Hn [_ [_ [_ [Sf Sn]]]].
  unfold velocity, flow_of. cbv zeta.
  rewrite near_flow by (intros o Ho; split; [apply Hn | apply Sn]; exact Ho).
  rewrite (far_flow far e) by (intros o Ho; split; [apply Hf | apply Sf]; exact Ho).
  rewrite body_still by (intros b Hb; split; [apply Hr; exact Hb | intros w I; apply (Hw b w Hb I)]).
  rewrite Hs. cbn [vtotal].
  assert (B : vtotal (body_flow (fun b => at_rest (K := RNum) tiny10 (speed b)) e p) (bodies S) = V 0 0).
  { assert (Q : forall bs, incl bs (bodies S) -> vtotal (body_flow (fun b => at_rest (K := RNum) tiny10 (speed b)) e p) bs = V 0 0).
    { induction bs as [| b bs IH]; intro I; cbn [vtotal]; [reflexivity |].
      rewrite IH by (intros c Hc; apply I; right; exact Hc).
      rewrite body_flow_still.
      - apply vec_eq; unfold vplus; cbn; rring.
      - apply Hr. apply I. left. reflexivity.
      - intros w Hin. apply (Hw b w); [apply I; left; reflexivity | exact Hin]. }
    apply Q. intros c Hc. exact Hc. }
  rewrite B. unfold sink_influence. cbn [fold_left].
  apply vec_eq; unfold vadd, vplus, vminus, vscale, vzero; cbn [x y nadd nsub nmul nopp RNum]; change (@nofZ RNum 0) with 0; change (T RNum) with R; rring.
Qed.
