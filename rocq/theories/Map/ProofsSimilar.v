(** Velocities in other units. *)

From Coq Require Import ZArith Bool List Lia Reals Lra.
From Verif.Base Require Import Num.
From Verif.Body Require Import Model Spec.
From Verif.Vortex Require Import Model ProofsKernel.
From Verif.Map Require Import Model ModelLinear SpecSimilar.
Import ListNotations.
Local Open Scope R_scope.

Ltac unc := unfold sc, vadd, vsub, vscale, vdiv, dot, abs2, rotl, vzero in *; cbn [x y r3 o3] in *; unr.

(** Quotients; division by zero gives zero. *)
Lemma div_sc c a b : c <> 0 -> (c * a) / (c * b) = a / b.
Proof.
  intros C. destruct (Req_dec b 0) as [->|B]; [rewrite Rmult_0_r; unfold Rdiv; rewrite Rinv_0; ring|]. field. auto.
Qed.
Lemma div_of a b c d f : c <> 0 -> b = c * d -> a = c * f -> a / b = f / d.
Proof. intros C -> ->. apply div_sc. exact C. Qed.
Lemma inv_sc c a : c <> 0 -> / (c * a) = / c * / a.
Proof. intros C. destruct (Req_dec a 0) as [->|A]; [rewrite Rmult_0_r, Rinv_0; ring|]. field. auto. Qed.

Lemma ltb_sc c a b : 0 < c -> Rltb (c * a) (c * b) = Rltb a b.
Proof. intros C. destruct (Rltb a b) eqn:E; [apply Rltb_true in E; apply Rltb_true|apply Rltb_false in E; apply Rltb_false]; nra. Qed.
Lemma leb_sc c a b : 0 < c -> Rleb (c * a) (c * b) = Rleb a b.
Proof. intros C. destruct (Rleb a b) eqn:E; [apply Rleb_true in E; apply Rleb_true|apply Rleb_false in E; apply Rleb_false]; nra. Qed.
Lemma eqb_sc c a : c <> 0 -> Reqb (c * a) 0 = Reqb a 0.
Proof.
  intros C. destruct (Reqb a 0) eqn:E; [apply Reqb_true in E; apply Reqb_true; subst; ring|apply Reqb_false in E; apply Reqb_false].
  intros H. apply Rmult_integral in H. tauto.
Qed.
Lemma sqrt_sc c a : 0 <= c -> sqrt (c * c * a) = c * sqrt a.
Proof.
  intros C. destruct (Rle_dec 0 a) as [A|A].
  - rewrite sqrt_mult; [rewrite sqrt_square by exact C; reflexivity|nra|exact A].
  - rewrite (sqrt_neg_0 a) by lra. rewrite Rmult_0_r. apply sqrt_neg_0. nra.
Qed.
Lemma sign_sc c g : 0 < c -> sign (K:=RNum) (c * g) = sign (K:=RNum) g.
Proof.
  intros C. unfold sign. change (@nltb RNum) with Rltb. change (@nofZ RNum) with IZR.
  pose proof (ltb_sc c 0 g C) as A. pose proof (ltb_sc c g 0 C) as B. rewrite Rmult_0_r in A, B. rewrite A, B. reflexivity.
Qed.

Section Units.
Variables k s : R.
Hypothesis (Hk : 0 < k) (Hs : 0 < s).
Let k0 : k <> 0 := Rgt_not_eq _ _ Hk.
Let s0 : s <> 0 := Rgt_not_eq _ _ Hs.
Let ks : 0 < k * s := Rmult_lt_0_compat _ _ Hk Hs.
Let ks0 : k * s <> 0 := Rgt_not_eq _ _ ks.
Let kk : 0 < k * k := Rmult_lt_0_compat _ _ Hk Hk.
Let kk0 : k * k <> 0 := Rgt_not_eq _ _ kk.

Lemma vsub_sc c p q : vsub (sc c p) (sc c q) = sc c (vsub p q).
Proof. unc. apply (f_equal2 (@mkVec RNum)); eqR; first [ring|lra]. Qed.
Lemma vadd_sc c p q : vadd (sc c p) (sc c q) = sc c (vadd p q).
Proof. unc. apply (f_equal2 (@mkVec RNum)); eqR; first [ring|lra]. Qed.
Lemma abs2_sc c p : abs2 (sc c p) = c * c * abs2 p.
Proof. unc. eqR. ring. Qed.
Lemma dot_sc c d p q : dot (sc c p) (sc d q) = c * d * dot p q.
Proof. unc. eqR. ring. Qed.
Lemma rotl_sc c p : rotl (sc c p) = sc c (rotl p).
Proof. unc. apply (f_equal2 (@mkVec RNum)); eqR; first [ring|lra]. Qed.
Lemma vscale_sc c d p a : vscale (sc c p) (d * a) = sc (c * d) (vscale p a).
Proof. unc. apply (f_equal2 (@mkVec RNum)); eqR; first [ring|lra]. Qed.
Lemma vscale_sc1 c p a : vscale (sc c p) a = sc c (vscale p a).
Proof. unc. apply (f_equal2 (@mkVec RNum)); eqR; first [ring|lra]. Qed.
Lemma vabs_sc c p : 0 <= c -> vabs (sc c p) = c * vabs p.
Proof. intros C. unfold vabs. unc. replace (c * x p * (c * x p) + c * y p * (c * y p)) with (c * c * (x p * x p + y p * y p)) by ring. apply sqrt_sc, C. Qed.
Lemma sc_zero c : sc c (vzero (K:=RNum)) = vzero.
Proof. unc. apply (f_equal2 (@mkVec RNum)); eqR; first [ring|lra]. Qed.
Lemma sc_one p : sc 1 p = p.
Proof. destruct p. unc. apply (f_equal2 (@mkVec RNum)); eqR; first [ring|lra]. Qed.
Lemma inv_len e : 1 / (e / k) = k * (1 / e).
Proof. unfold Rdiv. rewrite (Rmult_comm e), inv_sc by (apply Rinv_neq_0_compat, k0). rewrite Rinv_inv. ring. Qed.

Notation psc := (part_sc k s (k * s)).

(** ** Induced velocity *)

Lemma biot_savart_sc o p : biot_savart (K:=RNum) (psc o) (sc k p) = sc s (biot_savart (K:=RNum) o p).
Proof.
  unfold biot_savart. cbn [pr pg pe part_sc]. rewrite vsub_sc, rotl_sc, abs2_sc. unr. rewrite inv_len.
  set (e := 1 / pe o). set (D := abs2 (vsub p (pr o))). change (Num.T RNum) with R in *.
  replace (k * s * pg o / (k * k * D + k * e * (k * e))) with (s / k * (pg o / (D + e * e))).
  - rewrite vscale_sc. f_equal. unfold Rdiv. field. exact k0.
  - replace (k * k * D + k * e * (k * e)) with (k * k * (D + e * e)) by ring. unfold Rdiv. rewrite (inv_sc (k * k)) by exact kk0.
    generalize (/ (D + e * e)). intros q. field. exact k0.
Qed.

Lemma near_influence_sc ip nb vs p :
  near_influence (K:=RNum) ip nb (map psc vs) (sc k p) = sc s (near_influence (K:=RNum) ip nb vs p).
Proof.
  unfold near_influence. rewrite <- vscale_sc1. f_equal.
  change (@mkVec RNum (nofZ 0) (nofZ 0)) with (vzero (K:=RNum)). rewrite <- (sc_zero s) at 1. generalize (vzero (K:=RNum)).
  induction nb as [|j nb IH]; intros z; [reflexivity|]. cbn [fold_left]. rewrite nth_error_map. rewrite <- IH. f_equal.
  destruct (nth_error vs j) as [o|]; cbn [option_map]; [|reflexivity]. cbn [pg part_sc].
  change (@neqb RNum) with Reqb. change (@nofZ RNum 0) with 0. rewrite eqb_sc by exact ks0.
  destruct (Reqb (pg o) 0); [reflexivity|]. rewrite biot_savart_sc, vadd_sc. reflexivity.
Qed.

Lemma far_influence_sc ip cm p : far_influence (K:=RNum) ip (map psc cm) (sc k p) = sc s (far_influence (K:=RNum) ip cm p).
Proof.
  unfold far_influence. rewrite <- vscale_sc1. f_equal.
  change (@mkVec RNum (nofZ 0) (nofZ 0)) with (vzero (K:=RNum)). rewrite <- (sc_zero s) at 1. generalize (vzero (K:=RNum)).
  induction cm as [|o cm IH]; intros z; [reflexivity|]. cbn [fold_left map]. rewrite <- IH. f_equal. rewrite biot_savart_sc, vadd_sc. reflexivity.
Qed.

Lemma sink_influence_sc ip ip1 d l p :
  sink_influence (K:=RNum) ip ip1 (k / s * d) (map psc l) (sc k p) = sc s (sink_influence (K:=RNum) ip ip1 d l p).
Proof.
  unfold sink_influence. rewrite <- vscale_sc1. f_equal.
  change (@mkVec RNum (nofZ 0) (nofZ 0)) with (vzero (K:=RNum)). rewrite <- (sc_zero s) at 1. generalize (vzero (K:=RNum)).
  induction l as [|o l IH]; intros z; [reflexivity|]. cbn [fold_left map]. rewrite <- IH. f_equal.
  cbn [pr pg part_sc]. rewrite vsub_sc, abs2_sc. unr. change (Num.T RNum) with R in *.
  set (D := abs2 (vsub p (pr o))). change (Num.T RNum) with R in *.
  rewrite <- vadd_sc. f_equal.
  replace (k * s * pg o / (k * k * D + k / s * d * ip1 * Rabs (k * s * pg o))) with (s / k * (pg o / (D + d * ip1 * Rabs (pg o)))).
  - rewrite vscale_sc. f_equal. unfold Rdiv. field. exact k0.
  - rewrite Rabs_mult, (Rabs_pos_eq (k * s)) by lra.
    replace (k * k * D + k / s * d * ip1 * (k * s * Rabs (pg o))) with (k * k * (D + d * ip1 * Rabs (pg o))) by (field; exact s0).
    unfold Rdiv. rewrite (inv_sc (k * k)) by exact kk0. generalize (/ (D + d * ip1 * Rabs (pg o))). intros q. field. exact k0.
Qed.

(** ** Influence of the walls *)

Lemma conj_sc c p : conj (K:=RNum) (sc c p) = sc c (conj p).
Proof. unfold conj. unc. apply (f_equal2 (@mkVec RNum)); eqR; first [ring|lra]. Qed.
Lemma cmul_sc c p q : cmul (K:=RNum) (sc c p) q = sc c (cmul p q).
Proof. unfold cmul. unc. apply (f_equal2 (@mkVec RNum)); eqR; ring. Qed.
Lemma cdiv_sc c d p q : d <> 0 -> cdiv (K:=RNum) (sc c p) (sc d q) = sc (c / d) (cdiv p q).
Proof.
  intros D. unfold cdiv. rewrite abs2_sc. unfold sc. cbn [x y]. unr. unfold Rdiv. set (Q := abs2 q). change (Num.T RNum) with R in *.
  rewrite (inv_sc (d * d) Q) by (intros H; apply Rmult_integral in H; tauto). generalize (/ Q). intros z.
  apply (f_equal2 (@mkVec RNum)); eqR; field; exact D.
Qed.
Lemma vscale_num c d p a : vscale (sc c p) (d * a) = sc (c * d) (vscale (K:=RNum) p a).
Proof. unc. apply (f_equal2 (@mkVec RNum)); eqR; ring. Qed.

Lemma linear_influence_sc lnf at2 p a q1 q2 :
  linear_influence (K:=RNum) lnf at2 (sc k p) (att_sc k a) (k * s * q1) (k * s * q2) = sc s (linear_influence (K:=RNum) lnf at2 p a q1 q2).
Proof.
  unfold linear_influence. cbv zeta. cbn [att_sc r dl]. rewrite !vscale_sc1, !vsub_sc, !vadd_sc, !vsub_sc, !vscale_num, !vsub_sc, !conj_sc.
  rewrite !cdiv_sc by exact k0. replace (k / k) with 1 by (field; exact k0). rewrite sc_one, cmul_sc.
  set (w := cmul _ _).
  replace (@mkVec RNum _ _) with (sc (k * s) (@mkVec RNum (q2 - q1 - x w) (- y w))).
  - rewrite cdiv_sc by exact k0. f_equal. field. exact k0.
  - unfold sc. cbn [x y]. unr. apply (f_equal2 (@mkVec RNum)); eqR; field; exact k0.
Qed.

Lemma speed_at_sc b q : speed_at (K:=RNum) (shape_sc k s b) (sc k q) = sc s (speed_at b q).
Proof.
  unfold speed_at. cbn [shape_sc speed axis speed_sc r3 o3]. rewrite vsub_sc, rotl_sc, vscale_num, <- vadd_sc. f_equal. f_equal. field. exact k0.
Qed.
Lemma strength_g_sc v d : strength_g (K:=RNum) (sc s v) (sc k d) = k * s * strength_g v d.
Proof. unfold strength_g, opposite. unc. eqR. ring. Qed.
Lemma strength_q_sc v d : strength_q (K:=RNum) (sc s v) (sc k d) = k * s * strength_q v d.
Proof. unfold strength_q, opposite. unc. eqR. ring. Qed.

Lemma vdiv_sc c d p a : d <> 0 -> vdiv (sc c p) (d * a) = sc (c / d) (vdiv (K:=RNum) p a).
Proof.
  intros D. unfold vdiv, vscale, sc. cbn [x y]. unr. unfold Rdiv. rewrite inv_sc by exact D. generalize (/ a). intros z.
  apply (f_equal2 (@mkVec RNum)); eqR; field; exact D.
Qed.

Lemma segment_speed_sc lnf at2 b p w :
  segment_speed (K:=RNum) (linear_influence lnf at2) (shape_sc k s b) (sc k p) (wall_sc k s w) =
  sc s (segment_speed (K:=RNum) (linear_influence lnf at2) b p w).
Proof.
  unfold segment_speed. cbv zeta. cbn [wall_sc seg]. change (r (att_sc k (seg w))) with (sc k (r (seg w))).
  change (dl (att_sc k (seg w))) with (sc k (dl (seg w))). change (corner (att_sc k (seg w))) with (sc k (corner (seg w))).
  rewrite vsub_sc, !abs2_sc. change (@nltb RNum) with Rltb. rewrite ltb_sc by exact kk. rewrite vadd_sc.
  fold (speed_at (K:=RNum) (shape_sc k s b) (sc k (vadd (corner (seg w)) (dl (seg w))))). rewrite !speed_at_sc.
  fold (speed_at (K:=RNum) b (vadd (corner (seg w)) (dl (seg w)))). rewrite !strength_g_sc, !strength_q_sc.
  destruct (Rltb _ _).
  - rewrite !linear_influence_sc, rotl_sc, vadd_sc. reflexivity.
  - rewrite rotl_sc, !vscale_num, vadd_sc, vdiv_sc by exact kk0. f_equal. field. exact k0.
Qed.

Lemma at_rest_sc tiny b : 0 < tiny -> moving tiny k s b -> at_rest (K:=RNum) tiny (speed (shape_sc k s b)) = at_rest (K:=RNum) tiny (speed b).
Proof.
  intros T M. unfold at_rest. cbn [shape_sc speed speed_sc r3 o3]. unfold sc. cbn [x y]. unr. change (@nltb RNum) with Rltb. unfold moving, size1 in M.
  assert (P : 0 < s / k) by (apply Rmult_lt_0_compat; [exact Hs|apply Rinv_0_lt_compat, Hk]).
  rewrite !Rabs_mult, (Rabs_pos_eq s), (Rabs_pos_eq (s / k)) by lra. change (Num.T RNum) with R in *.
  destruct M as [[A B]|[A B]].
  - rewrite B, Rabs_R0, Rmult_0_r. replace (s * Rabs (x (r3 (speed b))) + s * Rabs (y (r3 (speed b))) + 0) with (s * (Rabs (x (r3 (speed b))) + Rabs (y (r3 (speed b))))) by ring.
    change (Num.T RNum) with R in *. rewrite A, Rmult_0_r, Rplus_0_r. reflexivity.
  - replace (Rltb _ tiny) with false by (symmetry; apply Rltb_false; lra). symmetry. apply Rltb_false. exact A.
Qed.

Lemma part_of_sc w : part_of (K:=RNum) (wall_sc k s w) = psc (part_of w).
Proof. unfold part_of, part_sc. cbn [wall_sc seg att_sc r wg eps1 pr pg pv pe]. rewrite sc_zero. reflexivity. Qed.

Lemma body_influence_sc tiny ip lnf at2 bs p : 0 < tiny -> Forall (moving tiny k s) bs ->
  body_influence (K:=RNum) tiny ip (linear_influence lnf at2) (map (shape_sc k s) bs) (sc k p) =
  sc s (body_influence (K:=RNum) tiny ip (linear_influence lnf at2) bs p).
Proof.
  intros T M. unfold body_influence. rewrite <- vscale_sc1. f_equal. rewrite <- (sc_zero s) at 1. generalize (vzero (K:=RNum)).
  induction M as [|b bs M0 M IH]; intros z; [reflexivity|]. cbn [fold_left map]. rewrite <- IH. f_equal. clear IH M bs.
  cbv zeta. rewrite at_rest_sc by assumption. change (Map.Model.walls (shape_sc k s b)) with (map (wall_sc k s) (Map.Model.walls b)).
  assert (X : existsb (fun w => slip (seg w)) (map (wall_sc k s) (Map.Model.walls b)) = existsb (fun w => slip (seg w)) (Map.Model.walls b)).
  { induction (Map.Model.walls b) as [|w t IHt]; [reflexivity|]. cbn [map existsb]. rewrite IHt. reflexivity. }
  cbn [map] in *. rewrite X. clear X.
  assert (Y : forall l z, fold_left (fun s w => if slip (seg w) then vadd s (biot_savart (part_of w) (sc k p)) else s) (map (wall_sc k s) l) (sc s z) =
    sc s (fold_left (fun s w => if slip (seg w) then vadd s (biot_savart (part_of w) p) else s) l z)).
  { induction l as [|w t IHt]; intros z'; [reflexivity|]. cbn [map fold_left]. rewrite <- IHt. f_equal.
    rewrite part_of_sc. change (slip (seg (wall_sc k s w))) with (slip (seg w)). destruct (slip (seg w)); [|reflexivity].
    rewrite biot_savart_sc, vadd_sc. reflexivity. }
  assert (Z : forall l z, fold_left (fun z w => vadd z (segment_speed (linear_influence lnf at2) (shape_sc k s b) (sc k p) w)) (map (wall_sc k s) l) (sc s z) =
    sc s (fold_left (fun z w => vadd z (segment_speed (linear_influence lnf at2) b p w)) l z)).
  { induction l as [|w t IHt]; intros z'; [reflexivity|]. cbn [map fold_left]. rewrite <- IHt. f_equal. rewrite segment_speed_sc, vadd_sc. reflexivity. }
  destruct (existsb _ _); destruct (at_rest _ _); rewrite ?Y, ?Z; reflexivity.
Qed.

Lemma velocity_sc tiny ip ip1 lnf at2 S near far p : 0 < tiny -> Forall (moving tiny k s) (bodies S) ->
  velocity (K:=RNum) tiny ip ip1 (linear_influence lnf at2) (space_sc k s S) (Some (near, map psc far)) (sc k p) =
  sc s (velocity (K:=RNum) tiny ip ip1 (linear_influence lnf at2) S (Some (near, far)) p).
Proof.
  intros T M. unfold velocity. cbn [space_sc bodies vortices sources flow dt].
  rewrite near_influence_sc, far_influence_sc, sink_influence_sc, body_influence_sc by assumption.
  rewrite <- (sc_zero s) at 1. rewrite !vadd_sc. reflexivity.
Qed.

(** The expansion at the centre of a node. *)
Lemma far_taylor_sc ip ip1 c cm p :
  far_taylor (K:=RNum) ip ip1 (sc k c) (map (fun m => (psc (fst m), psc (snd m))) cm) (sc k p) = sc s (far_taylor (K:=RNum) ip ip1 c cm p).
Proof.
  assert (F : forall l (t : @taylor RNum), fold_left (taylor_step (K:=RNum) (sc k c)) (map (fun m => (psc (fst m), psc (snd m))) l)
      (@mkTaylor RNum (s * t1 t) (s * t2 t) (s / k * t3 t) (s / k * t4 t)) =
    let t := fold_left (taylor_step (K:=RNum) c) l t in @mkTaylor RNum (s * t1 t) (s * t2 t) (s / k * t3 t) (s / k * t4 t)).
  { induction l as [|[P M] l IH]; intros t; [reflexivity|]. cbn [map fold_left fst snd]. cbv zeta in *. rewrite <- IH. f_equal.
    unfold taylor_step. cbn [part_sc pr pg t1 t2 t3 t4]. rewrite !vsub_sc, !abs2_sc.
    set (dp := vsub c (pr P)). set (dm := vsub c (pr M)). unfold sc. cbn [x y]. unr. set (A := abs2 dp). set (B := abs2 dm). change (Num.T RNum) with R in *.
    replace (k * k * A * (k * k * A)) with ((k * k) * (k * k) * (A * A)) by ring.
    replace (k * k * B * (k * k * B)) with ((k * k) * (k * k) * (B * B)) by ring.
    assert (k4 : (k * k) * (k * k) <> 0) by (apply Rmult_integral_contrapositive; split; exact kk0).
    unfold Rdiv. rewrite !(inv_sc (k * k)) by exact kk0. rewrite !(inv_sc (k * k * (k * k))) by exact k4.
    generalize (/ A) (/ B) (/ (A * A)) (/ (B * B)). intros a b aa bb.
    f_equal; eqR; field; exact k0. }
  unfold far_taylor, taylor_of. cbv zeta.
  specialize (F cm (@mkTaylor RNum 0 0 0 0)). cbn [t1 t2 t3 t4] in F. rewrite !Rmult_0_r in F. unr. rewrite F. cbv zeta. cbn [t1 t2 t3 t4].
  set (t := fold_left _ cm _). rewrite vsub_sc. set (d := vsub p c). unfold dot, vadd, sc. cbn [x y]. unr.
  apply (f_equal2 (@mkVec RNum)); eqR; field; exact k0.
Qed.
End Units.
