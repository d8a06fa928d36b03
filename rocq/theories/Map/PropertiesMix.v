(** C127: velocities of two flows mixed. *)

From Coq Require Import ZArith Bool List Lia Reals Lra.
From Verif.Base Require Import Num.
From Verif.Body Require Import Model Spec.
From Verif.Vortex Require Import Model ProofsKernel.
From Verif.Map Require Import Model ModelLinear SpecSimilar SpecMix.
Import ListNotations.
Local Open Scope R_scope.

Ltac hide_inv := repeat match goal with |- context [Rinv ?d] => let e := fresh "e" in generalize (Rinv d); intros e end.

Section Mix.
Variable m : R.
Notation mx := (blend_pt m).

Lemma fold_mix3 {A} (P : A -> A -> A -> Prop) (f g h : pnt -> A -> pnt) :
  (forall a b c, P a b c -> forall s s', h (mx s s') c = mx (f s a) (g s' b)) ->
  forall l l' l'', all3 P l l' l'' -> forall s s', fold_left h l'' (mx s s') = mx (fold_left f l s) (fold_left g l' s').
Proof. intros H l l' l'' F. induction F as [|a b c l l' l'' E F IH]; intros s s'; [reflexivity|]. cbn [fold_left]. rewrite (H a b c E). apply IH. Qed.
Lemma all3_nth {A} (P : A -> A -> A -> Prop) l l' l'' : all3 P l l' l'' -> forall i,
  match nth_error l i, nth_error l' i, nth_error l'' i with Some a, Some b, Some c => P a b c | None, None, None => True | _, _, _ => False end.
Proof. induction 1 as [|a b c l l' l'' E F IH]; intros [|i]; cbn; try exact I; [exact E|apply IH]. Qed.

Lemma vadd_mx (a a' b b' : pnt) : vadd (mx a a') (mx b b') = mx (vadd a b) (vadd a' b').
Proof. unfold vadd, blend_pt, blend. cbn [x y]. unr. f_equal; eqR; ring. Qed.
Lemma vscale_mx (a a' : pnt) (k : R) : vscale (K:=RNum) (mx a a') k = mx (vscale (K:=RNum) a k) (vscale (K:=RNum) a' k).
Proof. unfold vscale, blend_pt, blend. cbn [x y]. unr. f_equal; eqR; ring. Qed.
Lemma mx_same (a : pnt) : mx a a = a.
Proof. destruct a as [u v]. unfold blend_pt, blend. cbn [x y]. f_equal; ring. Qed.
Lemma rotl_mx (a a' : pnt) : rotl (mx a a') = mx (rotl a) (rotl a').
Proof. unfold rotl, blend_pt, blend. cbn [x y]. unr. f_equal; eqR; ring. Qed.

Lemma biot_mx a b c p : part_mixed m a b c -> biot_savart (K:=RNum) c p = mx (biot_savart (K:=RNum) a p) (biot_savart (K:=RNum) b p).
Proof.
  intros (P1 & P2 & E1 & E2 & G). unfold biot_savart. rewrite P1, P2, E1, E2, G. cbv zeta. change (@ndiv RNum) with Rdiv. unfold Rdiv. hide_inv.
  unfold vscale, blend_pt, blend. cbn [x y]. unr. change (Num.T RNum) with R in *. f_equal; eqR; ring.
Qed.
Lemma biot_skip (o : part RNum) p (s : pnt) : (if @neqb RNum (pg o) (nofZ 0) then s else vadd s (biot_savart (K:=RNum) o p)) = vadd s (biot_savart (K:=RNum) o p).
Proof.
  destruct (@neqb RNum (pg o) (nofZ 0)) eqn:E; [|reflexivity]. change (@neqb RNum) with Reqb in E. change (@nofZ RNum) with IZR in E. apply Reqb_true in E.
  unfold biot_savart. rewrite E. cbv zeta. change (@ndiv RNum) with Rdiv. unfold Rdiv. hide_inv. destruct s as [u v]. unfold vadd, vscale. cbn [x y]. unr. change (Num.T RNum) with R in *. f_equal; eqR; ring.
Qed.

Lemma near_mx ip vs vs' vs'' nb p : all3 (part_mixed m) vs vs' vs'' ->
  near_influence (K:=RNum) ip nb vs'' p = mx (near_influence (K:=RNum) ip nb vs p) (near_influence (K:=RNum) ip nb vs' p).
Proof.
  intros F. unfold near_influence. rewrite <- vscale_mx. f_equal.
  assert (X : forall s s', fold_left (fun s j => match nth_error vs'' j with None => s | Some o => if @neqb RNum (pg o) (nofZ 0) then s else vadd s (biot_savart o p) end) nb (mx s s') =
    mx (fold_left (fun s j => match nth_error vs j with None => s | Some o => if @neqb RNum (pg o) (nofZ 0) then s else vadd s (biot_savart o p) end) nb s)
       (fold_left (fun s j => match nth_error vs' j with None => s | Some o => if @neqb RNum (pg o) (nofZ 0) then s else vadd s (biot_savart o p) end) nb s')).
  { induction nb as [|j nb IH]; intros s s'; [reflexivity|]. cbn [fold_left]. rewrite <- IH. f_equal. pose proof (all3_nth _ _ _ _ F j) as E.
    destruct (nth_error vs j), (nth_error vs' j), (nth_error vs'' j); try contradiction; [|reflexivity]. rewrite !biot_skip, <- vadd_mx, (biot_mx _ _ _ p E). reflexivity. }
  rewrite <- X. f_equal. symmetry. apply mx_same.
Qed.
Lemma far_mx ip l l' l'' p : all3 (part_mixed m) l l' l'' -> far_influence (K:=RNum) ip l'' p = mx (far_influence (K:=RNum) ip l p) (far_influence (K:=RNum) ip l' p).
Proof.
  intros F. unfold far_influence. rewrite <- vscale_mx. f_equal.
  assert (X : forall s s', fold_left (fun s o => vadd s (biot_savart (K:=RNum) o p)) l'' (mx s s') = mx (fold_left (fun s o => vadd s (biot_savart (K:=RNum) o p)) l s) (fold_left (fun s o => vadd s (biot_savart (K:=RNum) o p)) l' s')).
  { apply (fold_mix3 (part_mixed m)); [|exact F]. intros a b c E s s'. rewrite <- vadd_mx, (biot_mx a b c p E). reflexivity. }
  rewrite <- X. f_equal. symmetry. apply mx_same.
Qed.

Lemma linear_mx lnf at2 p a (q1 q2 q1' q2' : R) :
  linear_influence (K:=RNum) lnf at2 p a (blend m q1 q1') (blend m q2 q2') = mx (linear_influence (K:=RNum) lnf at2 p a q1 q2) (linear_influence (K:=RNum) lnf at2 p a q1' q2').
Proof.
  unfold linear_influence. cbv zeta. set (z1 := vsub p (vsub _ _)). set (z2 := vsub p (vadd _ _)). set (L := clog _ _ _). clearbody L z1 z2. generalize (dl a). intros d.
  unfold cdiv, cmul, conj, vsub, vscale, blend_pt, blend. cbn [x y]. change (@ndiv RNum) with Rdiv. unfold Rdiv. hide_inv. unr. change (Num.T RNum) with R in *. f_equal; eqR; ring.
Qed.

Lemma speed_at_mx a b c q : shape_mixed m a b c -> speed_at (K:=RNum) c q = mx (speed_at (K:=RNum) a q) (speed_at (K:=RNum) b q).
Proof.
  intros (_ & A1 & A2 & S1 & S2). unfold speed_at. rewrite A1, A2, S1, S2. unfold vadd, vscale, rotl, vsub, blend_pt, blend. cbn [x y]. unr. change (Num.T RNum) with R in *. f_equal; eqR; ring.
Qed.
Lemma strength_mx (v v' d : pnt) : strength_g (K:=RNum) (mx v v') d = blend m (strength_g (K:=RNum) v d) (strength_g (K:=RNum) v' d) /\
  strength_q (K:=RNum) (mx v v') d = blend m (strength_q (K:=RNum) v d) (strength_q (K:=RNum) v' d).
Proof. unfold strength_g, strength_q, opposite, rotl, dot, blend_pt, blend. cbn [x y]. unr. change (Num.T RNum) with R in *. split; eqR; ring. Qed.

Lemma segment_mx lnf at2 a b c w w' w'' p : shape_mixed m a b c -> wall_mixed m w w' w'' ->
  segment_speed (K:=RNum) (linear_influence (K:=RNum) lnf at2) c p w'' =
  mx (segment_speed (K:=RNum) (linear_influence (K:=RNum) lnf at2) a p w) (segment_speed (K:=RNum) (linear_influence (K:=RNum) lnf at2) b p w').
Proof.
  intros H (W1 & W2 & _). unfold segment_speed. rewrite W1, W2. cbv zeta. destruct (_ <? _)%num.
  - change (vadd (r3 (speed a)) (vscale (rotl (vsub (vadd (corner (seg w)) (dl (seg w))) (axis a))) (o3 (speed a)))) with (speed_at (K:=RNum) a (vadd (corner (seg w)) (dl (seg w)))).
    change (vadd (r3 (speed b)) (vscale (rotl (vsub (vadd (corner (seg w)) (dl (seg w))) (axis b))) (o3 (speed b)))) with (speed_at (K:=RNum) b (vadd (corner (seg w)) (dl (seg w)))).
    change (vadd (r3 (speed c)) (vscale (rotl (vsub (vadd (corner (seg w)) (dl (seg w))) (axis c))) (o3 (speed c)))) with (speed_at (K:=RNum) c (vadd (corner (seg w)) (dl (seg w)))).
    rewrite !(speed_at_mx a b c _ H). rewrite !(proj1 (strength_mx _ _ _)), !(proj2 (strength_mx _ _ _)), !linear_mx, rotl_mx, vadd_mx. reflexivity.
  - rewrite !(speed_at_mx a b c _ H). rewrite !(proj1 (strength_mx _ _ _)), !(proj2 (strength_mx _ _ _)).
    set (g := strength_g _ _). set (g' := strength_g _ _). set (q := strength_q _ _). set (q' := strength_q _ _). unfold vdiv. change (@ndiv RNum) with Rdiv. unfold Rdiv. hide_inv. clearbody g g' q q'.
    unfold vadd, vscale, rotl, blend_pt, blend. cbn [x y]. unr. change (Num.T RNum) with R in *. f_equal; eqR; ring.
Qed.
(** A body without speed adds nothing. *)
Lemma segment_rest lnf at2 b p w : speed b = @mkVec3 RNum (@mkVec RNum 0 0) 0 -> segment_speed (K:=RNum) (linear_influence (K:=RNum) lnf at2) b p w = @mkVec RNum 0 0.
Proof.
  intros S.
  assert (V : forall q, speed_at (K:=RNum) b q = @mkVec RNum 0 0). { intros q. unfold speed_at. rewrite S. unfold vadd, vscale, rotl, vsub. cbn [r3 o3 x y]. unr. f_equal; eqR; ring. }
  assert (G : forall d : pnt, strength_g (K:=RNum) (@mkVec RNum 0 0) d = 0 /\ strength_q (K:=RNum) (@mkVec RNum 0 0) d = 0). { intros d. unfold strength_g, strength_q, opposite, rotl, dot. cbn [x y]. unr. split; eqR; ring. }
  assert (L : forall a, linear_influence (K:=RNum) lnf at2 p a 0 0 = @mkVec RNum 0 0).
  { intros a. unfold linear_influence. cbv zeta. set (z1 := vsub p (vsub _ _)). set (z2 := vsub p (vadd _ _)). set (L := clog _ _ _). clearbody L z1 z2. generalize (dl a). intros d.
    unfold cdiv, cmul, conj, vsub, vscale. cbn [x y]. change (@ndiv RNum) with Rdiv. unfold Rdiv. hide_inv. unr. change (Num.T RNum) with R in *. f_equal; eqR; ring. }
  unfold segment_speed. cbv zeta. destruct (_ <? _)%num.
  - change (vadd (r3 (speed b)) (vscale (rotl (vsub (vadd (corner (seg w)) (dl (seg w))) (axis b))) (o3 (speed b)))) with (speed_at (K:=RNum) b (vadd (corner (seg w)) (dl (seg w)))).
    rewrite !V, !(proj1 (G _)), !(proj2 (G _)), !L. unfold vadd, rotl. cbn [x y]. unr. f_equal; eqR; ring.
  - rewrite !V, !(proj1 (G _)), !(proj2 (G _)). unfold vdiv. change (@ndiv RNum) with Rdiv. unfold Rdiv. hide_inv. unfold vadd, vscale, rotl. cbn [x y]. unr. change (Num.T RNum) with R in *. f_equal; eqR; ring.
Qed.

Lemma rest_skip lnf at2 tiny b p (s : pnt) : still tiny b ->
  (if at_rest (K:=RNum) tiny (speed b) then s else fold_left (fun s w => vadd s (segment_speed (K:=RNum) (linear_influence (K:=RNum) lnf at2) b p w)) (Map.Model.walls b) s) =
  fold_left (fun s w => vadd s (segment_speed (K:=RNum) (linear_influence (K:=RNum) lnf at2) b p w)) (Map.Model.walls b) s.
Proof.
  intros S. destruct (at_rest (K:=RNum) tiny (speed b)) eqn:E; [|reflexivity]. unfold still, at_rest in *. change (@nltb RNum) with Rltb in E. apply Rltb_true in E. specialize (S E). clear E. revert s. induction (Map.Model.walls b) as [|w l IH]; intros s; [reflexivity|]. cbn [fold_left].
  rewrite (segment_rest lnf at2 b p w S), <- IH. destruct s as [u v]. unfold vadd. cbn [x y]. unr. change (Num.T RNum) with R in *. f_equal; eqR; ring.
Qed.
Lemma slip_skip p (b : @shape RNum) (s : pnt) :
  (if existsb (fun w => slip (seg w)) (Map.Model.walls b) then fold_left (fun s w => if slip (seg w) then vadd s (biot_savart (K:=RNum) (part_of w) p) else s) (Map.Model.walls b) s else s) =
  fold_left (fun s w => if slip (seg w) then vadd s (biot_savart (K:=RNum) (part_of w) p) else s) (Map.Model.walls b) s.
Proof.
  destruct (existsb _ _) eqn:E; [reflexivity|]. revert s E. induction (Map.Model.walls b) as [|w l IH]; intros s E; [reflexivity|]. cbn [existsb] in E. apply orb_false_iff in E. destruct E as [E1 E2]. cbn [fold_left]. rewrite E1. apply IH, E2.
Qed.

Lemma body_mx lnf at2 tiny ip l l' l'' p : all3 (shape_mixed m) l l' l'' -> Forall (still tiny) l -> Forall (still tiny) l' -> Forall (still tiny) l'' ->
  body_influence (K:=RNum) tiny ip (linear_influence (K:=RNum) lnf at2) l'' p =
  mx (body_influence (K:=RNum) tiny ip (linear_influence (K:=RNum) lnf at2) l p) (body_influence (K:=RNum) tiny ip (linear_influence (K:=RNum) lnf at2) l' p).
Proof.
  intros F. unfold body_influence. rewrite <- vscale_mx. intros Q Q' Q''. f_equal.
  assert (Z : @vzero RNum = mx vzero vzero) by (symmetry; apply mx_same). rewrite Z at 1. generalize (@vzero RNum) at 1 3. generalize (@vzero RNum). intros s' s. clear Z.
  revert s s' Q Q' Q''. induction F as [|a b c l l' l'' E F IH]; intros s s' Q Q' Q''; [reflexivity|]. inversion Q; inversion Q'; inversion Q''; subst. cbn [fold_left]. rewrite <- IH by assumption. f_equal. cbv zeta.
  rewrite !slip_skip, !rest_skip by assumption. pose proof E as (W & _).
  assert (X : forall s s', fold_left (fun s w => vadd s (segment_speed (K:=RNum) (linear_influence (K:=RNum) lnf at2) c p w)) (Map.Model.walls c) (mx s s') =
    mx (fold_left (fun s w => vadd s (segment_speed (K:=RNum) (linear_influence (K:=RNum) lnf at2) a p w)) (Map.Model.walls a) s)
       (fold_left (fun s w => vadd s (segment_speed (K:=RNum) (linear_influence (K:=RNum) lnf at2) b p w)) (Map.Model.walls b) s')).
  { apply (fold_mix3 (wall_mixed m)); [|exact W]. intros w w' w'' Hw z z'. rewrite <- vadd_mx, (segment_mx lnf at2 a b c w w' w'' p E Hw). reflexivity. }
  assert (Y : forall s s', fold_left (fun s w => if slip (seg w) then vadd s (biot_savart (K:=RNum) (part_of w) p) else s) (Map.Model.walls c) (mx s s') =
    mx (fold_left (fun s w => if slip (seg w) then vadd s (biot_savart (K:=RNum) (part_of w) p) else s) (Map.Model.walls a) s)
       (fold_left (fun s w => if slip (seg w) then vadd s (biot_savart (K:=RNum) (part_of w) p) else s) (Map.Model.walls b) s')).
  { apply (fold_mix3 (wall_mixed m)); [|exact W]. intros w w' w'' (W1 & W2 & Wg) z z'. rewrite W1, W2. destruct (slip (seg w)); [|reflexivity].
    rewrite <- vadd_mx, (biot_mx (part_of w) (part_of w') (part_of w'') p); [reflexivity|]. unfold part_mixed, part_of. cbn [pr pe pg]. rewrite W1, W2. repeat split. exact Wg. }
  rewrite Y, X. reflexivity.
Qed.

Lemma taylor_mx ip ip1 o l l' l'' p : all3 (fun a b c => part_mixed m (fst a) (fst b) (fst c) /\ part_mixed m (snd a) (snd b) (snd c)) l l' l'' ->
  far_taylor (K:=RNum) ip ip1 o l'' p = mx (far_taylor (K:=RNum) ip ip1 o l p) (far_taylor (K:=RNum) ip ip1 o l' p).
Proof.
  intros F. unfold far_taylor, taylor_of.
  assert (X : forall t t' t'' : taylor RNum, t1 t'' = blend m (t1 t) (t1 t') /\ t2 t'' = blend m (t2 t) (t2 t') /\ t3 t'' = blend m (t3 t) (t3 t') /\ t4 t'' = blend m (t4 t) (t4 t') ->
    let u := fold_left (taylor_step (K:=RNum) o) l t in let u' := fold_left (taylor_step (K:=RNum) o) l' t' in let u'' := fold_left (taylor_step (K:=RNum) o) l'' t'' in
    t1 u'' = blend m (t1 u) (t1 u') /\ t2 u'' = blend m (t2 u) (t2 u') /\ t3 u'' = blend m (t3 u) (t3 u') /\ t4 u'' = blend m (t4 u) (t4 u')).
  { induction F as [|[a1 a2] [b1 b2] [c1 c2] l l' l'' [(P1 & P2 & _ & _ & G1) (Q1 & Q2 & _ & _ & G2)] F IH]; intros t t' t'' (A & B & C & D); [repeat split; assumption|]. cbn [fold_left].
    apply IH. unfold taylor_step. cbn [fst snd] in *. cbn [t1 t2 t3 t4]. rewrite P1, P2, Q1, Q2, G1, G2, A, B, C, D. change (@ndiv RNum) with Rdiv. unfold Rdiv. hide_inv. unfold blend. unr. change (Num.T RNum) with R in *.
    repeat split; eqR; ring. }
  specialize (X (@mkTaylor RNum 0 0 0 0) (@mkTaylor RNum 0 0 0 0) (@mkTaylor RNum 0 0 0 0)). cbv zeta in X. cbn [t1 t2 t3 t4] in X |- *.
  destruct X as (A & B & C & D); [repeat split; unfold blend; eqR; ring|]. change (@nofZ RNum 0) with 0 in *. rewrite A, B, C, D. unfold vadd, dot, vsub, blend_pt, blend. cbn [x y]. unr. change (Num.T RNum) with R in *. f_equal; eqR; ring.
Qed.
Lemma friction_mx expf eight l l' l'' w : all3 (part_mixed m) l l' l'' -> friction (K:=RNum) expf eight l'' w = blend m (friction (K:=RNum) expf eight l w) (friction (K:=RNum) expf eight l' w).
Proof.
  intros F. unfold friction.
  assert (X : forall s s' : R, fold_left (fun f v => if @neqb RNum (pg v) (nofZ 0) then f else Rplus f (snd (segment_influence (K:=RNum) expf eight v w (mkVec (nofZ 0) (nofZ 0), nofZ 0)))) l'' (blend m s s') =
    blend m (fold_left (fun f v => if @neqb RNum (pg v) (nofZ 0) then f else Rplus f (snd (segment_influence (K:=RNum) expf eight v w (mkVec (nofZ 0) (nofZ 0), nofZ 0)))) l s)
      (fold_left (fun f v => if @neqb RNum (pg v) (nofZ 0) then f else Rplus f (snd (segment_influence (K:=RNum) expf eight v w (mkVec (nofZ 0) (nofZ 0), nofZ 0)))) l' s')).
  { assert (Sk : forall (v : part RNum) (f : R), (if @neqb RNum (pg v) (nofZ 0) then f else Rplus f (snd (segment_influence (K:=RNum) expf eight v w (mkVec (nofZ 0) (nofZ 0), nofZ 0)))) =
      f + snd (segment_influence (K:=RNum) expf eight v w (mkVec (nofZ 0) (nofZ 0), nofZ 0))).
    { intros v f. destruct (@neqb RNum (pg v) (nofZ 0)) eqn:E; [|reflexivity]. change (@neqb RNum) with Reqb in E. change (@nofZ RNum) with IZR in E. apply Reqb_true in E.
      unfold segment_influence. cbv zeta. destruct (_ <? _)%num; cbn [snd]; [unr; eqR; ring|]. rewrite E. unr. eqR. ring. }
    induction F as [|a b c l l' l'' (P1 & P2 & E1 & E2 & G) F IH]; intros s s'; [reflexivity|]. cbn [fold_left]. rewrite !Sk. rewrite <- IH. f_equal.
    unfold segment_influence. rewrite P1, P2, E1, E2, G. cbv zeta. destruct (_ <? _)%num; cbn [snd]; unfold blend; unr; change (Num.T RNum) with R in *; eqR; ring. }
  rewrite <- X. f_equal. unfold blend. unr. eqR. ring.
Qed.
End Mix.

(** The velocity anywhere is mixed as the flows are. *)
Theorem C127_velocity_partial : forall (m tiny ip ip1 : R) lnf at2 (S T U : @space RNum) near far far' far'' p,
  space_mixed m S T U -> all3 (part_mixed m) far far' far'' ->
  Forall (still tiny) (bodies S) -> Forall (still tiny) (bodies T) -> Forall (still tiny) (bodies U) ->
  velocity (K:=RNum) tiny ip ip1 (linear_influence (K:=RNum) lnf at2) U (Some (near, far'')) p =
  blend_pt m (velocity (K:=RNum) tiny ip ip1 (linear_influence (K:=RNum) lnf at2) S (Some (near, far)) p)
             (velocity (K:=RNum) tiny ip ip1 (linear_influence (K:=RNum) lnf at2) T (Some (near, far')) p).
Proof.
  intros m tiny ip ip1 lnf at2 S T U near far far' far'' p (B & V & Q1 & Q2 & D1 & D2 & Fl) F R1 R2 R3. unfold velocity. cbv zeta.
  rewrite (near_mx m ip _ _ _ near p V), (far_mx m ip _ _ _ p F), Q1, Q2, D1, D2, (body_mx m lnf at2 tiny ip _ _ _ p B R1 R2 R3), Fl.
  set (z := @vzero RNum). rewrite <- (mx_same m z) at 1. rewrite <- (mx_same m (sink_influence _ _ _ _ _)) at 1. rewrite !vadd_mx. reflexivity.
Qed.
Print Assumptions C127_velocity_partial.

(** The series of the far cells, and the friction on the walls. *)
Theorem C127_series : forall (m ip ip1 : R) o cm cm' cm'' p,
  all3 (fun a b c => part_mixed m (fst a) (fst b) (fst c) /\ part_mixed m (snd a) (snd b) (snd c)) cm cm' cm'' ->
  far_taylor (K:=RNum) ip ip1 o cm'' p = blend_pt m (far_taylor (K:=RNum) ip ip1 o cm p) (far_taylor (K:=RNum) ip ip1 o cm' p).
Proof. intros. apply taylor_mx; assumption. Qed.
Print Assumptions C127_series.
Theorem C127_friction : forall (m : R) (expf : R -> R) (eight : R) vs vs' vs'' w, all3 (part_mixed m) vs vs' vs'' ->
  friction (K:=RNum) expf eight vs'' w = blend m (friction (K:=RNum) expf eight vs w) (friction (K:=RNum) expf eight vs' w).
Proof. intros. apply friction_mx; assumption. Qed.
Print Assumptions C127_friction.

(** Sources of half the strength do not give half the velocity. *)
Definition source (g : R) : part RNum := @mkPart RNum (@mkVec RNum 0 0) g (@mkVec RNum 0 0) 1.
Theorem C127_sources_refuted : ~ forall (m ip ip1 h : R) l l' l'' p, all3 (part_mixed m) l l' l'' ->
  sink_influence (K:=RNum) ip ip1 h l'' p = blend_pt m (sink_influence (K:=RNum) ip ip1 h l p) (sink_influence (K:=RNum) ip ip1 h l' p).
Proof.
  intros H. specialize (H (/ 2) 1 1 1 [source 0] [source 2] [source 1] (@mkVec RNum 1 0)).
  assert (F : all3 (part_mixed (/ 2)) [source 0] [source 2] [source 1]).
  { constructor; [|constructor]. repeat split. cbn [source pg]. unfold blend. eqR. lra. }
  specialize (H F). apply (f_equal (fun v : pnt => x v)) in H. unfold sink_influence, source in H. cbn [fold_left pr pg] in H. unfold vscale, vadd, vsub, abs2, blend_pt, blend in H. cbn [x y] in H. unr.
  change (Num.T RNum) with R in *. rewrite !Rabs_right in H by lra. lra.
Qed.
Print Assumptions C127_sources_refuted.

(** Two vortices of strength 1 and 3 at the same place, and what one of 2 does. *)
Example C127_ex : let v g := @mkPart RNum (@mkVec RNum 0 0) g (@mkVec RNum 0 0) 1 in
  let S g u := @mkSpace RNum [] [v g] [source 5] (@mkVec RNum u 0) 1 in
  space_mixed (/ 2) (S 1 0) (S 3 4) (S 2 2) /\ near_influence (K:=RNum) 1 [0%nat] [v 2] (@mkVec RNum 1 0) = @mkVec RNum 0 1.
Proof.
  cbv zeta. split.
  - unfold space_mixed. cbn [bodies vortices sources dt flow]. repeat split; try constructor; try constructor; try reflexivity; repeat split; unfold blend_pt, blend; cbn [pg x y]; try (f_equal; lra); try (eqR; lra).
  - unfold near_influence. cbn [fold_left nth_error pg]. change (@neqb RNum) with Reqb. change (@nofZ RNum) with IZR. rewrite (proj2 (Reqb_false 2 0)) by lra.
    unfold biot_savart, vscale, vadd, rotl, vsub, abs2. cbn [pr pe pg x y]. unr. change (Num.T RNum) with R in *. f_equal; eqR; field.
Qed.

(** A body at half the least speed that counts does not give half the velocity. *)
Definition plate (u : R) : @shape RNum :=
  @mkShape RNum [@mkWall RNum (@mkAtt RNum (@mkVec RNum 0 0) false (@mkVec RNum 0 1) (@mkVec RNum 0 0) 1) 0 0] (@mkVec3 RNum (@mkVec RNum u 0) 0) (@mkVec RNum 0 0) (@mkVec RNum 0 0).
Theorem C127_rest_refuted : ~ forall (m tiny ip : R) lnf at2 l l' l'' p, all3 (shape_mixed m) l l' l'' ->
  body_influence (K:=RNum) tiny ip (linear_influence (K:=RNum) lnf at2) l'' p =
  blend_pt m (body_influence (K:=RNum) tiny ip (linear_influence (K:=RNum) lnf at2) l p) (body_influence (K:=RNum) tiny ip (linear_influence (K:=RNum) lnf at2) l' p).
Proof.
  intros H. specialize (H (/ 2) 1 1 (fun _ => 0) (fun _ _ => 0) [plate 0] [plate 1] [plate (/ 2)] (@mkVec RNum 2 0)).
  assert (F : all3 (shape_mixed (/ 2)) [plate 0] [plate 1] [plate (/ 2)]).
  { constructor; [|constructor]. unfold shape_mixed, plate. cbn [Map.Model.walls axis speed r3 o3]. unfold blend_pt, blend. cbn [x y].
    repeat split; [constructor; [|constructor]; repeat split; cbn [wg]; unfold blend; eqR; lra| |eqR; lra]. f_equal; eqR; lra. }
  specialize (H F). clear F. apply (f_equal (fun v : pnt => x v)) in H. unfold body_influence, plate in H. cbn [fold_left Map.Model.walls seg slip existsb orb speed] in H.
  unfold at_rest in H. cbn [r3 o3 x y] in H. unr. change (@nltb RNum) with Rltb in H.
  rewrite !Rabs_R0, !(Rabs_right 1), !(Rabs_right (/ 2)) in H by lra.
  rewrite (proj2 (Rltb_true (0 + 0 + 0) 1)), (proj2 (Rltb_false (1 + 0 + 0) 1)), (proj2 (Rltb_true (/ 2 + 0 + 0) 1)) in H by lra.
  unfold segment_speed in H. cbn [seg r dl] in H. unfold abs2, vsub in H. cbn [x y] in H. unr. change (@nltb RNum) with Rltb in H.
  rewrite (proj2 (Rltb_false ((2 - 0) * (2 - 0) + (0 - 0) * (0 - 0)) (0 * 0 + 1 * 1))) in H by lra.
  unfold speed_at, strength_q, strength_g, opposite, dot, vdiv, vadd, vscale, rotl, vsub, vzero, blend_pt, blend in H. cbn [r3 o3 speed axis x y] in H. unr. change (Num.T RNum) with R in *. lra.
Qed.
Print Assumptions C127_rest_refuted.
