(** Velocities in a mirror. *)

From Coq Require Import ZArith Bool List Lia Reals Lra.
From Verif.Base Require Import Num.
From Verif.Body Require Import Model Spec.
From Verif.Vortex Require Import Model ProofsKernel.
From Verif.Map Require Import Model ModelLinear SpecSimilar SpecMirror ProofsTurn.
Import ListNotations.
Local Open Scope R_scope.

Ltac unm := unfold mir, vadd, vsub, vscale, vdiv, dot, abs2, rotl, vzero, opposite in *; cbn [x y r3 o3] in *; unr.
Ltac vec_ring := change (Num.T RNum) with R in *; apply (f_equal2 (@mkVec RNum)); eqR; first [ring | lra].
Ltac num_ring := change (Num.T RNum) with R in *; eqR; first [ring | lra].

(** Minus the mirror image. *)
Definition rim (q : pnt) : pnt := @mkVec RNum (- x q) (y q).

Lemma vsub_mir p q : vsub (mir p) (mir q) = mir (vsub p q).
Proof. unm. vec_ring. Qed.
Lemma vadd_mir p q : vadd (mir p) (mir q) = mir (vadd p q).
Proof. unm. vec_ring. Qed.
Lemma vscale_mir p a : vscale (mir p) a = mir (vscale p a).
Proof. unm. vec_ring. Qed.
Lemma vdiv_mir p a : vdiv (mir p) a = mir (vdiv p a).
Proof. unfold vdiv, vscale, mir. cbn [x y]. unr. unfold Rdiv. vec_ring. Qed.
Lemma vscale_opp (p : pnt) a : vscale p (- a) = opposite (vscale p a).
Proof. unm. vec_ring. Qed.
Lemma opposite_mir p : opposite (K:=RNum) (mir p) = rim p.
Proof. unfold rim. unm. vec_ring. Qed.
Lemma rotl_mir p : rotl (mir p) = rim (rotl p).
Proof. unfold rim. unm. vec_ring. Qed.
Lemma rotl_rim p : rotl (rim p) = mir (rotl p).
Proof. unfold rim. unm. vec_ring. Qed.
Lemma rim_mir p : opposite (K:=RNum) (rim p) = mir p.
Proof. unfold rim. unm. vec_ring. Qed.
Lemma vscale_rim p a : vscale (rim p) a = rim (vscale p a).
Proof. unfold rim. unm. vec_ring. Qed.
Lemma vadd_rim p q : vadd (rim p) (rim q) = rim (vadd p q).
Proof. unfold rim. unm. vec_ring. Qed.
Lemma dot_mir p q : dot (mir p) (mir q) = dot p q.
Proof. unm. num_ring. Qed.
Lemma abs2_mir p : abs2 (mir p) = abs2 p.
Proof. exact (dot_mir p p). Qed.
Lemma vabs_mir p : vabs (mir p) = vabs p.
Proof. exact (f_equal sqrt (abs2_mir p)). Qed.
Lemma abs2_rim p : abs2 (rim p) = abs2 p.
Proof. unfold rim. unm. num_ring. Qed.
Lemma vabs_rim p : vabs (rim p) = vabs p.
Proof. exact (f_equal sqrt (abs2_rim p)). Qed.
Lemma mir_zero : mir (vzero (K:=RNum)) = vzero.
Proof. unm. vec_ring. Qed.
Lemma opp_test g : (@neqb RNum (- g) (@nofZ RNum 0)) = @neqb RNum g (@nofZ RNum 0).
Proof. change (@neqb RNum) with Reqb. unr. destruct (Reqb g 0) eqn:E; [apply Reqb_true in E; apply Reqb_true|apply Reqb_false in E; apply Reqb_false]; lra. Qed.

(** ** Sums do not depend on the order *)

Section Order.
Context {W : Type} (f : W -> pnt).
Lemma sum_out l z a : fold_left (fun s w => vadd s (f w)) l (vadd z a) = vadd (fold_left (fun s w => vadd s (f w)) l z) a.
Proof.
  revert z. induction l as [|w l IH]; intros z; [reflexivity|]. cbn [fold_left]. rewrite <- IH. f_equal.
  unfold vadd. cbn [x y]. unr. vec_ring.
Qed.
Lemma sum_rev l z : fold_left (fun s w => vadd s (f w)) (rev l) z = fold_left (fun s w => vadd s (f w)) l z.
Proof. revert z. induction l as [|w l IH]; intros z; [reflexivity|]. cbn [rev fold_left]. rewrite fold_left_app, IH. cbn [fold_left]. rewrite sum_out. reflexivity. Qed.
End Order.
Lemma existsb_rev {A} (f : A -> bool) l : existsb f (rev l) = existsb f l.
Proof. induction l as [|a l IH]; [reflexivity|]. cbn [rev existsb]. rewrite existsb_app, IH. cbn [existsb]. destruct (f a), (existsb f l); reflexivity. Qed.

(** ** Induced velocity *)

Lemma biot_savart_mir o p : biot_savart (K:=RNum) (vort_mir o) (mir p) = mir (biot_savart (K:=RNum) o p).
Proof.
  unfold biot_savart. cbn [pr pg pe vort_mir]. rewrite vsub_mir, rotl_mir, abs2_mir.
  set (d := vsub p (pr o)). unr. set (D := abs2 d + _). change (Num.T RNum) with R in *.
  unfold vscale, rim, mir, rotl. cbn [x y]. unr. unfold Rdiv. vec_ring.
Qed.

Lemma near_influence_mir ip nb vs p : near_influence (K:=RNum) ip nb (map vort_mir vs) (mir p) = mir (near_influence (K:=RNum) ip nb vs p).
Proof.
  unfold near_influence. rewrite <- vscale_mir. f_equal.
  change (@mkVec RNum (nofZ 0) (nofZ 0)) with (vzero (K:=RNum)). rewrite <- mir_zero at 1. generalize (vzero (K:=RNum)).
  induction nb as [|j nb IH]; intros z; [reflexivity|]. cbn [fold_left]. rewrite nth_error_map. rewrite <- IH. f_equal.
  destruct (nth_error vs j) as [o|]; cbn [option_map]; [|reflexivity]. cbn [pg vort_mir]. rewrite opp_test.
  destruct (_ =? _)%num; [reflexivity|]. rewrite biot_savart_mir, vadd_mir. reflexivity.
Qed.

Lemma far_influence_mir ip cm p : far_influence (K:=RNum) ip (map vort_mir cm) (mir p) = mir (far_influence (K:=RNum) ip cm p).
Proof.
  unfold far_influence. rewrite <- vscale_mir. f_equal.
  change (@mkVec RNum (nofZ 0) (nofZ 0)) with (vzero (K:=RNum)). rewrite <- mir_zero at 1. generalize (vzero (K:=RNum)).
  induction cm as [|o cm IH]; intros z; [reflexivity|]. cbn [fold_left map]. rewrite <- IH. f_equal. rewrite biot_savart_mir, vadd_mir. reflexivity.
Qed.

Lemma sink_influence_mir ip ip1 d l p : sink_influence (K:=RNum) ip ip1 d (map part_mir l) (mir p) = mir (sink_influence (K:=RNum) ip ip1 d l p).
Proof.
  unfold sink_influence. rewrite <- vscale_mir. f_equal.
  change (@mkVec RNum (nofZ 0) (nofZ 0)) with (vzero (K:=RNum)). rewrite <- mir_zero at 1. generalize (vzero (K:=RNum)).
  induction l as [|o l IH]; intros z; [reflexivity|]. cbn [fold_left map]. rewrite <- IH. f_equal.
  cbn [pr pg part_mir]. rewrite vsub_mir, abs2_mir, vscale_mir, vadd_mir. reflexivity.
Qed.

(** ** Influence of the walls *)

Section Walls.
Variables (lnf : R -> R) (at2 : R -> R -> R).
Hypothesis HL : log_like lnf.
Hypothesis HA : angle_like at2.

Lemma abs2_pos (q : pnt) : q <> vzero (K:=RNum) -> 0 < x q * x q + y q * y q.
Proof.
  intros N. destruct q as [a b]. cbn [x y]. change (Num.T RNum) with R in *.
  destruct (Req_dec a 0) as [E|E]; [destruct (Req_dec b 0) as [F|F]; [exfalso; apply N; subst; reflexivity|]|]; nra.
Qed.

(** Dividing the other way round gives the same direction and one over the size. *)
Lemma clog_swap (a b : pnt) : a <> vzero (K:=RNum) -> b <> vzero (K:=RNum) ->
  clog (K:=RNum) lnf at2 (cdiv a b) = rim (clog (K:=RNum) lnf at2 (cdiv (conj b) (conj a))).
Proof.
  intros Na Nb. apply abs2_pos in Na, Nb. destruct a as [a1 a2], b as [b1 b2]. unfold clog, cdiv, conj, rim, vabs, abs2. cbn [x y] in *. unr. change (Num.T RNum) with R in *.
  set (A := a1 * a1 + a2 * a2) in *. set (B := b1 * b1 + b2 * b2) in *.
  replace (a1 * a1 + - a2 * - a2) with A by (unfold A; ring).
  replace (b1 * a1 + - b2 * - a2) with (a1 * b1 + a2 * b2) by ring. replace (- b2 * a1 - b1 * - a2) with (a2 * b1 - a1 * b2) by ring.
  set (u := a1 * b1 + a2 * b2). set (v := a2 * b1 - a1 * b2).
  assert (E : u * u + v * v = A * B) by (unfold u, v, A, B; ring).
  apply (f_equal2 (@mkVec RNum)); eqR.
  - rewrite <- HL.
    2: { apply sqrt_lt_R0. replace (u / A * (u / A) + v / A * (v / A)) with ((u * u + v * v) / (A * A)) by (field; lra). rewrite E.
         apply Rdiv_lt_0_compat; nra. }
    f_equal. replace (u / B * (u / B) + v / B * (v / B)) with (A / B) by (transitivity ((u * u + v * v) / (B * B)); [rewrite E|]; field; lra).
    replace (u / A * (u / A) + v / A * (v / A)) with (B / A) by (transitivity ((u * u + v * v) / (A * A)); [rewrite E|]; field; lra).
    rewrite <- sqrt_inv; f_equal; field; lra.
  - replace (v / B) with (A / B * (v / A)) by (field; lra). replace (u / B) with (A / B * (u / A)) by (field; lra).
    apply HA. apply Rdiv_lt_0_compat; assumption.
Qed.

Lemma linear_influence_mir p (a : att RNum) (q1 q2 : R) :
  (forall e, e = 1 / 2 \/ e = - (1 / 2) -> p <> @mkVec RNum (x (r a) + e * x (dl a)) (y (r a) + e * y (dl a))) ->
  linear_influence (K:=RNum) lnf at2 (mir p) (att_mir a) q2 q1 = mir (linear_influence (K:=RNum) lnf at2 p a q1 q2).
Proof.
  intros N. unfold linear_influence. cbv zeta. cbn [att_mir r dl]. change (@mkVec RNum (- x (dl a)) (y (dl a))) with (rim (dl a)).
  set (h := (nofZ 1 / nofZ 2)%num). assert (Hh : h = 1 / 2) by reflexivity.
  set (z1 := vsub p (vsub (r a) (vscale (dl a) h))). set (z2 := vsub p (vadd (r a) (vscale (dl a) h))).
  assert (E1 : vsub (mir p) (vsub (mir (r a)) (vscale (rim (dl a)) h)) = mir z2) by (unfold z2, rim; unm; vec_ring).
  assert (E2 : vsub (mir p) (vadd (mir (r a)) (vscale (rim (dl a)) h)) = mir z1) by (unfold z1, rim; unm; vec_ring).
  rewrite E1, E2.
  assert (N1 : z1 <> vzero (K:=RNum)).
  { intros X. apply (N (- (1 / 2))); [right; reflexivity|]. unfold z1, vsub, vscale, vzero in X. cbn [x y] in X. rewrite Hh in X. destruct p as [a1 a2]. cbn [x y] in X. unr. change (Num.T RNum) with R in *.
    apply (f_equal2 (@mkVec RNum)); eqR; injection X; intros; lra. }
  assert (N2 : z2 <> vzero (K:=RNum)).
  { intros X. apply (N (1 / 2)); [left; reflexivity|]. unfold z2, vsub, vadd, vscale, vzero in X. cbn [x y] in X. rewrite Hh in X. destruct p as [a1 a2]. cbn [x y] in X. unr. change (Num.T RNum) with R in *.
    apply (f_equal2 (@mkVec RNum)); eqR; injection X; intros; lra. }
  assert (C : forall q, conj (K:=RNum) (mir q) = q) by (intros q; unfold conj, mir; destruct q as [u v]; cbn [x y]; unr; vec_ring).
  rewrite !vscale_mir, !vsub_mir, !C, (clog_swap z1 z2 N1 N2). set (L := clog _ _ _). clearbody L. clear E1 E2 N1 N2 N Hh. clearbody h.
  clearbody z1 z2. generalize (dl a). intros d.
  unfold cdiv, cmul, conj, mir, rim, abs2, vsub, vscale. cbn [x y]. unr. change (Num.T RNum) with R in *.
  replace (- - x d * (- - x d)) with (x d * x d) by (eqR; ring). 
  replace (- x d * - x d + - y d * - y d) with (x d * x d + y d * y d) by (eqR; ring).
  replace (x d * x d + - y d * - y d) with (x d * x d + y d * y d) by (eqR; ring).
  unfold Rdiv. generalize (/ (x d * x d + y d * y d)). intros i. vec_ring.
Qed.

Lemma linear_influence_opp p a (q1 q2 : R) : linear_influence (K:=RNum) lnf at2 p a (- q1) (- q2) = opposite (linear_influence (K:=RNum) lnf at2 p a q1 q2).
Proof.
  unfold linear_influence. cbv zeta. set (z1 := vsub p (vsub _ _)). set (z2 := vsub p (vadd _ _)). set (L := clog _ _ _). clearbody L z1 z2. generalize (dl a). intros d.
  unfold cdiv, cmul, conj, opposite, vsub, vscale, Rdiv. cbn [x y]. unr. unfold Rdiv. change (Num.T RNum) with R in *. vec_ring.
Qed.

Lemma speed_at_mir b q : speed_at (K:=RNum) (shape_mir b) (mir q) = mir (speed_at b q).
Proof. unfold speed_at. cbn [shape_mir speed axis r3 o3]. rewrite vsub_mir, rotl_mir, <- vadd_mir. f_equal. unfold rim, mir, vscale. cbn [x y]. unr. vec_ring. Qed.
Lemma strength_g_mir v d : strength_g (K:=RNum) (mir v) (rim d) = - strength_g v d.
Proof. unfold strength_g, rim. unm. num_ring. Qed.
Lemma strength_q_mir v d : strength_q (K:=RNum) (mir v) (rim d) = strength_q v d.
Proof. unfold strength_q, rim. unm. num_ring. Qed.

Lemma segment_speed_mir b p (w : @wall RNum) :
  (forall e, e = 1 / 2 \/ e = - (1 / 2) -> p <> @mkVec RNum (x (r (seg w)) + e * x (dl (seg w))) (y (r (seg w)) + e * y (dl (seg w)))) ->
  segment_speed (K:=RNum) (linear_influence (K:=RNum) lnf at2) (shape_mir b) (mir p) (wall_mir w) =
  mir (segment_speed (K:=RNum) (linear_influence (K:=RNum) lnf at2) b p w).
Proof.
  intros N. unfold segment_speed. cbv zeta. cbn [wall_mir seg]. change (r (att_mir (seg w))) with (mir (r (seg w))).
  change (dl (att_mir (seg w))) with (rim (dl (seg w))).
  rewrite vsub_mir, abs2_mir, abs2_rim.
  fold (speed_at (K:=RNum) (shape_mir b) (vadd (corner (att_mir (seg w))) (rim (dl (seg w))))).
  fold (speed_at (K:=RNum) b (vadd (corner (seg w)) (dl (seg w)))).
  replace (corner (att_mir (seg w))) with (mir (vadd (corner (seg w)) (dl (seg w)))) by reflexivity.
  replace (vadd (mir (vadd (corner (seg w)) (dl (seg w)))) (rim (dl (seg w)))) with (mir (corner (seg w))) by (unfold rim; unm; vec_ring).
  rewrite !speed_at_mir, !strength_g_mir, !strength_q_mir.
  destruct (_ <? _)%num.
  - rewrite linear_influence_opp, !linear_influence_mir by exact N. rewrite opposite_mir, rotl_rim, vadd_mir. reflexivity.
  - rewrite <- vdiv_mir. f_equal. rewrite <- vadd_mir. f_equal; [apply vscale_mir|].
    rewrite rotl_mir, vscale_opp, vscale_rim. apply rim_mir.
Qed.

Lemma at_rest_mir tiny b : at_rest (K:=RNum) tiny (speed (shape_mir b)) = at_rest (K:=RNum) tiny (speed b).
Proof. unfold at_rest. cbn [shape_mir speed r3 o3 mir x y]. unr. rewrite !Rabs_Ropp. reflexivity. Qed.

Lemma part_of_mir w : part_of (K:=RNum) (wall_mir w) = vort_mir (part_of w).
Proof. unfold part_of, vort_mir. cbn [wall_mir seg att_mir r wg eps1 pr pg pv pe]. rewrite mir_zero. reflexivity. Qed.

Lemma body_influence_mir tiny ip bs p : Forall (off_ends p) bs ->
  body_influence (K:=RNum) tiny ip (linear_influence (K:=RNum) lnf at2) (map shape_mir bs) (mir p) =
  mir (body_influence (K:=RNum) tiny ip (linear_influence (K:=RNum) lnf at2) bs p).
Proof.
  intros M. unfold body_influence. rewrite <- vscale_mir. f_equal. rewrite <- mir_zero at 1. generalize (vzero (K:=RNum)).
  induction M as [|b bs M0 M IH]; intros z; [reflexivity|]. cbn [fold_left map]. rewrite <- IH. f_equal. clear IH M bs.
  cbv zeta. rewrite at_rest_mir. change (Map.Model.walls (shape_mir b)) with (rev (map wall_mir (Map.Model.walls b))). rewrite existsb_rev.
  assert (X : existsb (fun w => slip (seg w)) (map wall_mir (Map.Model.walls b)) = existsb (fun w => slip (seg w)) (Map.Model.walls b)).
  { clear M0. induction (Map.Model.walls b) as [|w t IHt]; [reflexivity|]. cbn [map existsb]. rewrite IHt. reflexivity. }
  cbn [map] in *. rewrite X. clear X.
  assert (G : forall q l z, fold_left (fun s w => if slip (seg w) then vadd s (biot_savart (K:=RNum) (part_of w) q) else s) l z =
    fold_left (fun s w => vadd s (if slip (seg w) then biot_savart (K:=RNum) (part_of w) q else vzero (K:=RNum))) l z).
  { intros q. induction l as [|w t IHt]; intros z'; [reflexivity|]. cbn [fold_left]. rewrite IHt. f_equal. destruct (slip (seg w)); [reflexivity|].
    destruct z' as [u v]. unfold vadd, vzero. cbn [x y]. unr. vec_ring. }
  assert (Y : forall z, fold_left (fun s w => if slip (seg w) then vadd s (biot_savart (K:=RNum) (part_of w) (mir p)) else s) (rev (map wall_mir (Map.Model.walls b))) (mir z) =
    mir (fold_left (fun s w => if slip (seg w) then vadd s (biot_savart (K:=RNum) (part_of w) p) else s) (Map.Model.walls b) z)).
  { intros z'. rewrite !G, sum_rev. clear M0. revert z'. induction (Map.Model.walls b) as [|w t IHt]; intros z'; [reflexivity|]. cbn [map fold_left]. rewrite <- IHt. f_equal.
    rewrite part_of_mir. change (slip (seg (wall_mir w))) with (slip (seg w)). destruct (slip (seg w)).
    - rewrite biot_savart_mir, vadd_mir. reflexivity.
    - rewrite <- mir_zero at 1. rewrite vadd_mir. reflexivity. }
  assert (Z : forall z, fold_left (fun z w => vadd z (segment_speed (linear_influence (K:=RNum) lnf at2) (shape_mir b) (mir p) w)) (rev (map wall_mir (Map.Model.walls b))) (mir z) =
    mir (fold_left (fun z w => vadd z (segment_speed (linear_influence (K:=RNum) lnf at2) b p w)) (Map.Model.walls b) z)).
  { intros z'. rewrite sum_rev. unfold off_ends in M0. revert M0 z'. generalize (Map.Model.walls b). intros l M0. induction l as [|w t IHt]; intros z'; [reflexivity|]. cbn [map fold_left]. rewrite <- IHt by (intros; apply M0; [right|]; assumption). f_equal.
    rewrite segment_speed_mir by (intros; apply M0; [left; reflexivity|assumption]). rewrite vadd_mir. reflexivity. }
  destruct (existsb _ _); destruct (at_rest _ _); rewrite ?Y, ?Z; reflexivity.
Qed.

Lemma velocity_mir tiny ip ip1 S near far p : Forall (off_ends p) (bodies S) ->
  velocity (K:=RNum) tiny ip ip1 (linear_influence (K:=RNum) lnf at2) (space_mir S) (Some (near, map vort_mir far)) (mir p) =
  mir (velocity (K:=RNum) tiny ip ip1 (linear_influence (K:=RNum) lnf at2) S (Some (near, far)) p).
Proof.
  intros M. unfold velocity. cbn [space_mir bodies vortices sources flow dt].
  rewrite near_influence_mir, far_influence_mir, sink_influence_mir, body_influence_mir by assumption.
  rewrite <- mir_zero at 1. rewrite !vadd_mir. reflexivity.
Qed.
End Walls.

(** The expansion at the centre of a node; vortices of one sign are those of the
    other in the mirror. *)
Definition taylor_mir (t : taylor RNum) : taylor RNum := @mkTaylor RNum (t1 t) (- t2 t) (t3 t) (- t4 t).
Lemma taylor_step_mir o cm t : fold_left (taylor_step (K:=RNum) (mir o)) (map (fun m => (vort_mir (snd m), vort_mir (fst m))) cm) (taylor_mir t) =
  taylor_mir (fold_left (taylor_step (K:=RNum) o) cm t).
Proof.
  revert t. induction cm as [|[P M] l IH]; intros t; [reflexivity|]. cbn [map fold_left fst snd]. rewrite <- IH. f_equal. clear IH.
  unfold taylor_step, taylor_mir. cbn [vort_mir pr pg t1 t2 t3 t4]. rewrite !vsub_mir, !abs2_mir.
  set (dp := vsub o (pr P)). set (dm := vsub o (pr M)). unfold mir. cbn [x y]. unr. set (A := abs2 dp). set (B := abs2 dm). change (Num.T RNum) with R in *.
  unfold Rdiv. generalize (/ A) (/ B) (/ (A * A)) (/ (B * B)). intros a b aa bb. f_equal; eqR; ring.
Qed.
Lemma far_taylor_mir ip ip1 o cm p :
  far_taylor (K:=RNum) ip ip1 (mir o) (map (fun m => (vort_mir (snd m), vort_mir (fst m))) cm) (mir p) = mir (far_taylor (K:=RNum) ip ip1 o cm p).
Proof.
  unfold far_taylor, taylor_of. cbv zeta. pose proof (taylor_step_mir o cm (@mkTaylor RNum 0 0 0 0)) as F.
  replace (taylor_mir (@mkTaylor RNum 0 0 0 0)) with (@mkTaylor RNum 0 0 0 0) in F by (unfold taylor_mir; cbn [t1 t2 t3 t4]; f_equal; eqR; ring).
  unr. rewrite F. clear F. set (t := fold_left _ cm _). unfold taylor_mir. cbn [t1 t2 t3 t4]. rewrite vsub_mir. set (d := vsub p o).
  unfold dot, vadd, mir. cbn [x y]. unr. change (Num.T RNum) with R in *. vec_ring.
Qed.
