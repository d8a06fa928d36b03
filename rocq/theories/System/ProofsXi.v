(** Influence coefficients over the real numbers. *)

From Coq Require Import ZArith Bool List Lia Reals Lra.
From Verif.Base Require Import Num.
From Verif.Body Require Import Model Spec ProofsGeom.
From Verif.Flow Require Import Model.
From Verif.System Require Import Model Spec ProofsWrite ProofsSolve ProofsReuse.
Import ListNotations.
Local Open Scope R_scope.

Lemma stream_out rd q : rd * rd <= q -> stream rd q = / 2 * ln (q / (rd * rd)).
Proof. intros H. unfold stream. destruct (Rle_dec _ _); [reflexivity|contradiction]. Qed.
Lemma stream_in rd q : 0 < rd -> q <= rd * rd -> stream rd q = / 2 * (q / (rd * rd) - 1).
Proof.
  intros P0 H. unfold stream. destruct (Rle_dec _ _) as [L|]; [|reflexivity].
  assert (q = rd * rd) by lra. subst q. assert (rd * rd <> 0) by nra.
  replace (rd * rd / (rd * rd)) with 1 by (field; nra). rewrite ln_1. lra.
Qed.

Lemma ln_ratio c a b : 0 < c -> 0 < a -> 0 < b -> ln (b / a) = ln (b / c) - ln (a / c).
Proof.
  intros C A B. unfold Rdiv. rewrite !ln_mult by (try apply Rinv_0_lt_compat; assumption). rewrite !ln_Rinv by assumption. lra.
Qed.

Notation core_exit := (core_exit (K:=RNum)).
Local Notation xi_g := (xi_g (K:=RNum) ln).
Local Notation xi_at := (xi_at (K:=RNum) ln).

Ltac eqR := match goal with |- @eq _ ?a ?b => change (@eq R a b) end.
Ltac xr :=
  repeat match goal with
  | |- context [@nltb RNum] => change (@nltb RNum) with Rltb
  | |- context [@nleb RNum] => change (@nleb RNum) with Rleb
  end.

(** Both roots of the quadratic lie on the circle. *)
Lemma core_exit_on p (s : att RNum) rd : centred s -> 0 < rd ->
  (dist2 p (corner s) < rd * rd <= dist2 p (seg_end s) \/ dist2 p (seg_end s) < rd * rd <= dist2 p (corner s)) ->
  dist2 p (core_exit p s rd) = rd * rd.
Proof.
  intros HC Hrd HD. unfold Model.core_exit. rewrite HC.
  unfold dist2, seg_end in *. destruct p as [p1 p2]. destruct (corner s) as [a1 a2]. destruct (dl s) as [d1 d2].
  unfold px, py, P in *. cbn [x y] in *.
  set (A0 := d1 * d1 + d2 * d2).
  set (b0 := (p1 - (a1 + d1 / 2)) * d1 + (p2 - (a2 + d2 / 2)) * d2).
  set (C0 := (p1 - (a1 + d1 / 2)) * (p1 - (a1 + d1 / 2)) + (p2 - (a2 + d2 / 2)) * (p2 - (a2 + d2 / 2)) - rd * rd).
  assert (A0 > 0).
  { unfold A0. destruct (Req_dec d1 0) as [->|]; [destruct (Req_dec d2 0) as [->|]; [exfalso|nra]|nra].
    destruct HD as [HD|HD]; destruct HD; lra. }
  assert (Q1 : (p1 - a1) * (p1 - a1) + (p2 - a2) * (p2 - a2) - rd * rd = A0 / 4 + b0 + C0) by (unfold A0, b0, C0; field).
  assert (Q2 : (p1 - (a1 + d1)) * (p1 - (a1 + d1)) + (p2 - (a2 + d2)) * (p2 - (a2 + d2)) - rd * rd = A0 / 4 - b0 + C0) by (unfold A0, b0, C0; field).
  assert (D : 0 <= b0 * b0 - A0 * C0).
  { destruct (Rle_lt_dec C0 0) as [|CP]; [nra|]. pose proof (Rle_0_sqr (A0 / 4 - C0)) as SQ. unfold Rsqr in SQ.
    assert (G : (A0 / 4 + C0) * (A0 / 4 + C0) - A0 * C0 = (A0 / 4 - C0) * (A0 / 4 - C0)) by field.
    destruct HD as [[X Y]|[X Y]].
    - assert (A0 / 4 + C0 < - b0) by lra. nra.
    - assert (A0 / 4 + C0 < b0) by lra. nra. }
  assert (E : forall k, A0 * k * k - 2 * b0 * k + C0 = 0 ->
     (p1 - (a1 + d1 / 2 + d1 * k)) * (p1 - (a1 + d1 / 2 + d1 * k)) + (p2 - (a2 + d2 / 2 + d2 * k)) * (p2 - (a2 + d2 / 2 + d2 * k)) = rd * rd).
  { intros k Hk. transitivity (A0 * k * k - 2 * b0 * k + C0 + rd * rd); [unfold A0, b0, C0; field|lra]. }
  pose proof (sqrt_sqrt _ D) as SS.
  assert (R1 : forall z, z * z = b0 * b0 - A0 * C0 -> A0 * ((b0 + z) / A0) * ((b0 + z) / A0) - 2 * b0 * ((b0 + z) / A0) + C0 = 0).
  { intros z Hz. transitivity ((z * z - (b0 * b0 - A0 * C0)) / A0); [field; lra|]. rewrite Hz. unfold Rdiv. rewrite Rminus_eq_0. lra. }
  unfold vadd, vsub, vscale, abs2, dot. cbn [x y].
  match goal with |- context [if ?c then _ else _] => destruct c end; cbn [x y]; apply E.
  - change (A0 * ((b0 - sqrt (b0 * b0 - A0 * C0)) / A0) * ((b0 - sqrt (b0 * b0 - A0 * C0)) / A0) - 2 * b0 * ((b0 - sqrt (b0 * b0 - A0 * C0)) / A0) + C0 = 0).
    replace (b0 - sqrt (b0 * b0 - A0 * C0)) with (b0 + - sqrt (b0 * b0 - A0 * C0)) by lra. apply R1. lra.
  - apply R1. exact SS.
Qed.

Lemma near_stream rd p a b : 0 < rd ->
  xi_g_near (K:=RNum) p (vscale (vadd a b) (half (K:=RNum))) (vsub b a) rd = / 2 * (dist2 p b / (rd * rd) - dist2 p a / (rd * rd)).
Proof.
  intros Hrd. unfold xi_g_near, dist2, dot, vsub, vadd, vscale, half, sqr. unr. eqR. field. lra.
Qed.
Lemma near_stream' rd p a b : 0 < rd ->
  xi_g_near (K:=RNum) p (vscale (vadd b a) (half (K:=RNum))) (vsub b a) rd = / 2 * (dist2 p b / (rd * rd) - dist2 p a / (rd * rd)).
Proof.
  intros Hrd. unfold xi_g_near, dist2, dot, vsub, vadd, vscale, half, sqr. unr. eqR. field. lra.
Qed.

Lemma dist_stream rd p a b : 0 < rd -> rd * rd <= dist2 p a -> rd * rd <= dist2 p b ->
  xi_g_dist (K:=RNum) ln p a b = stream rd (dist2 p b) - stream rd (dist2 p a).
Proof.
  intros Hrd A B. rewrite !stream_out by assumption. unfold xi_g_dist, half. unr.
  change (abs2 (vsub p b)) with (dist2 p b). change (abs2 (vsub p a)) with (dist2 p a).
  pose proof (ln_ratio (rd * rd) (dist2 p a) (dist2 p b) ltac:(nra) ltac:(nra) ltac:(nra)) as X. unfold Rdiv in X. rewrite X. lra.
Qed.

Lemma d2_end p (s : att RNum) : abs2 (vsub (vsub p (corner s)) (dl s)) = dist2 p (seg_end s).
Proof. unfold abs2, vsub, dist2, seg_end. unr. eqR. ring. Qed.
Lemma d1_start p (s : att RNum) : abs2 (vsub p (corner s)) = dist2 p (corner s).
Proof. reflexivity. Qed.
Lemma end_add (s : att RNum) : vadd (corner s) (dl s) = seg_end s.
Proof. reflexivity. Qed.

(** The coefficient is the difference of the stream function at the ends. *)
Lemma xi_g_stream p s rd : centred s -> 0 < rd -> xi_g p s rd = stream rd (dist2 p (seg_end s)) - stream rd (dist2 p (corner s)).
Proof.
  intros HC Hrd. unfold Model.xi_g. cbv zeta. rewrite d2_end, d1_start, end_add. change (sqr (K:=RNum) rd) with (rd * rd).
  change (@nleb RNum) with Rleb. change (@nltb RNum) with Rltb.
  set (p3 := core_exit p s rd).
  destruct (Rleb (rd * rd) (dist2 p (corner s))) eqn:E1, (Rleb (rd * rd) (dist2 p (seg_end s))) eqn:E2; cbn [andb].
  - rbool. rewrite !stream_out by assumption. unfold half. unr.
    pose proof (ln_ratio (rd * rd) (dist2 p (corner s)) (dist2 p (seg_end s)) ltac:(nra) ltac:(nra) ltac:(nra)) as X. unfold Rdiv in X. rewrite X. lra.
  - assert (E4 : Rleb (dist2 p (seg_end s)) (rd * rd) = true) by (apply Rleb_true; rbool; lra). rewrite E4, andb_true_r.
    destruct (Rleb (dist2 p (corner s)) (rd * rd)) eqn:E3; rbool.
    + rewrite !stream_in by lra. rewrite HC. unfold xi_g_near, dot, vsub, sqr, dist2, seg_end. unr. eqR. field. lra.
    + assert (E5 : Rltb (dist2 p (corner s)) (rd * rd) = false) by (apply Rltb_false; lra). rewrite E5.
      assert (H3 : dist2 p p3 = rd * rd) by (apply core_exit_on; [assumption..|right; lra]).
      rewrite (dist_stream rd) by lra. rewrite near_stream' by assumption. rewrite (stream_in rd (dist2 p (seg_end s))), (stream_in rd (dist2 p p3)) by lra.
      rewrite H3. unr. eqR. field. lra.
  - assert (E4 : Rleb (dist2 p (corner s)) (rd * rd) = true) by (apply Rleb_true; rbool; lra). rewrite E4, andb_true_l.
    destruct (Rleb (dist2 p (seg_end s)) (rd * rd)) eqn:E3; rbool.
    + rewrite !stream_in by lra. rewrite HC. unfold xi_g_near, dot, vsub, sqr, dist2, seg_end. unr. eqR. field. lra.
    + assert (E5 : Rltb (dist2 p (corner s)) (rd * rd) = true) by (apply Rltb_true; lra). rewrite E5.
      assert (H3 : dist2 p p3 = rd * rd) by (apply core_exit_on; [assumption..|left; lra]).
      rewrite (dist_stream rd) by lra. rewrite near_stream' by assumption. rewrite (stream_in rd (dist2 p (corner s))), (stream_in rd (dist2 p p3)) by lra.
      rewrite H3. unr. eqR. field. lra.
  - assert (E4 : Rleb (dist2 p (corner s)) (rd * rd) = true) by (apply Rleb_true; rbool; lra). rewrite E4.
    assert (E3 : Rleb (dist2 p (seg_end s)) (rd * rd) = true) by (apply Rleb_true; rbool; lra). rewrite E3. cbn [andb]. rbool.
    rewrite !stream_in by lra. rewrite HC. unfold xi_g_near, dot, vsub, sqr, dist2, seg_end. unr. eqR. field. lra.
Qed.

(** The first component of the other coefficient. *)
Lemma d2_end' p (s : att RNum) : abs2 (vsub p (seg_end s)) = dist2 p (seg_end s).
Proof. reflexivity. Qed.

Lemma xi_at_outside at2 p s rd : centred s -> 0 < rd ->
  (rd * rd <= dist2 p (corner s) /\ rd * rd <= dist2 p (seg_end s)) \/ rd * rd < dist2 p (corner s) \/ rd * rd < dist2 p (seg_end s) ->
  x (xi_at at2 p s rd) = stream rd (dist2 p (seg_end s)) - stream rd (dist2 p (corner s)).
Proof.
  intros HC Hrd HO. unfold Model.xi_at. cbv zeta. rewrite end_add, d2_end', d1_start. change (sqr (K:=RNum) rd) with (rd * rd).
  change (@nleb RNum) with Rleb. change (@nltb RNum) with Rltb.
  set (p3 := core_exit p s rd).
  destruct (Rleb (rd * rd) (dist2 p (corner s))) eqn:E1, (Rleb (rd * rd) (dist2 p (seg_end s))) eqn:E2; cbn [andb].
  - rbool. rewrite !stream_out by assumption. unfold half. unr.
    pose proof (ln_ratio (rd * rd) (dist2 p (corner s)) (dist2 p (seg_end s)) ltac:(nra) ltac:(nra) ltac:(nra)) as X. unfold Rdiv in X. rewrite X. lra.
  - assert (E3 : Rleb (dist2 p (corner s)) (rd * rd) = false) by (apply Rleb_false; rbool; lra). rewrite E3. cbn [andb]. rbool.
    assert (E5 : Rltb (dist2 p (corner s)) (rd * rd) = false) by (apply Rltb_false; lra). rewrite E5. cbn [vadd x].
    assert (H3 : dist2 p p3 = rd * rd) by (apply core_exit_on; [assumption..|right; lra]).
    rewrite (dist_stream rd) by lra. rewrite near_stream by assumption. rewrite (stream_in rd (dist2 p (seg_end s))), (stream_in rd (dist2 p p3)) by lra.
    rewrite H3. unr. eqR. field. lra.
  - assert (E3 : Rleb (dist2 p (seg_end s)) (rd * rd) = false) by (apply Rleb_false; rbool; lra). rewrite E3, andb_false_r. rbool.
    assert (E5 : Rltb (dist2 p (corner s)) (rd * rd) = true) by (apply Rltb_true; lra). rewrite E5. cbn [vadd x].
    assert (H3 : dist2 p p3 = rd * rd) by (apply core_exit_on; [assumption..|left; lra]).
    rewrite (dist_stream rd) by lra. rewrite near_stream by assumption. rewrite (stream_in rd (dist2 p (corner s))), (stream_in rd (dist2 p p3)) by lra.
    rewrite H3. unr. eqR. field. lra.
  - rbool. lra.
Qed.

Lemma xi_at_core at2 p s rd : centred s -> 0 < rd ->
  dist2 p (corner s) <= rd * rd -> dist2 p (seg_end s) <= rd * rd -> (dist2 p (corner s) < rd * rd \/ dist2 p (seg_end s) < rd * rd) ->
  x (xi_at at2 p s rd) = stream rd (dist2 p (corner s)) - stream rd (dist2 p (seg_end s)).
Proof.
  intros HC Hrd H1 H2 HO. unfold Model.xi_at. cbv zeta. rewrite end_add, d2_end', d1_start. change (sqr (K:=RNum) rd) with (rd * rd).
  change (@nleb RNum) with Rleb. change (@nltb RNum) with Rltb.
  assert (E : Rleb (rd * rd) (dist2 p (corner s)) && Rleb (rd * rd) (dist2 p (seg_end s)) = false).
  { apply andb_false_iff. destruct HO; [left|right]; apply Rleb_false; assumption. }
  rewrite E. apply Rleb_true in H1 as E1. apply Rleb_true in H2 as E2. rewrite E1, E2. cbn [andb].
  rewrite !stream_in by assumption. rewrite HC. unfold vdiv, vscale, dot, vsub, dist2, seg_end. unr. eqR. field. lra.
Qed.

(** A closed contour. *)
Lemma contour_flux p (l : list (att RNum)) rd : 0 < rd -> total (fun s => xi_g p s rd) (update_segments l) = 0.
Proof.
  intros Hrd. unfold update_segments. rewrite ProofsWrite.total_map, nexts_edges.
  rewrite (ProofsWrite.total_ext _ (fun e : att RNum * att RNum => stream rd (dist2 p (corner (snd e))) - stream rd (dist2 p (corner (fst e))))).
  - apply (edges_tele (fun a : att RNum => stream rd (dist2 p (corner a)))).
  - intros [a b] _. rewrite xi_g_stream; [|unfold centred, segment, half, vsub, vadd, vscale; cbn [corner dl r fst snd]; unr; apply vec_eq; unr; field|exact Hrd].
    f_equal. f_equal. f_equal. unfold seg_end, segment, vsub. cbn [corner dl fst snd]. destruct (corner b). unr. apply vec_eq; unr; lra.
Qed.
