(** The loop over the levels. *)
From Coq Require Import ZArith Bool List Lia Reals Lra.
From Flocq Require Import Core.Core IEEE754.BinarySingleNaN.
From Verif.Base Require Import Num F64.
From Verif.Isoline Require Import Model.
Import ListNotations.
Local Open Scope R_scope.

Lemma levels_stuck v vmax dv : @nleb F64 v vmax = true -> @nadd F64 v dv = v ->
  forall n, levels n v vmax dv = None.
Proof.
  intros H E. induction n as [|n IH]; cbn [levels]; rewrite H; [reflexivity|].
  rewrite E, IH. reflexivity.
Qed.

Lemma step_up (v dv : f64) (M : R) :
  is_finite v = true -> is_finite dv = true ->
  Rabs (B2R v) <= M -> M <= bpow radix2 1000 ->
  bpow radix2 (-1000) <= B2R dv <= bpow radix2 1000 -> M <= 2 ^ 52 * B2R dv ->
  is_finite (@nadd F64 v dv) = true /\ B2R v + B2R dv / 4 <= B2R (@nadd F64 v dv).
Proof.
  intros Fv Fd HM HM2 (Hd1 & Hd2) Hd.
  assert (B : Rabs (B2R v + B2R dv) <= M + B2R dv).
  { pose proof (bpow_gt_0 radix2 (-1000)).
    eapply Rle_trans; [apply Rabs_triang|]. rewrite (Rabs_pos_eq (B2R dv)); lra. }
  assert (K : bpow radix2 1000 + bpow radix2 1000 = bpow radix2 1001).
  { change 1001%Z with (1 + 1000)%Z. rewrite bpow_plus. simpl (bpow radix2 1). lra. }
  destruct (f64_add_R v dv 1001 Fv Fd) as (E & F); [lra|lia|].
  split; [assumption|]. rewrite E.
  destruct (Rle_lt_dec (bpow radix2 (-1022)) (Rabs (B2R v + B2R dv))) as [Big|Small].
  - pose proof (rnd_rel _ Big) as RR. apply Rabs_le_inv in RR.
    assert (Q : / 2 ^ 53 * Rabs (B2R v + B2R dv) <= 3 / 4 * B2R dv).
    { apply Rle_trans with (/ 2 ^ 53 * (2 ^ 52 * B2R dv + B2R dv)).
      - apply Rmult_le_compat_l; [left; apply Rinv_0_lt_compat, pow_lt; lra|lra].
      - pose proof (bpow_gt_0 radix2 (-1000)).
        replace (/ 2 ^ 53 * (2 ^ 52 * B2R dv + B2R dv)) with (/ 2 * B2R dv + / 2 ^ 53 * B2R dv) by (field).
        assert (/ 2 ^ 53 <= / 4) by (apply Rinv_le; lra).
        assert (/ 2 ^ 53 * B2R dv <= / 4 * B2R dv) by (apply Rmult_le_compat_r; lra). lra. }
    lra.
  - (* the sum is tiny: its absolute error is below dv/4 *)
    assert (Q : Rabs (rnd (B2R v + B2R dv)) <= bpow radix2 (-1022)).
    { rewrite rnd_flt. apply abs_round_le_generic; auto with typeclass_instances.
      - apply generic_format_bpow. unfold FLT_exp; lia.
      - lra. }
    apply Rabs_le_inv in Q. apply Rabs_def2 in Small.
    assert (S : 8 * bpow radix2 (-1022) <= bpow radix2 (-1000)).
    { replace 8 with (bpow radix2 3) by (simpl; lra). rewrite <- bpow_plus. apply bpow_le. lia. }
    lra.
Qed.

Lemma levels_end (vmax dv : f64) (M : R) :
  is_finite vmax = true -> is_finite dv = true -> Rabs (B2R vmax) <= M -> M <= bpow radix2 1000 ->
  bpow radix2 (-1000) <= B2R dv <= bpow radix2 1000 -> M <= 2 ^ 52 * B2R dv ->
  forall n v, is_finite v = true -> - M <= B2R v -> B2R vmax - B2R v < INR n * (B2R dv / 4) ->
  exists l, levels n v vmax dv = Some l.
Proof.
  intros Fm Fd HM HM2 Hd1 Hd n. apply Rabs_le_inv in HM.
  induction n as [|n IH]; intros v Fv Lv Hn; cbn [levels].
  - simpl in Hn. destruct (@nleb F64 v vmax) eqn:E; [|exists []; reflexivity].
    apply f64_leb_true in E; try assumption. lra.
  - destruct (@nleb F64 v vmax) eqn:E; [|exists []; reflexivity].
    apply f64_leb_true in E; try assumption.
    destruct (step_up v dv M Fv Fd) as (F & S); try assumption.
    { apply Rabs_le. lra. }
    pose proof (bpow_gt_0 radix2 (-1000)).
    rewrite S_INR in Hn.
    destruct (IH (@nadd F64 v dv) F) as (l & Hl); [lra|lra|].
    rewrite Hl. exists (v :: l). reflexivity.
Qed.

Lemma levels_terminate (vmin vmax dv : f64) (M : R) :
  is_finite vmin = true -> is_finite vmax = true -> is_finite dv = true ->
  Rabs (B2R vmin) <= M -> Rabs (B2R vmax) <= M -> M <= bpow radix2 1000 ->
  bpow radix2 (-1000) <= B2R dv <= bpow radix2 1000 -> M <= 2 ^ 52 * B2R dv ->
  exists n l, levels n vmin vmax dv = Some l.
Proof.
  intros F1 F2 F3 M1 M2 M3 D1 D2.
  pose proof (bpow_gt_0 radix2 (-1000)).
  set (x := (B2R vmax - B2R vmin) / (B2R dv / 4)).
  exists (Z.to_nat (Z.abs (up x))). apply (levels_end vmax dv M); try assumption.
  - apply Rabs_le_inv in M1. lra.
  - destruct (archimed x) as (A & _).
    assert (Hx : B2R vmax - B2R vmin = x * (B2R dv / 4)) by (unfold x; field; lra).
    rewrite Hx. apply Rmult_lt_compat_r; [lra|].
    rewrite INR_IZR_INZ, Z2Nat.id by lia.
    eapply Rlt_le_trans; [exact A|]. apply IZR_le. lia.
Qed.
