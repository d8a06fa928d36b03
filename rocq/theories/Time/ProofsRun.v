From Coq Require Import ZArith Bool List Lia Reals Lra QArith Qreals Psatz.
From Flocq Require Import Core.Core IEEE754.BinarySingleNaN.
From Verif.Base Require Import Int Num F64.
From Verif.Time Require Import Model Spec Proofs ModelRun SpecRun.
Import ListNotations.
Local Open Scope Z_scope.

(** * to_double *)

Lemma instant_R t : timescale t <> 0 -> Q2R (instant t) = (IZR (value t) / IZR (timescale t))%R.
Proof.
  intros H. unfold instant. rewrite Q2R_div.
  - unfold Q2R, inject_Z; simpl. rewrite Rinv_1, !Rmult_1_r. reflexivity.
  - unfold inject_Z, Qeq; simpl. lia.
Qed.

Lemma bpow_pos_Z n : (0 <= n)%Z -> bpow radix2 n = IZR (2 ^ n).
Proof. intros. rewrite <- IZR_Zpower by assumption. reflexivity. Qed.

Lemma Rabs_div_le a b : b <> 0%R -> (1 <= Rabs b -> Rabs (a / b) <= Rabs a)%R.
Proof.
  intros Hb H. unfold Rdiv. rewrite Rabs_mult, Rabs_inv.
  rewrite <- (Rmult_1_r (Rabs a)) at 2. apply Rmult_le_compat_l; [apply Rabs_pos|].
  rewrite <- Rinv_1. apply Rinv_le; lra.
Qed.

Lemma to_double_R t : wf_time t ->
  B2R (to_double t) = rnd (Q2R (instant t)) /\ is_finite (to_double t) = true.
Proof.
  intros (Hv & Hts). unfold is_i32 in Hv.
  rewrite instant_R by lia.
  destruct (f64_ofZ_R (value t)) as (E1 & F1); [lia|].
  destruct (f64_ofZ_R (timescale t)) as (E2 & F2); [lia|].
  unfold to_double.
  assert (N : (IZR (timescale t) <> 0)%R) by (apply IZR_neq; lia).
  rewrite <- E1, <- E2. apply f64_div_R with (e := 31); try assumption; try lia.
  - rewrite E2; assumption.
  - rewrite E1, E2. eapply Rle_trans; [apply Rabs_div_le; try assumption|].
    + rewrite <- abs_IZR. apply IZR_le. lia.
    + rewrite <- abs_IZR, bpow_pos_Z by lia. apply IZR_le. lia.
Qed.

Lemma rnd_nonneg x : (bpow radix2 (-1022) <= Rabs x)%R \/ x = 0%R -> (0 <= rnd x <-> 0 <= x)%R.
Proof.
  intros H. split; intros K.
  - destruct H as [H| ->]; [|lra].
    pose proof (rnd_rel x H) as E.
    destruct (Rle_or_lt 0 x) as [|L]; [assumption|].
    exfalso. rewrite (Rabs_left x L) in E. apply Rabs_le_inv in E. simpl in E; lra.
  - rewrite <- rnd_0. apply rnd_le. assumption.
Qed.

Lemma instant_big t : wf_time t ->
  (bpow radix2 (-1022) <= Rabs (Q2R (instant t)))%R \/ Q2R (instant t) = 0%R.
Proof.
  intros (Hv & Hts). rewrite instant_R by lia. unfold is_i32 in Hv.
  destruct (Z.eq_dec (value t) 0) as [E|E].
  - right. rewrite E. unfold Rdiv. lra.
  - left. apply Rle_trans with (bpow radix2 (-32)); [apply bpow_le; lia|].
    unfold Rdiv. rewrite Rabs_mult, Rabs_inv.
    assert (H1 : (1 <= Rabs (IZR (value t)))%R) by (rewrite <- abs_IZR; apply IZR_le; lia).
    assert (H2 : (bpow radix2 (-32) <= / Rabs (IZR (timescale t)))%R).
    { change (bpow radix2 (-32)) with (/ IZR (2^32))%R. apply Rinv_le.
      - rewrite <- abs_IZR. apply IZR_lt. lia.
      - rewrite <- abs_IZR. apply IZR_le. lia. }
    pose proof (bpow_gt_0 radix2 (-32)). nra.
Qed.

Lemma to_double_nonneg t : wf_time t ->
  @nleb F64 (f64_ofZ 0) (to_double t) = true <-> (0 <= instant t)%Q.
Proof.
  intros H. destruct (to_double_R t H) as (E & F).
  destruct (f64_ofZ_R 0) as (E0 & F0); [lia|].
  rewrite f64_leb_true by assumption. rewrite E, E0.
  rewrite rnd_nonneg by (apply instant_big; assumption).
  split; intros K.
  - apply Rle_Qle. rewrite RMicromega.Q2R_0. assumption.
  - apply Qle_Rle in K. rewrite RMicromega.Q2R_0 in K. assumption.
Qed.

Lemma Qeq_nonneg q q' : (q == q')%Q -> (0 <= q)%Q <-> (0 <= q')%Q.
Proof. intros E. rewrite E. reflexivity. Qed.

(** * Loop condition *)

Lemma goes_on_spec time dt finish :
  wf_time time -> wf_time dt -> is_finite finish = true ->
  (Rabs (B2R finish) <= bpow radix2 1000)%R ->
  (goes_on time dt finish = true <->
   (rnd (Q2R (instant time)) < run_bound dt finish)%R).
Proof.
  intros Ht Hd Hf Hb. unfold goes_on.
  destruct (to_double_R _ Ht) as (E1 & F1). destruct (to_double_R _ Hd) as (E2 & F2).
  destruct (f64_ofZ_R 2) as (E3 & F3); [lia|].
  assert (B2 : (Rabs (B2R (to_double dt)) <= bpow radix2 31)%R).
  { rewrite E2. rewrite rnd_flt. apply abs_round_le_generic; auto with typeclass_instances.
    - apply generic_format_bpow. unfold FLT_exp; lia.
    - destruct Hd as (Hv & Hts). unfold is_i32 in Hv. rewrite instant_R by lia.
      eapply Rle_trans; [apply Rabs_div_le|].
      + apply IZR_neq; lia.
      + rewrite <- abs_IZR. apply IZR_le. lia.
      + rewrite <- abs_IZR, bpow_pos_Z by lia. apply IZR_le. lia. }
  destruct (f64_div_R (to_double dt) (f64_ofZ 2) 31) as (E4 & F4); try assumption; try lia.
  { rewrite E3. lra. }
  { eapply Rle_trans; [apply Rabs_div_le|exact B2]; rewrite E3; try lra.
    rewrite Rabs_right; lra. }
  assert (B4 : (Rabs (B2R (@ndiv F64 (to_double dt) (f64_ofZ 2))) <= bpow radix2 31)%R).
  { rewrite E4, rnd_flt. apply abs_round_le_generic; auto with typeclass_instances.
    - apply generic_format_bpow. unfold FLT_exp; lia.
    - eapply Rle_trans; [apply Rabs_div_le|exact B2]; rewrite E3; try lra.
      rewrite Rabs_right; lra. }
  destruct (f64_add_R finish (@ndiv F64 (to_double dt) (f64_ofZ 2)) 1001) as (E5 & F5);
    try assumption; try lia.
  { eapply Rle_trans; [apply Rabs_triang|].
    apply Rle_trans with (bpow radix2 1000 + bpow radix2 1000)%R.
    - apply Rplus_le_compat; [assumption|]. eapply Rle_trans; [exact B4|apply bpow_le; lia].
    - change 1001 with (1000 + 1)%Z. rewrite bpow_plus. change (bpow radix2 1) with 2%R. lra. }
  rewrite f64_ltb_true by assumption.
  rewrite E5, E4, E3, E2, E1. unfold run_bound. reflexivity.
Qed.

(** * The run *)

Definition common_multiple (l : Z) (t : ttime) : Prop := (timescale t | l).

Lemma lcm_le_common x y l : 0 < x -> 0 < y -> 0 < l -> (x | l) -> (y | l) -> Z.lcm x y <= l.
Proof.
  intros Hx Hy Hl H1 H2. apply Z.divide_pos_le; [assumption|]. apply Z.lcm_least; assumption.
Qed.

Lemma save_now_spec time dt_save l :
  wf_time time -> wf_time dt_save -> value dt_save <> 0 ->
  0 < l <= 2^31 -> (timescale time | l) -> (timescale dt_save | l) ->
  exists b, save_now time dt_save = Some b /\
    (b = true <-> integer_multiple (instant time) (instant dt_save) /\ (0 <= instant time)%Q).
Proof.
  intros Ht Hd Hnz Hl D1 D2.
  assert (P1 : 0 < timescale time) by (destruct Ht; lia).
  assert (P2 : 0 < timescale dt_save) by (destruct Hd; lia).
  destruct (divisible_spec time dt_save (Z.lcm (timescale time) (timescale dt_save)) Ht Hd Hnz)
    as (b & Hb & Hs).
  - apply is_lcm_Zlcm; assumption.
  - left. pose proof (lcm_le_common _ _ l P1 P2 ltac:(lia) D1 D2). lia.
  - exists (b && @nleb F64 (f64_ofZ 0) (to_double time)). unfold save_now. rewrite Hb.
    split; [reflexivity|].
    rewrite andb_true_iff, Hs, to_double_nonneg by assumption. reflexivity.
Qed.

Lemma integer_multiple_Qeq q q' d : (q == q')%Q -> integer_multiple q d <-> integer_multiple q' d.
Proof.
  intros E. unfold integer_multiple. split; intros (n & H); exists n; [rewrite <- E|rewrite E]; exact H.
Qed.

Lemma after_0 t0 dt : (after t0 dt 0 == instant t0)%Q.
Proof. unfold after. simpl. ring. Qed.

Lemma simulate_spec n : forall fuel log t0 dt ds finish l,
  wf_time t0 -> wf_time dt -> wf_time ds -> value ds <> 0 ->
  is_finite finish = true -> (Rabs (B2R finish) <= bpow radix2 1000)%R ->
  0 < l <= 2^31 -> (timescale t0 | l) -> (timescale dt | l) -> (timescale ds | l) ->
  (forall k, (k <= n)%nat -> representable (after t0 dt k) (Z.lcm (timescale t0) (timescale dt))) ->
  (forall k, (k < n)%nat -> (rnd (Q2R (after t0 dt k)) < run_bound dt finish)%R) ->
  (run_bound dt finish <= rnd (Q2R (after t0 dt n)))%R ->
  (n <= fuel)%nat ->
  exists new tend,
    simulate fuel log t0 dt ds finish = Finished (log ++ new) tend /\
    length new = n /\ (instant tend == after t0 dt n)%Q /\
    (forall k e, nth_error new k = Some e ->
       (instant (at_time e) == after t0 dt k)%Q /\
       (saved e = true <-> integer_multiple (after t0 dt k) (instant ds) /\ (0 <= after t0 dt k)%Q)).
Proof.
  induction n as [|n IH]; intros fuel log t0 dt ds finish l W0 Wd Ws Hnz Hf Hb Hl D0 Dd Ds Hrep Hgo Hstop Hfuel.
  - exists [], t0. rewrite app_nil_r.
    assert (G : goes_on t0 dt finish = false).
    { apply not_true_iff_false. rewrite goes_on_spec by assumption.
      rewrite (Qeq_eqR _ _ (after_0 t0 dt)) in Hstop. lra. }
    destruct fuel; simpl; rewrite G; (split; [reflexivity|]); (split; [reflexivity|]);
      (split; [symmetry; apply after_0|]); intros [|k] e H; discriminate.
  - destruct fuel as [|fuel]; [lia|].
    assert (G : goes_on t0 dt finish = true).
    { rewrite goes_on_spec by assumption. rewrite <- (Qeq_eqR _ _ (after_0 t0 dt)). apply Hgo. lia. }
    simpl. rewrite G.
    destruct (save_now_spec t0 ds l) as (b & Hs & Hbs); try assumption.
    rewrite Hs.
    assert (P0 : 0 < timescale t0) by (destruct W0; lia).
    assert (Pd : 0 < timescale dt) by (destruct Wd; lia).
    assert (Ll : Z.lcm (timescale t0) (timescale dt) <= l) by (apply lcm_le_common; try assumption; lia).
    destruct (add_exact t0 dt (Z.lcm (timescale t0) (timescale dt))) as (t1 & Ha & W1 & Hts & Hi);
      try assumption.
    { apply is_lcm_Zlcm; assumption. }
    { left. lia. }
    { eapply representable_Qeq; [|apply (Hrep 1%nat); lia]. unfold after. simpl. ring. }
    rewrite Ha.
    assert (D1 : (timescale t1 | l)) by (rewrite Hts; apply Z.lcm_least; assumption).
    assert (Elcm : Z.lcm (timescale t1) (timescale dt) = Z.lcm (timescale t0) (timescale dt)).
    { rewrite Hts, <- Z.lcm_assoc, Z.lcm_diag, (Z.abs_eq (timescale dt)) by lia. reflexivity. }
    destruct (IH fuel (log ++ [mkEntry t0 b]) t1 dt ds finish l) as (new & tend & Hsim & Hlen & Hend & Hent);
      try assumption; try lia.
    { intros k Hk. rewrite Elcm. eapply representable_Qeq; [symmetry; apply after_S; exact Hi|].
      apply Hrep. lia. }
    { intros k Hk. rewrite (Qeq_eqR _ _ (after_S t0 dt t1 k Hi)). apply Hgo. lia. }
    { rewrite (Qeq_eqR _ _ (after_S t0 dt t1 n Hi)). assumption. }
    exists (mkEntry t0 b :: new), tend. rewrite Hsim, <- app_assoc. simpl.
    split; [reflexivity|]. split; [lia|].
    split; [rewrite Hend; apply after_S; exact Hi|].
    intros [|k] e He.
    + injection He as <-. simpl. split; [symmetry; apply after_0|].
      rewrite Hbs, (integer_multiple_Qeq _ _ _ (after_0 t0 dt)), (Qeq_nonneg _ _ (after_0 t0 dt)). reflexivity.
    + simpl in He. destruct (Hent k e He) as (A & B). split.
      * rewrite A. apply after_S; exact Hi.
      * rewrite B, (integer_multiple_Qeq _ _ _ (after_S t0 dt t1 k Hi)), (Qeq_nonneg _ _ (after_S t0 dt t1 k Hi)).
        reflexivity.
Qed.

Lemma simulate_zero_step n : forall log t0 dt ds finish,
  wf_time t0 -> wf_time dt -> value dt = 0 -> timescale dt = timescale t0 ->
  wf_time ds -> value ds = 0 ->
  goes_on t0 dt finish = true ->
  exists log', simulate n log t0 dt ds finish = OutOfFuel log'.
Proof.
  induction n as [|n IH]; intros log t0 dt ds finish W0 Wd E Ets Ws Es G; simpl; rewrite G.
  - eexists; reflexivity.
  - unfold save_now. rewrite divisible_zero by assumption.
    assert (A : add t0 dt = Some t0).
    { rewrite add_value with (l := timescale t0); try assumption.
      - rewrite E, Ets. rewrite Z.div_same by (destruct W0; lia).
        rewrite Z.mul_1_r, Z.mul_0_l, Z.add_0_r. rewrite i32_id by (destruct W0; assumption).
        destruct t0; reflexivity.
      - rewrite Ets. apply lcm_same. }
    rewrite A. apply IH; assumption.
Qed.

(** * Assigning numbers *)

Definition pow10 (ts : Z) : Prop := exists k, 0 <= k <= 9 /\ ts = 10 ^ k.

Lemma grow_pow10 fuel : forall x ts r,
  pow10 ts -> grow fuel x ts = Some r -> pow10 r.
Proof.
  induction fuel as [|f IH]; intros x ts r Hp H; simpl in H;
    destruct (cast x ts) as [v|]; try discriminate.
  - destruct (_ && _); [discriminate|]. injection H as <-. assumption.
  - destruct (negb _ && (ts <? 429496729)) eqn:C.
    + apply IH in H; [assumption|].
      apply andb_true_iff in C as (_ & C). apply Z.ltb_lt in C.
      destruct Hp as (k & Hk & ->).
      assert (k <= 8). { destruct (Z.eq_dec k 9) as [->|]; [exfalso; revert C; vm_compute; discriminate|lia]. }
      exists (k + 1). split; [lia|].
      rewrite Z.pow_add_r by lia. change (10 ^ 1) with 10. apply u32_id.
      unfold is_u32. split; [apply Z.mul_nonneg_nonneg; [apply Z.pow_nonneg|]; lia|].
      lia.
    + injection H as <-. assumption.
Qed.

Lemma shrink_pow10 fuel : forall x ts r,
  pow10 ts -> shrink fuel x ts = Some r -> pow10 r.
Proof.
  induction fuel as [|f IH]; intros x ts r Hp H; simpl in H;
    destruct (cast x ts) as [v|]; try discriminate.
  - destruct (_ && _); [discriminate|]. injection H as <-. assumption.
  - destruct (_ && (1 <? ts)) eqn:C.
    + apply IH in H; [assumption|].
      apply andb_true_iff in C as (_ & C). apply Z.ltb_lt in C.
      destruct Hp as (k & Hk & ->).
      assert (0 < k). { destruct (Z.eq_dec k 0) as [->|]; [exfalso; revert C; vm_compute; discriminate|lia]. }
      exists (k - 1). split; [lia|].
      replace k with ((k - 1) + 1) at 1 by lia. rewrite Z.pow_add_r by lia.
      change (10 ^ 1) with 10. apply Z.div_mul. lia.
    + injection H as <-. assumption.
Qed.

Lemma pow10_1 : pow10 1.
Proof. exists 0. split; [lia|reflexivity]. Qed.

Lemma pow10_range ts : pow10 ts -> 1 <= ts <= 10^9.
Proof.
  intros (k & Hk & ->). split.
  - change 1 with (10 ^ 0). apply Z.pow_le_mono_r; lia.
  - apply Z.pow_le_mono_r; lia.
Qed.

Lemma f64_to_i32_inv x z : f64_to_i32 x = Some z ->
  is_finite x = true /\ z = Ztrunc (B2R x) /\ -2^31 <= z < 2^31.
Proof.
  unfold f64_to_i32. destruct (is_finite x); [|discriminate].
  destruct (_ && _) eqn:C; [|discriminate]. intros H; injection H as <-.
  apply andb_true_iff in C as (C1 & C2). apply Z.leb_le in C1. apply Z.ltb_lt in C2.
  rewrite <- f64_trunc_R. repeat split; assumption.
Qed.

Lemma make_decimal_wf x t : make_decimal x = Some t ->
  wf_time t /\ pow10 (timescale t) /\ cast x (timescale t) = Some (value t).
Proof.
  unfold make_decimal. destruct (grow 10 x 1) as [ts|] eqn:G; [|discriminate].
  destruct (shrink 10 x ts) as [ts'|] eqn:Sh; [|discriminate].
  destruct (cast x ts') as [v|] eqn:C; [|discriminate].
  intros H; injection H as <-. cbn [value timescale].
  assert (P : pow10 ts').
  { eapply shrink_pow10; [|exact Sh]. eapply grow_pow10; [|exact G]. apply pow10_1. }
  split; [|split; assumption].
  unfold wf_time; cbn [value timescale]. apply f64_to_i32_inv in C as (_ & _ & Hr).
  apply pow10_range in P. unfold is_i32. lia.
Qed.

(** The stored value is the given number truncated to a multiple of 1/timescale
    (plus one rounding of the product). *)
Lemma Rabs_trunc x : (Rabs (IZR (Ztrunc x) - x) < 1)%R.
Proof.
  destruct (Rle_or_lt 0 x) as [H|H].
  - rewrite Ztrunc_floor by assumption. pose proof (Zfloor_lb x). pose proof (Zfloor_ub x).
    apply Rabs_def1; lra.
  - rewrite Ztrunc_ceil by lra. pose proof (Zceil_ub x). pose proof (Zceil_lb x).
    apply Rabs_def1; lra.
Qed.

Lemma f64_mul_finite_R (x y : f64) : is_finite (@nmul F64 x y) = true ->
  B2R (@nmul F64 x y) = rnd (B2R x * B2R y).
Proof.
  simpl. intros F.
  pose proof (Bmult_correct 53 1024 Hprec64 Hmax64 mode_NE x y) as K.
  change (round_mode mode_NE) with ZnearestE in K.
  fold (rnd (B2R x * B2R y)) in K.
  destruct (Rlt_bool _ _).
  - apply K.
  - rewrite <- is_finite_SF_B2SF in F. rewrite K in F. discriminate.
Qed.

Lemma rnd_small x : (Rabs x < bpow radix2 (-1022))%R -> (Rabs (rnd x) <= bpow radix2 (-1022))%R.
Proof.
  intros H. rewrite rnd_flt. apply abs_round_le_generic; auto with typeclass_instances.
  - apply generic_format_bpow. unfold FLT_exp; lia.
  - lra.
Qed.

Lemma make_decimal_near x t : make_decimal x = Some t ->
  (Rabs (Q2R (instant t) - B2R x) < (1 + / 2 ^ 20) / IZR (timescale t))%R.
Proof.
  intros H. destruct (make_decimal_wf x t H) as ((Hv & Hts) & Hp & Hc).
  rewrite instant_R by lia.
  unfold cast in Hc. apply f64_to_i32_inv in Hc as (Hf & Ez & Hr).
  pose proof (f64_mul_finite_R _ _ Hf) as Em.
  apply pow10_range in Hp.
  destruct (f64_ofZ_R (timescale t)) as (Ets & _); [lia|].
  rewrite Ets in Em.
  assert (Tpos : (0 < IZR (timescale t))%R) by (apply IZR_lt; lia).
  pose proof (Rabs_trunc (B2R (@nmul F64 x (f64_ofZ (timescale t))))) as Ht.
  change (T F64) with f64 in *.
  rewrite <- Ez in Ht.
  assert (Hb : (Rabs (IZR (value t)) <= IZR (2^31))%R)
    by (rewrite <- abs_IZR; apply IZR_le; unfold is_i32 in Hv; lia).
  assert (D : (Rabs (rnd (B2R x * IZR (timescale t)) - B2R x * IZR (timescale t)) < / 2 ^ 20)%R).
  { set (p := (B2R x * IZR (timescale t))%R) in *.
    destruct (Rle_or_lt (bpow radix2 (-1022)) (Rabs p)) as [Hbig|Hsm].
    - pose proof (rnd_rel p Hbig) as Hrel.
      rewrite Em in Ht.
      assert (Hrp : (Rabs (rnd p) <= IZR (2^31) + 1)%R).
      { replace (rnd p) with (IZR (value t) - (IZR (value t) - rnd p))%R by ring.
        eapply Rle_trans; [apply Rabs_triang|]. rewrite Rabs_Ropp. lra. }
      assert (Hpp : (Rabs p <= IZR (2^32))%R).
      { assert (Rabs p <= Rabs (rnd p) + Rabs (rnd p - p))%R.
        { replace p with (rnd p - (rnd p - p))%R at 1 by ring.
          eapply Rle_trans; [apply Rabs_triang|]. rewrite Rabs_Ropp. lra. }
        change (IZR (2^32)) with 4294967296%R; change (IZR (2^31)) with 2147483648%R in *.
        assert (/ 2 ^ 53 * Rabs p <= / 2 * Rabs p)%R.
        { apply Rmult_le_compat_r; [apply Rabs_pos|]. simpl. lra. }
        lra. }
      eapply Rle_lt_trans; [exact Hrel|].
      apply Rle_lt_trans with (/ 2^53 * IZR (2^32))%R.
      + apply Rmult_le_compat_l; [simpl; lra|assumption].
      + simpl; lra.
    - pose proof (rnd_small p Hsm).
      assert (bpow radix2 (-1022) <= bpow radix2 (-30))%R by (apply bpow_le; lia).
      change (bpow radix2 (-30)) with (/ 1073741824)%R in H1.
      eapply Rle_lt_trans; [apply Rabs_triang|]. rewrite Rabs_Ropp. simpl. lra. }
  rewrite Em in Ht.
  replace (IZR (value t) / IZR (timescale t) - B2R x)%R
    with ((IZR (value t) - B2R x * IZR (timescale t)) * / IZR (timescale t))%R by (field; lra).
  rewrite Rabs_mult, (Rabs_right (/ IZR (timescale t))) by (left; apply Rinv_0_lt_compat; assumption).
  unfold Rdiv. apply Rmult_lt_compat_r; [apply Rinv_0_lt_compat; assumption|].
  replace (IZR (value t) - B2R x * IZR (timescale t))%R
    with ((IZR (value t) - rnd (B2R x * IZR (timescale t))) + (rnd (B2R x * IZR (timescale t)) - B2R x * IZR (timescale t)))%R by ring.
  eapply Rle_lt_trans; [apply Rabs_triang|]. lra.
Qed.

(** * File numbers *)

Lemma generic_quarter n : (0 <= n < 2^33)%Z ->
  generic_format radix2 (FLT_exp (-1074) 53) (IZR n / 4).
Proof.
  intros H. apply generic_format_FLT. exists (Float radix2 n (-2)).
  - unfold F2R; simpl. lra.
  - simpl. change (Z.pow_pos 2 53) with (2^53)%Z. lia.
  - simpl; lia.
Qed.

Lemma rnd_between n x : (0 <= n < 2^31)%Z ->
  (IZR n + / 4 <= x <= IZR n + 3 / 4)%R -> (IZR n + / 4 <= rnd x <= IZR n + 3 / 4)%R.
Proof.
  intros Hn (H1 & H2).
  assert (G1 : rnd (IZR n + / 4) = (IZR n + / 4)%R).
  { rewrite rnd_flt. apply round_generic; auto with typeclass_instances.
    replace (IZR n + / 4)%R with (IZR (4 * n + 1) / 4)%R
      by (rewrite plus_IZR, mult_IZR; field).
    apply generic_quarter. lia. }
  assert (G2 : rnd (IZR n + 3 / 4) = (IZR n + 3 / 4)%R).
  { rewrite rnd_flt. apply round_generic; auto with typeclass_instances.
    replace (IZR n + 3 / 4)%R with (IZR (4 * n + 3) / 4)%R
      by (rewrite plus_IZR, mult_IZR; field).
    apply generic_quarter. lia. }
  split; [rewrite <- G1|rewrite <- G2]; apply rnd_le; assumption.
Qed.

Lemma file_number_exact time dt n :
  wf_time time -> wf_time dt -> value dt <> 0 -> 0 <= n < 2^31 ->
  (instant time == inject_Z n * instant dt)%Q ->
  file_number time dt = Some n.
Proof.
  intros Wt Wd Hd Hn E. unfold file_number.
  destruct (to_double_R _ Wt) as (Et & Ft). destruct (to_double_R _ Wd) as (Ed & Fd).
  assert (ER : Q2R (instant time) = (IZR n * Q2R (instant dt))%R).
  { rewrite (Qeq_eqR _ _ E), Q2R_mult. f_equal. unfold Q2R, inject_Z; simpl. lra. }
  set (d := Q2R (instant dt)) in *. set (t := Q2R (instant time)) in *.
  assert (Hn0 : (0 <= IZR n <= IZR (2^31))%R) by (split; apply IZR_le; lia).
  change (IZR (2^31)) with 2147483648%R in Hn0.
  assert (Dnz : d <> 0%R).
  { unfold d. rewrite instant_R by (destruct Wd; lia). unfold Rdiv.
    apply Rmult_integral_contrapositive_currified; [apply IZR_neq; assumption|].
    apply Rinv_neq_0_compat, IZR_neq. destruct Wd; lia. }
  destruct (instant_big _ Wd) as [Bd|]; [|contradiction]. fold d in Bd.
  pose proof (rnd_rel d Bd) as Rd.
  assert (U : (/ 2 ^ 53 = / 9007199254740992)%R) by (simpl; lra). rewrite U in Rd.
  assert (Rt : (Rabs (rnd t - t) <= / 9007199254740992 * Rabs t)%R).
  { destruct (instant_big _ Wt) as [Bt|Bt]; fold t in Bt.
    - rewrite <- U. apply rnd_rel. assumption.
    - rewrite Bt, rnd_0, Rminus_0_r, Rabs_R0. lra. }
  assert (Pd : (0 < Rabs d)%R) by (apply Rabs_pos_lt; assumption).
  assert (Ylo : (Rabs d / 2 <= Rabs (rnd d))%R).
  { assert (Rabs d <= Rabs (rnd d) + Rabs (rnd d - d))%R.
    { replace d with (rnd d - (rnd d - d))%R at 1 by ring.
      eapply Rle_trans; [apply Rabs_triang|]. rewrite Rabs_Ropp. lra. }
    lra. }
  assert (Ynz : rnd d <> 0%R). { intros Z0. rewrite Z0, Rabs_R0 in Ylo. lra. }
  assert (Q1 : (Rabs (rnd t / rnd d - IZR n) <= 4 * / 9007199254740992 * IZR n)%R).
  { replace (rnd t / rnd d - IZR n)%R with (((rnd t - t) - IZR n * (rnd d - d)) * / rnd d)%R
      by (rewrite ER; field; assumption).
    rewrite Rabs_mult, Rabs_inv.
    assert (N : (Rabs (rnd t - t - IZR n * (rnd d - d)) <= 2 * / 9007199254740992 * IZR n * Rabs d)%R).
    { eapply Rle_trans; [apply Rabs_triang|]. rewrite Rabs_Ropp, Rabs_mult.
      rewrite (Rabs_right (IZR n)) by lra.
      rewrite ER in Rt at 3. rewrite Rabs_mult, (Rabs_right (IZR n)) in Rt by lra.
      assert (IZR n * Rabs (rnd d - d) <= IZR n * (/ 9007199254740992 * Rabs d))%R
        by (apply Rmult_le_compat_l; lra).
      lra. }
    apply Rle_trans with ((2 * / 9007199254740992 * IZR n * Rabs d) * (2 * / Rabs d))%R.
    - apply Rmult_le_compat; try apply Rabs_pos; try assumption.
      + left. apply Rinv_0_lt_compat. lra.
      + replace (2 * / Rabs d)%R with (/ (Rabs d / 2))%R by (field; lra).
        apply Rinv_le; lra.
    - right. field. lra. }
  assert (Q2 : (Rabs (rnd t / rnd d) <= 4294967296)%R).
  { replace (rnd t / rnd d)%R with ((rnd t / rnd d - IZR n) + IZR n)%R by ring.
    eapply Rle_trans; [apply Rabs_triang|]. rewrite (Rabs_right (IZR n)) by lra. lra. }
  destruct (f64_div_R (to_double time) (to_double dt) 32) as (Eq & Fq); try assumption; try lia.
  { rewrite Ed. assumption. }
  { rewrite Et, Ed. fold t d. change (bpow radix2 32) with 4294967296%R. assumption. }
  rewrite Et, Ed in Eq. fold t d in Eq.
  set (q := (rnd t / rnd d)%R) in *.
  assert (Q3 : (Rabs (rnd q - IZR n) <= / 8)%R).
  { assert (Rabs (rnd q - q) <= / 16)%R.
    { destruct (Rle_or_lt (bpow radix2 (-1022)) (Rabs q)) as [Hbig|Hsm].
      - pose proof (rnd_rel q Hbig) as K. rewrite U in K. lra.
      - pose proof (rnd_small q Hsm).
        assert (bpow radix2 (-1022) <= bpow radix2 (-10))%R as B10 by (apply bpow_le; lia).
        change (bpow radix2 (-10)) with (/ 1024)%R in B10.
        eapply Rle_trans; [apply Rabs_triang|]. rewrite Rabs_Ropp. lra. }
    replace (rnd q - IZR n)%R with ((rnd q - q) + (q - IZR n))%R by ring.
    eapply Rle_trans; [apply Rabs_triang|]. lra. }
  apply Rabs_le_inv in Q3.
  assert (H5 : B2R (f64_dec 5 1) = (1/2)%R /\ is_finite (f64_dec 5 1) = true).
  { split; [|reflexivity].
    replace (f64_dec 5 1) with (@B754_finite 53 1024 false (2^52)%positive (-53) eq_refl)
      by (apply B2SF_inj; vm_compute; reflexivity).
    unfold B2R, F2R. cbn [cond_Zopp Fnum Fexp]. change (bpow radix2 (-53)) with (/ 9007199254740992)%R. change (Z.pos (2^52)) with 4503599627370496%Z. lra. }
  destruct H5 as (E5 & F5).
  destruct (f64_add_R (@ndiv F64 (to_double time) (to_double dt)) (f64_dec 5 1) 33) as (Ea & Fa);
    try assumption; try lia.
  { rewrite Eq, E5. change (bpow radix2 33) with 8589934592%R. apply Rabs_le. lra. }
  apply f64_to_i32_R; [assumption| |lia].
  rewrite Ea, Eq, E5.
  assert (Hb : (IZR n + / 4 <= rnd (rnd q + 1 / 2) <= IZR n + 3 / 4)%R).
  { apply rnd_between; [assumption|]. lra. }
  rewrite Ztrunc_floor by lra. apply Zfloor_imp. rewrite plus_IZR. lra.
Qed.

(** * Numbers that are integers *)

Lemma Rdiv_one x : (x / 1 = x)%R.
Proof. field. Qed.

Lemma cast_int n : -2^31 <= n < 2^31 -> cast (f64_ofZ n) 1 = Some n.
Proof.
  intros Hn. unfold cast.
  destruct (f64_ofZ_R n) as (E & F); [lia|]. destruct (f64_ofZ_R 1) as (E1 & F1); [lia|].
  destruct (f64_mul_R (f64_ofZ n) (f64_ofZ 1) 31) as (Em & Fm); try assumption; try lia.
  { rewrite E, E1, Rmult_1_r, <- abs_IZR. rewrite bpow_pos_Z by lia. apply IZR_le. lia. }
  apply f64_to_i32_R; [assumption| |assumption].
  rewrite Em, E, E1, Rmult_1_r, rnd_Z by lia. apply Ztrunc_IZR.
Qed.

Lemma make_decimal_int n : -2^31 <= n < 2^31 -> make_decimal (f64_ofZ n) = Some (mkTime n 1).
Proof.
  intros Hn. unfold make_decimal.
  assert (G : grow 10 (f64_ofZ n) 1 = Some 1).
  { cbn [grow]. rewrite cast_int by assumption.
    replace (@neqb F64 (@ndiv F64 (f64_ofZ n) (f64_ofZ 1)) (f64_ofZ n)) with true; [reflexivity|].
    symmetry. destruct (f64_ofZ_R n) as (E & F); [lia|]. destruct (f64_ofZ_R 1) as (E1 & F1); [lia|].
    destruct (f64_div_R (f64_ofZ n) (f64_ofZ 1) 31) as (Ed & Fd); try assumption; try lia.
    { rewrite E1; lra. }
    { rewrite E, E1, Rdiv_one, <- abs_IZR. rewrite bpow_pos_Z by lia. apply IZR_le. lia. }
    apply f64_eqb_true; try assumption.
    rewrite Ed, E, E1, Rdiv_one. apply rnd_Z. lia. }
  rewrite G. cbn [shrink]. rewrite cast_int by assumption.
  rewrite andb_false_r, cast_int by assumption. reflexivity.
Qed.

(** * Sequences of assignments *)

Lemma set_keeps_wf v t :
  match v with
  | LTable _ _ (Some b) => b < 2^32
  | LString s => is_i32 (scan_value s) /\ is_u32 (scan_timescale s)
  | _ => True
  end ->
  set_ttime v = Stored t -> wf_time t.
Proof.
  destruct v as [x|len e1 e2|s|]; cbn [set_ttime]; intros Hv H; try discriminate.
  - destruct (make_decimal x) eqn:E; [|discriminate]. injection H as <-.
    apply (make_decimal_wf x). assumption.
  - destruct (negb _); [discriminate|]. destruct e1 as [a|]; [|discriminate].
    destruct e2 as [b|]; [|discriminate]. destruct (Z.ltb_spec b 1); [discriminate|].
    injection H as <-. unfold wf_time; cbn [value timescale]. split; [apply i32_range|].
    rewrite u32_id by (unfold is_u32; lia). lia.
  - destruct (_ || _); [discriminate|]. destruct (Z.ltb_spec (scan_timescale s) 1); [discriminate|].
    injection H as <-. destruct Hv as (H1 & H2). unfold is_u32 in H2.
    unfold wf_time; cbn [value timescale]. split; [assumption|lia].
Qed.

Lemma assigns_wf vs : forall t t',
  wf_time t ->
  (forall v, In v vs -> match v with
     | LTable _ _ (Some b) => b < 2^32
     | LString s => is_i32 (scan_value s) /\ is_u32 (scan_timescale s)
     | _ => True
     end) ->
  assigns t vs = Some t' -> wf_time t'.
Proof.
  induction vs as [|v vs IH]; intros t t' W Hv H; cbn [assigns] in H.
  - injection H as <-. assumption.
  - unfold assign in H. destruct (set_ttime v) as [t1| |] eqn:E.
    + apply (IH t1); try assumption.
      * eapply set_keeps_wf; [|exact E]. apply Hv. left; reflexivity.
      * intros w Hw. apply Hv. right; assumption.
    + apply (IH t); try assumption. intros w Hw. apply Hv. right; assumption.
    + discriminate.
Qed.
