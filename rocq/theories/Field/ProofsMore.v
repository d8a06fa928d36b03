From Coq Require Import ZArith Bool List Lia Arith Reals Lra Permutation.
From Flocq Require Import Core.Core IEEE754.BinarySingleNaN.
From Verif.Base Require Import Num F64 F32 Bytes.
From Verif.Field Require Import Model Spec Proofs.
Import ListNotations.
Local Open Scope Z_scope.

(** * The spacing check accepts grids not too far from the origin *)
Section Spacing.
Local Open Scope R_scope.

Lemma step_near (o d : f32) :
  is_finite o = true -> is_finite d = true ->
  bpow radix2 (-100) <= B2R d <= bpow radix2 100 -> Rabs (B2R o) <= 4096 * B2R d ->
  let s := f32_sub (node o d 1) (node o d 0) in
  is_finite s = true /\ Rabs (B2R s - B2R d) <= 25 / 100000 * B2R d.
Proof.
  intros Fo Fd (D1 & D2) Ho. cbv zeta. set (D := B2R d) in *. set (O := B2R o) in *.
  pose proof (bpow_gt_0 radix2 (-100)) as P100.
  assert (BIG : 8192 * D <= bpow radix2 113).
  { replace 113%Z with (13 + 100)%Z by reflexivity. rewrite bpow_plus. simpl (bpow radix2 13). lra. }
  assert (TINY : bpow radix2 (-150) <= / 2 ^ 40 * D).
  { replace (-150)%Z with (-50 + -100)%Z by reflexivity. rewrite bpow_plus.
    apply Rmult_le_compat; try lra; try apply bpow_ge_0.
    apply Rle_trans with (bpow radix2 (-40)); [apply bpow_le; lia|simpl; lra]. }
  destruct (f32_ofZ_R 0) as (E0 & F0); [lia|]. destruct (f32_ofZ_R 1) as (E1 & F1); [lia|].
  (* the two products *)
  destruct (f32_mul_R d (f32_ofZ 0) 100 Fd F0) as (M0 & G0).
  { rewrite E0, Rmult_0_r, Rabs_R0. apply bpow_ge_0. }
  { lia. }
  destruct (f32_mul_R d (f32_ofZ 1) 100 Fd F1) as (M1 & G1).
  { rewrite E1, Rmult_1_r. fold D. rewrite Rabs_pos_eq; lra. }
  { lia. }
  assert (M0' : B2R (f32_mul d (f32_ofZ 0)) = 0) by (rewrite M0, E0, Rmult_0_r; apply (rnd32_Z 0); lia).
  assert (M1' : B2R (f32_mul d (f32_ofZ 1)) = D) by (rewrite M1, E1, Rmult_1_r; apply rnd32_B2R).
  (* the two nodes *)
  apply Rabs_le_inv in Ho.
  destruct (f32_add_R o (f32_mul d (f32_ofZ 0)) 113 Fo G0) as (N0 & H0).
  { rewrite M0', Rplus_0_r. fold O. apply Rabs_le. lra. } { lia. }
  destruct (f32_add_R o (f32_mul d (f32_ofZ 1)) 113 Fo G1) as (N1 & H1).
  { rewrite M1'. fold O. apply Rabs_le. lra. } { lia. }
  rewrite M0', Rplus_0_r, rnd32_B2R in N0. fold O in N0. rewrite M1' in N1. fold O in N1.
  change (f32_add o (f32_mul d (f32_ofZ 0))) with (node o d 0) in *.
  change (f32_add o (f32_mul d (f32_ofZ 1))) with (node o d 1) in *.
  assert (B1 : Rabs (O + D) <= 4097 * D) by (apply Rabs_le; lra).
  pose proof (rnd32_err (O + D)) as R1.
  assert (R1' : Rabs (rnd32 (O + D) - (O + D)) <= / 2 ^ 24 * (4097 * D) + / 2 ^ 40 * D).
  { eapply Rle_trans; [exact R1|]. apply Rplus_le_compat; [|exact TINY].
    apply Rmult_le_compat_l; [left; apply Rinv_0_lt_compat, pow_lt; lra|exact B1]. }
  apply Rabs_le_inv in R1'.
  assert (K24 : / 2 ^ 24 = / 16777216) by (f_equal; ring).
  assert (K40 : / 2 ^ 40 = / 1099511627776) by (f_equal; ring).
  rewrite K24, K40 in *.
  assert (Y : Rabs (rnd32 (O + D) - O - D) <= 2443 / 10000000 * D).
  { apply Rabs_le. lra. }
  apply Rabs_le_inv in Y.
  destruct (f32_sub_R (node o d 1) (node o d 0) 113 H1 H0) as (S & FS).
  { rewrite N1, N0. apply Rabs_le. lra. } { lia. }
  split; [assumption|]. rewrite S, N1, N0.
  pose proof (rnd32_err (rnd32 (O + D) - O)) as R2. rewrite K24 in R2.
  assert (Rabs (rnd32 (O + D) - O) <= 2 * D) by (apply Rabs_le; lra).
  assert (R2' : Rabs (rnd32 (rnd32 (O + D) - O) - (rnd32 (O + D) - O)) <= / 16777216 * (2 * D) + / 1099511627776 * D).
  { eapply Rle_trans; [exact R2|]. apply Rplus_le_compat; [|exact TINY].
    apply Rmult_le_compat_l; lra. }
  apply Rabs_le_inv in R2'. apply Rabs_le. lra.
Qed.

Lemma spacing_near F :
  is_finite (xmin F) = true -> is_finite (ymin F) = true -> is_finite (dxdy F) = true ->
  bpow radix2 (-100) <= B2R (dxdy F) <= bpow radix2 100 ->
  Rabs (B2R (xmin F)) <= 4096 * B2R (dxdy F) -> Rabs (B2R (ymin F)) <= 4096 * B2R (dxdy F) ->
  spacing_ok F = true.
Proof.
  intros Fx Fy Fd HD Hx Hy. unfold spacing_ok.
  destruct (step_near (xmin F) (dxdy F) Fx Fd HD Hx) as (SX & EX).
  destruct (step_near (ymin F) (dxdy F) Fy Fd HD Hy) as (SY & EY).
  set (dx := f32_sub (node (xmin F) (dxdy F) 1) (node (xmin F) (dxdy F) 0)) in *.
  set (dy := f32_sub (node (ymin F) (dxdy F) 1) (node (ymin F) (dxdy F) 0)) in *.
  set (D := B2R (dxdy F)) in *. destruct HD as (D1 & D2).
  pose proof (bpow_gt_0 radix2 (-100)) as P100.
  apply Rabs_le_inv in EX. apply Rabs_le_inv in EY.
  apply negb_true_iff. unfold bad_spacing. apply not_true_iff_false. intros H.
  destruct (f32_to_f64_R dx SX) as (A1 & A2). destruct (f32_to_f64_R dy SY) as (B1 & B2).
  destruct (f32_sub_R dx dy 101 SX SY) as (C1 & C2).
  { assert (bpow radix2 100 <= bpow radix2 101) by (apply bpow_le; lia). apply Rabs_le. lra. } { lia. }
  destruct (f32_to_f64_R (f32_sub dx dy) C2) as (C3 & C4).
  set (m := if Bltb (Babs (f32_to_f64 dy)) (Babs (f32_to_f64 dx)) then Babs (f32_to_f64 dy) else Babs (f32_to_f64 dx)) in H.
  assert (Fm : is_finite m = true /\ 999 / 1000 * D <= B2R m <= 1001 / 1000 * D).
  { assert (B2R (Babs (f32_to_f64 dx)) = B2R dx) by (rewrite B2R_Babs, A1; apply Rabs_pos_eq; lra).
    assert (B2R (Babs (f32_to_f64 dy)) = B2R dy) by (rewrite B2R_Babs, B1; apply Rabs_pos_eq; lra).
    unfold m. destruct (Bltb _ _); (split; [rewrite is_finite_Babs; assumption|lra]). }
  destruct Fm as (Fm & Bm).
  destruct (f64_ofZ_R 1000) as (T1 & T2); [lia|].
  destruct (f64_div_R m (f64_ofZ 1000) 101 Fm) as (Q1 & Q2).
  { rewrite T1. lra. }
  { rewrite T1. assert (bpow radix2 100 <= bpow radix2 101) by (apply bpow_le; lia). apply Rabs_le. lra. }
  { lia. }
  apply (f64_ltb_true (@ndiv F64 m (f64_ofZ 1000)) (Babs (f32_to_f64 (f32_sub dx dy)))) in H;
    [|assumption|rewrite is_finite_Babs; assumption].
  rewrite Q1, T1, B2R_Babs, C3, C1 in H.
  (* left side is about D/1000 *)
  assert (L : 998 / 1000000 * D <= rnd (B2R m / 1000)).
  { assert (BIG : bpow radix2 (-1022) <= Rabs (B2R m / 1000)).
    { rewrite Rabs_pos_eq by lra. apply Rle_trans with (/ 2 * / 2 ^ 10 * bpow radix2 (-100)).
      - replace (/ 2 * / 2 ^ 10) with (bpow radix2 (-11)) by (simpl; lra). rewrite <- bpow_plus. apply bpow_le. lia.
      - replace (/ 2 * / 2 ^ 10) with (/ 2048) by (simpl; lra). lra. }
    pose proof (rnd_rel _ BIG) as RR. apply Rabs_le_inv in RR. rewrite Rabs_pos_eq in RR by lra.
    assert (/ 2 ^ 53 <= / 2 ^ 24) by (apply Rinv_le; [apply pow_lt; lra|apply Rle_pow; [lra|lia]]).
    assert (/ 2 ^ 53 * (B2R m / 1000) <= / 16777216 * (B2R m / 1000)).
    { apply Rmult_le_compat_r; [lra|]. replace (/ 16777216) with (/ 2 ^ 24) by (f_equal; ring). assumption. }
    lra. }
  assert (U : Rabs (rnd32 (B2R dx - B2R dy)) <= 6 / 10000 * D).
  { pose proof (rnd32_err (B2R dx - B2R dy)) as RR.
    assert (Rabs (B2R dx - B2R dy) <= 5 / 10000 * D) by (apply Rabs_le; lra).
    assert (TINY : bpow radix2 (-150) <= / 16777216 * D).
    { replace (-150)%Z with (-50 + -100)%Z by reflexivity. rewrite bpow_plus.
      apply Rmult_le_compat; try lra; try apply bpow_ge_0.
      apply Rle_trans with (bpow radix2 (-24)); [apply bpow_le; lia|simpl; lra]. }
    replace (/ 2 ^ 24) with (/ 16777216) in RR by (f_equal; ring).
    apply Rabs_le_inv in RR. apply Rabs_le_inv in H0. apply Rabs_le.
    assert (Rabs (B2R dx - B2R dy) <= 5 / 10000 * D) by (apply Rabs_le; lra). lra. }
  lra.
Qed.
End Spacing.

(** * Reads outside the string *)

Lemma data_some s k : 0 <= k -> 4 * k + 4 <= Z.of_nat (length s) -> exists w, data s k = Some w.
Proof.
  intros Hk Hl. unfold data. replace (0 <=? k) with true by (symmetry; apply Z.leb_le; lia).
  assert (G : forall i, (i < 4)%nat -> exists b, nth_error s (4 * Z.to_nat k + i) = Some b).
  { intros i Hi. destruct (nth_error s (4 * Z.to_nat k + i)) eqn:E; [eauto|]. apply nth_error_None in E. lia. }
  destruct (G 0%nat) as (b0 & E0); [lia|]. destruct (G 1%nat) as (b1 & E1); [lia|].
  destruct (G 2%nat) as (b2 & E2); [lia|]. destruct (G 3%nat) as (b3 & E3); [lia|].
  rewrite Nat.add_0_r in E0. rewrite E0, E1, E2, E3. eauto.
Qed.

Lemma sequence_exists {A} (l : list (option A)) : Forall (fun o => o <> None) l -> exists r, sequence l = Some r.
Proof.
  induction 1 as [|o l Ho _ (r & IH)]; [exists []; reflexivity|].
  destruct o as [a|]; [|contradiction]. simpl. rewrite IH. eauto.
Qed.

Lemma parse_in_range s :
  (forall w, data s 0 = Some w -> Z.of_nat (length s) >= 4 * 3 * (Btrunc (f32_of_word w) + 1)) ->
  parse s <> OutOfRange.
Proof.
  intros Hrows. unfold parse.
  set (size := Z.of_nat (length s)) in *.
  destruct (negb (size mod 4 =? 0)); [discriminate|].
  destruct (size <? 36) eqn:E36; [discriminate|]. apply Z.ltb_ge in E36.
  destruct (2 ^ 32 <? size); [discriminate|].
  destruct (data_some s 0) as (w & Ew); [lia|fold size; lia|]. rewrite Ew.
  specialize (Hrows w Ew). set (N := f32_of_word w) in *.
  destruct (negb (is_finite N) || Bleb N (f32_ofZ 1) || negb (integral N)) eqn:EN; [discriminate|].
  destruct (2 ^ 31 <=? Btrunc N) eqn:EB; [discriminate|].
  apply orb_false_iff in EN as (EN & EI). apply orb_false_iff in EN as (EF & EL).
  apply negb_false_iff in EF. apply negb_false_iff in EI.
  (* N is an integer above 1 *)
  assert (HN : 1 <= Btrunc N).
  { destruct (f32_ofZ_R 1) as (E1 & F1); [lia|].
    assert (L : ~ (B2R N <= 1)%R).
    { intros K. rewrite <- E1 in K. apply (leb32 N (f32_ofZ 1)) in K; try assumption. congruence. }
    assert (T : Btrunc N = Ztrunc (B2R N)).
    { apply eq_IZR. rewrite Btrunc_correct by reflexivity.
      unfold round, scaled_mantissa, cexp, FIX_exp, F2R. simpl. rewrite !Rmult_1_r. reflexivity. }
    rewrite T. rewrite <- (Ztrunc_IZR 1). apply Ztrunc_le. lra. }
  set (xr := Btrunc N) in *. set (yr := size / 4 / (xr + 1) - 1).
  destruct (negb (size =? 4 * (xr + 1) * (yr + 1))) eqn:ES; [discriminate|].
  apply negb_false_iff, Z.eqb_eq in ES.
  destruct (data_some s 1) as (w1 & E1); [lia|fold size; lia|].
  destruct (data_some s 2) as (w2 & E2); [lia|fold size; lia|].
  destruct (data_some s (2 * (xr + 1))) as (wb & Eb); [lia|fold size; lia|].
  destruct (data_some s (xr + 1)) as (wa & Ea); [lia|fold size; lia|].
  rewrite E1, E2, Eb, Ea.
  destruct (bad_spacing _ _); [discriminate|].
  destruct (sequence_exists (flat_map (fun yj => map (fun xi =>
     data s ((Z.of_nat yj + 1) * (xr + 1) + (Z.of_nat xi + 1))) (zseq xr)) (zseq yr))) as (r & Er).
  - rewrite Forall_forall. intros o Ho. apply in_flat_map in Ho as (j & Hj & Ho).
    apply in_map_iff in Ho as (i & <- & Hi). unfold zseq in *. apply in_seq in Hj. apply in_seq in Hi.
    destruct (data_some s ((Z.of_nat j + 1) * (xr + 1) + (Z.of_nat i + 1))) as (v & Ev); [nia|fold size; nia|].
    rewrite Ev. discriminate.
  - rewrite Er. discriminate.
Qed.

(** * Percentile *)

Lemma filter_length_perm {A} (p : A -> bool) a b : Permutation a b -> length (filter p a) = length (filter p b).
Proof. induction 1; simpl; try congruence; repeat destruct (p _); simpl; congruence. Qed.

(** number of elements before position [i] that satisfy [p], when all positions
    from [i] on do not *)
Lemma filter_prefix {A} (p : A -> bool) (l : list A) i :
  (forall j a, (i <= j)%nat -> nth_error l j = Some a -> p a = false) ->
  (length (filter p l) <= i)%nat.
Proof.
  revert i. induction l as [|x l IH]; intros i H; [simpl; lia|].
  destruct i as [|i].
  - simpl. rewrite (H 0%nat x) by (auto; lia).
    assert (length (filter p l) <= 0)%nat; [|lia].
    apply IH. intros j a Hj Ha. apply (H (S j) a); [lia|assumption].
  - simpl. assert (length (filter p l) <= i)%nat.
    { apply IH. intros j a Hj Ha. apply (H (S j) a); [lia|assumption]. }
    destruct (p x); simpl; lia.
Qed.

Lemma filter_prefix_ge {A} (p : A -> bool) (l : list A) i :
  (i <= length l)%nat ->
  (forall j a, (j < i)%nat -> nth_error l j = Some a -> p a = true) ->
  (i <= length (filter p l))%nat.
Proof.
  revert i. induction l as [|x l IH]; intros i Hi H; simpl in Hi; [simpl; lia|].
  destruct i as [|i]; [lia|]. simpl. rewrite (H 0%nat x) by (auto; lia). simpl.
  apply le_n_S. apply IH; [lia|]. intros j a Hj Ha. apply (H (S j) a); [lia|assumption].
Qed.

Lemma in_finite (v : list f32) : Forall (fun x => is_finite x = true) v -> forall x, In x v -> is_finite x = true.
Proof. rewrite Forall_forall. auto. Qed.

Section P.
Variable ps : (f32 -> f32 -> bool) -> nat -> list f32 -> list f32.
Hypothesis PS : partial_sort_contract ps.

Lemma ltb32_false (x y : f32) : is_finite x = true -> is_finite y = true ->
  Bltb x y = false -> (B2R y <= B2R x)%R.
Proof.
  intros Fx Fy H. destruct (Rlt_le_dec (B2R x) (B2R y)) as [L|L]; [|assumption].
  apply ltb32 in L; congruence.
Qed.

Lemma kth_lt (v : list f32) N x : Forall (fun x => is_finite x = true) v -> (0 < N <= length v)%nat ->
  nth_error (ps lt N v) (N - 1) = Some x -> kth_smallest N v x.
Proof.
  intros Fv HN Hx. pose proof (in_finite v Fv) as FI.
  destruct (PS lt N v) as (Perm & Ord); [lia| |].
  { intros a b c Ha Hb Hc. apply FI in Ha, Hb, Hc. unfold lt. repeat split.
    - apply not_true_iff_false. intros K. apply ltb32 in K; auto. lra.
    - intros K1 K2. apply ltb32 in K1; auto. apply ltb32 in K2; auto. apply ltb32; auto. lra.
    - intros K1 K2. apply ltb32_false in K1; auto. apply ltb32_false in K2; auto.
      apply not_true_iff_false. intros K. apply ltb32 in K; auto. lra. }
  assert (FI' : forall j a, nth_error (ps lt N v) j = Some a -> is_finite a = true).
  { intros j a Ha. apply FI. apply Permutation_in with (ps lt N v); [symmetry; assumption|]. eapply nth_error_In; eassumption. }
  pose proof (FI' _ _ Hx) as Fx.
  pose proof (Permutation_length Perm) as PL.
  split; [|split].
  - apply Permutation_in with (ps lt N v); [symmetry; assumption|]. eapply nth_error_In; eassumption.
  - rewrite (filter_length_perm _ v _ Perm).
    apply Nat.le_lt_trans with (N - 1)%nat; [|lia].
    apply filter_prefix. intros j a Hj Ha. destruct (Nat.eq_dec j (N - 1)) as [->|NE].
    + rewrite Hx in Ha. injection Ha as <-. apply not_true_iff_false. intros K. apply ltb32 in K; auto. lra.
    + apply (Ord (N - 1)%nat j x a); try assumption; lia.
  - rewrite (filter_length_perm _ v _ Perm).
    apply filter_prefix_ge; [lia|]. intros j a Hj Ha.
    destruct (Nat.eq_dec j (N - 1)) as [->|NE].
    + rewrite Hx in Ha. injection Ha as <-. apply leb32; auto. lra.
    + assert (K : lt x a = false) by (apply (Ord j (N - 1)%nat a x); try assumption; lia).
      apply leb32; eauto. apply ltb32_false in K; eauto.
Qed.

Lemma kth_gt (v : list f32) N x : Forall (fun x => is_finite x = true) v -> (0 < N <= length v)%nat ->
  nth_error (ps gt N v) (N - 1) = Some x -> kth_largest N v x.
Proof.
  intros Fv HN Hx. pose proof (in_finite v Fv) as FI.
  destruct (PS gt N v) as (Perm & Ord); [lia| |].
  { intros a b c Ha Hb Hc. apply FI in Ha, Hb, Hc. unfold gt. repeat split.
    - apply not_true_iff_false. intros K. apply ltb32 in K; auto. lra.
    - intros K1 K2. apply ltb32 in K1; auto. apply ltb32 in K2; auto. apply ltb32; auto. lra.
    - intros K1 K2. apply ltb32_false in K1; auto. apply ltb32_false in K2; auto.
      apply not_true_iff_false. intros K. apply ltb32 in K; auto. lra. }
  assert (FI' : forall j a, nth_error (ps gt N v) j = Some a -> is_finite a = true).
  { intros j a Ha. apply FI. apply Permutation_in with (ps gt N v); [symmetry; assumption|]. eapply nth_error_In; eassumption. }
  pose proof (FI' _ _ Hx) as Fx.
  pose proof (Permutation_length Perm) as PL.
  split; [|split].
  - apply Permutation_in with (ps gt N v); [symmetry; assumption|]. eapply nth_error_In; eassumption.
  - rewrite (filter_length_perm _ v _ Perm).
    apply Nat.le_lt_trans with (N - 1)%nat; [|lia].
    apply filter_prefix. intros j a Hj Ha. destruct (Nat.eq_dec j (N - 1)) as [->|NE].
    + rewrite Hx in Ha. injection Ha as <-. apply not_true_iff_false. intros K. apply ltb32 in K; auto. lra.
    + apply (Ord (N - 1)%nat j x a); try assumption; lia.
  - rewrite (filter_length_perm _ v _ Perm).
    apply filter_prefix_ge; [lia|]. intros j a Hj Ha.
    destruct (Nat.eq_dec j (N - 1)) as [->|NE].
    + rewrite Hx in Ha. injection Ha as <-. apply leb32; auto. lra.
    + assert (K : gt x a = false) by (apply (Ord j (N - 1)%nat a x); try assumption; lia).
      unfold gt in K. apply leb32; eauto. apply ltb32_false in K; eauto.
Qed.
End P.

(** * min and max *)

Lemma min_element_spec l : forall b, is_finite b = true -> Forall (fun x => is_finite x = true) l ->
  In (min_element b l) (b :: l) /\ forall x, In x (b :: l) -> Bleb (min_element b l) x = true.
Proof.
  unfold min_element. induction l as [|y l IH]; intros b Fb Fl.
  - simpl. split; [auto|]. intros x [<-|[]]. apply leb32; auto. lra.
  - inversion Fl; subst. cbn [fold_left].
    destruct (Bltb y b) eqn:E.
    + destruct (IH y) as (A & B); try assumption. split; [simpl in *; tauto|].
      intros x [<-|[<-|Hx]]; [|apply B; simpl; auto|apply B; simpl; auto].
      assert (Fm : is_finite (fold_left (fun b x => if Bltb x b then x else b) l y) = true).
      { destruct A as [<-|A]; [assumption|]. rewrite Forall_forall in H2. auto. }
      assert (K : Bleb (fold_left (fun b x => if Bltb x b then x else b) l y) y = true) by (apply B; simpl; auto).
      apply leb32 in K; auto. apply ltb32 in E; auto. apply leb32; auto. lra.
    + destruct (IH b) as (A & B); try assumption. split; [simpl in *; tauto|].
      intros x [<-|[<-|Hx]]; [apply B; simpl; auto| |apply B; simpl; auto].
      assert (Fm : is_finite (fold_left (fun b x => if Bltb x b then x else b) l b) = true).
      { destruct A as [<-|A]; [assumption|]. rewrite Forall_forall in H2. auto. }
      assert (K : Bleb (fold_left (fun b x => if Bltb x b then x else b) l b) b = true) by (apply B; simpl; auto).
      apply leb32 in K; auto. apply ltb32_false in E; auto. apply leb32; auto. lra.
Qed.

Lemma max_element_spec l : forall b, is_finite b = true -> Forall (fun x => is_finite x = true) l ->
  In (max_element b l) (b :: l) /\ forall x, In x (b :: l) -> Bleb x (max_element b l) = true.
Proof.
  unfold max_element. induction l as [|y l IH]; intros b Fb Fl.
  - simpl. split; [auto|]. intros x [<-|[]]. apply leb32; auto. lra.
  - inversion Fl; subst. cbn [fold_left].
    destruct (Bltb b y) eqn:E.
    + destruct (IH y) as (A & B); try assumption. split; [simpl in *; tauto|].
      intros x [<-|[<-|Hx]]; [|apply B; simpl; auto|apply B; simpl; auto].
      assert (Fm : is_finite (fold_left (fun b x => if Bltb b x then x else b) l y) = true).
      { destruct A as [<-|A]; [assumption|]. rewrite Forall_forall in H2. auto. }
      assert (K : Bleb y (fold_left (fun b x => if Bltb b x then x else b) l y) = true) by (apply B; simpl; auto).
      apply leb32 in K; auto. apply ltb32 in E; auto. apply leb32; auto. lra.
    + destruct (IH b) as (A & B); try assumption. split; [simpl in *; tauto|].
      intros x [<-|[<-|Hx]]; [apply B; simpl; auto| |apply B; simpl; auto].
      assert (Fm : is_finite (fold_left (fun b x => if Bltb b x then x else b) l b) = true).
      { destruct A as [<-|A]; [assumption|]. rewrite Forall_forall in H2. auto. }
      assert (K : Bleb b (fold_left (fun b x => if Bltb b x then x else b) l b) = true) by (apply B; simpl; auto).
      apply leb32 in K; auto. apply ltb32_false in E; auto. apply leb32; auto. lra.
Qed.
