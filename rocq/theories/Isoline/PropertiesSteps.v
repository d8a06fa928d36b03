(** C132: the streamlines drawn when no step is given. *)

From Coq Require Import ZArith Bool List Lia Reals Lra.
From Flocq Require Import Core.Core IEEE754.BinarySingleNaN.
From Verif.Base Require Import Num F64 F32.
From Verif.Field Require Model Properties.
From Verif.Isoline Require Import Model ModelSteps ProofsLevels ProofsSteps.
Import ListNotations.
Local Open Scope R_scope.

(** Without a step the levels go from the smallest to the largest value in 33
    equal steps; rounding decides whether the last one is drawn.  Missing: maps
    with one value only, or with infinite values or NaN. *)
Theorem C132_levels_partial (values : list f32) (smin smax sstep : f64) x y :
  Forall (fun z => is_finite z = true) values -> @nltb F64 (f64_ofZ 0) sstep = false ->
  In x values -> In y values -> B2R x < B2R y ->
  exists lo hi l, In lo values /\ In hi values /\ (forall z, In z values -> B2R lo <= B2R z <= B2R hi) /\
    streamlines 34 values smin smax sstep = Drawn l /\
    (33 <= List.length l <= 34)%nat /\
    forall i v, nth_error l i = Some v -> is_finite v = true /\ B2R lo <= B2R v <= B2R hi /\
      Rabs (B2R v - (B2R lo + INR i * ((B2R hi - B2R lo) / 33))) <= (B2R hi - B2R lo) / 80.
Proof.
  intros Fv S Hx Hy Hxy.
  destruct (Field.Model.field_min values) as [a|] eqn:Em; [|destruct values; [contradiction|discriminate]].
  destruct (Field.Model.field_max values) as [b|] eqn:EM; [|destruct values; [contradiction|discriminate]].
  destruct (Field.Properties.C50_bounds_partial values a b Fv Em EM) as (Ia & Ib & B).
  pose proof Fv as Fv'. rewrite Forall_forall in Fv'.
  pose proof (Fv' a Ia) as Fa. pose proof (Fv' b Ib) as Fb.
  assert (H : B2R a < B2R b) by (pose proof (B x Hx); pose proof (B y Hy); lra).
  destruct (f32_to_f64_R a Fa) as (Ea & Fa'). destruct (f32_to_f64_R b Fb) as (Eb & Fb').
  pose proof (wide32 a b Fa Fb H) as W.
  destruct (step_size _ _ W) as (Fd & Sd). rewrite Ea, Eb in Sd. apply Rabs_le_inv in Sd.
  destruct (all_levels _ _ W 34 0 (f32_to_f64 a)) as (l & L & Ln & Ls); [reflexivity|exact Fa'| |].
  { rewrite Ea, Eb. simpl INR. replace (B2R a - (B2R a + 0 * ((B2R b - B2R a) / 33))) with 0 by ring. rewrite Rabs_R0. lra. }
  rewrite Ea, Eb in Ls. exists a, b, l. split; [exact Ia|]. split; [exact Ib|]. split; [exact B|].
  split; [|split; [lia|]].
  - unfold streamlines, steps. rewrite S, Em, EM. cbv zeta. unfold accepts. rewrite Fb'.
    replace (@nleb F64 (f32_to_f64 a) (f32_to_f64 b)) with true by (symmetry; apply f64_leb_true; try assumption; lra).
    destruct (f64_ofZ_R 0) as (E0 & F0); [lia|].
    match goal with |- context [@nltb F64 ?z ?d] => replace (@nltb F64 z d) with true end.
    + cbn [andb]. rewrite L. reflexivity.
    + symmetry. apply f64_ltb_true; try assumption. rewrite E0. lra.
  - intros i v Hi. destruct (Ls i v Hi) as (Fi & Bi & Ni). split; [exact Fi|]. split; [exact Bi|].
    cbn [plus] in Ni. eapply Rle_trans; [exact Ni|].
    assert (i < List.length l)%nat by (apply nth_error_Some; congruence).
    assert (INR i <= 33) by (replace 33 with (INR 33) by (simpl; lra); apply le_INR; lia).
    assert (INR i * ((B2R b - B2R a) / 3000) <= 33 * ((B2R b - B2R a) / 3000)) by (apply Rmult_le_compat_r; lra). lra.
Qed.

(** A given step is used whatever the map is. *)
Theorem C132_given n values values' (smin smax sstep : f64) : @nltb F64 (f64_ofZ 0) sstep = true ->
  streamlines n values smin smax sstep = streamlines n values' smin smax sstep.
Proof. intros S. unfold streamlines, steps. rewrite S. reflexivity. Qed.

(** A stream function that is the same everywhere, as in a fluid at rest, ends vvplot. *)
Theorem C132_flat_refuted n x values (smin smax sstep : f64) : @nltb F64 (f64_ofZ 0) sstep = false ->
  Forall (fun z => is_finite z = true /\ B2R z = B2R x) (x :: values) ->
  streamlines n (x :: values) smin smax sstep = Aborts.
Proof.
  intros S F. unfold streamlines, steps. rewrite S.
  assert (Fv : Forall (fun z => is_finite z = true) (x :: values)) by (eapply Forall_impl; [|exact F]; cbn; tauto).
  destruct (Field.Properties.C50_bounds_partial (x :: values) _ _ Fv eq_refl eq_refl) as (Ia & Ib & _).
  change (Field.Model.field_min (x :: values)) with (Some (Field.Model.min_element x values)).
  change (Field.Model.field_max (x :: values)) with (Some (Field.Model.max_element x values)).
  set (a := Field.Model.min_element x values) in *. set (b := Field.Model.max_element x values) in *.
  rewrite Forall_forall in F. destruct (F a Ia) as (Fa & Ra). destruct (F b Ib) as (Fb & Rb).
  destruct (f32_to_f64_R a Fa) as (Ea & Fa'). destruct (f32_to_f64_R b Fb) as (Eb & Fb').
  cbv zeta. unfold accepts.
  assert (Z0 : rnd 0 = 0) by (apply (rnd_Z 0); lia).
  pose proof (bpow_gt_0 radix2 0).
  destruct (f64_sub_R (f32_to_f64 b) (f32_to_f64 a) 0 Fb' Fa') as (E1 & F1);
    [rewrite Ea, Eb, Ra, Rb; replace (B2R x - B2R x) with 0 by ring; rewrite Rabs_R0; lra|lia|].
  rewrite Ea, Eb, Ra, Rb in E1. replace (B2R x - B2R x) with 0 in E1 by ring. rewrite Z0 in E1.
  destruct (f64_ofZ_R 33) as (E33 & F33); [lia|]. destruct (f64_ofZ_R 0) as (E0 & F0); [lia|].
  destruct (f64_div_R (@nsub F64 (f32_to_f64 b) (f32_to_f64 a)) (f64_ofZ 33) 0 F1) as (E2 & F2);
    [rewrite E33; lra|rewrite E1; unfold Rdiv; rewrite Rmult_0_l, Rabs_R0; lra|lia|].
  rewrite E1 in E2. unfold Rdiv in E2. rewrite Rmult_0_l, Z0 in E2.
  match goal with |- context [@nltb F64 ?z ?d] => destruct (@nltb F64 z d) eqn:C end.
  - apply f64_ltb_true in C; try assumption. rewrite E0 in C. rewrite E2 in C. lra.
  - rewrite andb_false_r. reflexivity.
Qed.
Example C132_flat_case : forall n, streamlines n [f32_ofZ 0; f32_ofZ 0; f32_ofZ 0; f32_ofZ 0] B754_nan B754_nan B754_nan = Aborts.
Proof. intros n. apply C132_flat_refuted; [reflexivity|]. repeat constructor. Qed.

(** So does a NaN in the first node, *)
Theorem C132_nan_refuted n values (smin smax sstep : f64) : @nltb F64 (f64_ofZ 0) sstep = false ->
  streamlines n (B754_nan :: values) smin smax sstep = Aborts.
Proof.
  intros S. unfold streamlines, steps. rewrite S.
  assert (A : Field.Model.min_element B754_nan values = B754_nan).
  { unfold Field.Model.min_element. induction values as [|v t IH]; [reflexivity|]. cbn [fold_left]. destruct v; exact IH. }
  assert (B : Field.Model.max_element B754_nan values = B754_nan).
  { clear A. unfold Field.Model.max_element. induction values as [|v t IH]; [reflexivity|]. cbn [fold_left]. destruct v; exact IH. }
  cbn [Field.Model.field_min Field.Model.field_max]. rewrite A, B. reflexivity.
Qed.

(** and an infinite value leaves no line at all. *)
Theorem C132_infinite_refuted : exists values : list f32,
  (forall n, streamlines n (B754_infinity false :: values) B754_nan B754_nan B754_nan = Aborts) /\
  forall n, streamlines (S n) (B754_infinity true :: values) B754_nan B754_nan B754_nan = Drawn [B754_infinity true].
Proof.
  exists [f32_ofZ 0; f32_ofZ 1]. split; [intros n; reflexivity|]. intros n.
  unfold streamlines.
  change (steps (B754_infinity true :: [f32_ofZ 0; f32_ofZ 1]) B754_nan B754_nan B754_nan)
    with (Some (B754_infinity true : f64, f32_to_f64 (f32_ofZ 1), B754_infinity false : f64)).
  destruct n; reflexivity.
Qed.

Example C132_ex : match streamlines 34 [f32_ofZ 0; f32_ofZ 66; f32_ofZ 3] B754_nan B754_nan B754_nan with
  | Drawn l => map B2SF l = map (fun k => B2SF (f64_ofZ (2 * Z.of_nat k))) (seq 0 34)
  | _ => False
  end.
Proof. vm_compute. reflexivity. Qed.
Example C132_ex_given : match streamlines 100 [] (f64_ofZ 0) (f64_ofZ 3) (f64_ofZ 1) with
  | Drawn l => map B2SF l = map (fun k => B2SF (f64_ofZ k)) [0; 1; 2; 3]%Z
  | _ => False
  end.
Proof. vm_compute. reflexivity. Qed.

Print Assumptions C132_levels_partial.
Print Assumptions C132_given.
Print Assumptions C132_flat_refuted.
Print Assumptions C132_nan_refuted.
Print Assumptions C132_infinite_refuted.
