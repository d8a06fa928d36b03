(** C134: the isobars of vvplot. *)

From Coq Require Import ZArith Bool List Lia Reals Lra.
From Flocq Require Import Core.Core IEEE754.BinarySingleNaN.
From Verif.Base Require Import Num F64.
From Verif.Isoline Require Import Model ModelSteps ProofsLevels ProofsSteps.
Import ListNotations.
Local Open Scope R_scope.

(** A range that is wide for its numbers gets its isobars in 33 equal steps;
    rounding decides whether the last one is drawn.  Missing: ranges that are
    narrow for their numbers, and numbers beyond 2^1021. *)
Theorem C134_levels_partial (pmin pmax : f64) : takes_range pmin pmax = true ->
  bpow radix2 (-950) <= B2R pmax - B2R pmin ->
  Rabs (B2R pmin) <= bpow radix2 40 * (B2R pmax - B2R pmin) ->
  Rabs (B2R pmax) <= bpow radix2 40 * (B2R pmax - B2R pmin) ->
  Rabs (B2R pmin) <= bpow radix2 1021 -> Rabs (B2R pmax) <= bpow radix2 1021 ->
  exists l, isobars 34 pmin pmax = Drawn l /\ (33 <= List.length l <= 34)%nat /\
    forall i v, nth_error l i = Some v -> is_finite v = true /\ B2R pmin <= B2R v <= B2R pmax /\
      Rabs (B2R v - (B2R pmin + INR i * ((B2R pmax - B2R pmin) / 33))) <= (B2R pmax - B2R pmin) / 80.
Proof.
  intros T G Ga Gb Sa Sb. unfold takes_range in T. apply andb_prop in T. destruct T as (T & Le). apply andb_prop in T.
  destruct T as (Fa & Fb). pose proof (bpow_gt_0 radix2 (-950)).
  assert (W : wide pmin pmax) by (repeat split; assumption).
  destruct (step_size _ _ W) as (Fd & Sd). apply Rabs_le_inv in Sd.
  destruct (all_levels _ _ W 34 0 pmin) as (l & L & Ln & Ls); [reflexivity|exact Fa| |].
  { simpl INR. replace (B2R pmin - (B2R pmin + 0 * ((B2R pmax - B2R pmin) / 33))) with 0 by ring. rewrite Rabs_R0. lra. }
  exists l. split; [|split; [lia|]].
  - unfold isobars. cbv zeta. unfold accepts. rewrite Fb, Le. destruct (f64_ofZ_R 0) as (E0 & F0); [lia|].
    match goal with |- context [@nltb F64 ?z ?d] => replace (@nltb F64 z d) with true end.
    + cbn [andb]. rewrite L. reflexivity.
    + symmetry. apply f64_ltb_true; try assumption. rewrite E0. lra.
  - intros i v Hi. destruct (Ls i v Hi) as (Fi & Bi & Ni). split; [exact Fi|]. split; [exact Bi|].
    cbn [plus] in Ni. eapply Rle_trans; [exact Ni|].
    assert (i < List.length l)%nat by (apply nth_error_Some; congruence).
    assert (INR i <= 33) by (replace 33 with (INR 33) by (simpl; lra); apply le_INR; lia).
    assert (INR i * ((B2R pmax - B2R pmin) / 3000) <= 33 * ((B2R pmax - B2R pmin) / 3000)) by (apply Rmult_le_compat_r; lra). lra.
Qed.

(** The option takes a range of one number, and vvplot then ends without a picture. *)
Theorem C134_point_refuted n (p : f64) : is_finite p = true -> takes_range p p = true /\ isobars n p p = Aborts.
Proof.
  intros F. split.
  - unfold takes_range. rewrite F. cbn [andb]. apply f64_leb_true; try assumption. lra.
  - unfold isobars. cbv zeta. unfold accepts.
    assert (Z0 : rnd 0 = 0) by (apply (rnd_Z 0); lia). pose proof (bpow_gt_0 radix2 0).
    destruct (f64_sub_R p p 0 F F) as (E1 & F1); [replace (B2R p - B2R p) with 0 by ring; rewrite Rabs_R0; lra|lia|].
    replace (B2R p - B2R p) with 0 in E1 by ring. rewrite Z0 in E1.
    destruct (f64_ofZ_R 33) as (E33 & F33); [lia|]. destruct (f64_ofZ_R 0) as (E0 & F0); [lia|].
    destruct (f64_div_R (@nsub F64 p p) (f64_ofZ 33) 0 F1) as (E2 & F2);
      [rewrite E33; lra|rewrite E1; unfold Rdiv; rewrite Rmult_0_l, Rabs_R0; lra|lia|].
    rewrite E1 in E2. unfold Rdiv in E2. rewrite Rmult_0_l, Z0 in E2.
    match goal with |- context [@nltb F64 ?z ?d] => destruct (@nltb F64 z d) eqn:C end.
    + apply f64_ltb_true in C; try assumption. rewrite E0 in C. rewrite E2 in C. lra.
    + rewrite andb_false_r. reflexivity.
Qed.

(** With two neighbouring numbers it draws the same isobar for ever: -P 1,1.0000000000000002. *)
Definition above_one : f64 := @nadd F64 (f64_ofZ 1) (@ndiv F64 (f64_ofZ 1) (f64_ofZ (2 ^ 52))).
Theorem C134_narrow_refuted : takes_range (f64_ofZ 1) above_one = true /\ B2R (f64_ofZ 1) < B2R above_one /\
  forall n, isobars n (f64_ofZ 1) above_one = Running.
Proof.
  split; [reflexivity|]. split.
  - apply f64_ltb_true; reflexivity.
  - intros n. unfold isobars. cbv zeta. set (dv := @ndiv F64 (@nsub F64 above_one (f64_ofZ 1)) (f64_ofZ 33)).
    replace (accepts (f64_ofZ 1) above_one dv) with true by (symmetry; vm_compute; reflexivity).
    assert (E : @nadd F64 (f64_ofZ 1) dv = f64_ofZ 1) by (apply B2SF_inj; vm_compute; reflexivity).
    assert (L : @nleb F64 (f64_ofZ 1) above_one = true) by reflexivity.
    replace (levels n (f64_ofZ 1) above_one dv) with (@None (list f64)); [reflexivity|].
    induction n as [|n IH]; cbn [levels]; rewrite L; [reflexivity|]. rewrite E, <- IH. reflexivity.
Qed.

(** With numbers far apart it draws one isobar only. *)
Definition far : f64 := @nmul F64 (f64_ofZ (2 ^ 1000)) (f64_ofZ (2 ^ 23)).
Theorem C134_far_refuted : takes_range (@nopp F64 far) far = true /\ forall n, isobars (S n) (@nopp F64 far) far = Drawn [@nopp F64 far].
Proof.
  split; [vm_compute; reflexivity|]. intros n. unfold isobars. cbv zeta.
  set (dv := @ndiv F64 (@nsub F64 far (@nopp F64 far)) (f64_ofZ 33)).
  assert (D : dv = B754_infinity false) by (apply B2SF_inj; vm_compute; reflexivity). rewrite D.
  replace (accepts (@nopp F64 far) far (B754_infinity false)) with true by (symmetry; vm_compute; reflexivity).
  cbn [levels]. replace (@nleb F64 (@nopp F64 far) far) with true by (symmetry; vm_compute; reflexivity).
  replace (@nadd F64 (@nopp F64 far) (B754_infinity false : f64)) with (B754_infinity false : f64) by (apply B2SF_inj; vm_compute; reflexivity).
  destruct n; reflexivity.
Qed.

(** The range used when none is given. *)
Example C134_ex : match isobars 34 (@ndiv F64 (f64_ofZ (-3)) (f64_ofZ 2)) (f64_ofZ 1) with
  | Drawn l => List.length l = 34%nat \/ List.length l = 33%nat
  | _ => False
  end.
Proof. vm_compute. auto. Qed.
Example C134_ex_steps : match isobars 34 (f64_ofZ (-33)) (f64_ofZ 33) with
  | Drawn l => map B2SF l = map (fun k => B2SF (f64_ofZ (2 * Z.of_nat k - 33))) (seq 0 34)
  | _ => False
  end.
Proof. vm_compute. reflexivity. Qed.
Example C134_point_case n : isobars n (f64_ofZ 1) (f64_ofZ 1) = Aborts.
Proof. apply C134_point_refuted. reflexivity. Qed.

Print Assumptions C134_levels_partial.
Print Assumptions C134_point_refuted.
Print Assumptions C134_narrow_refuted.
Print Assumptions C134_far_refuted.
