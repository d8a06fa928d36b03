(** C136: outlines and vortices in the pictures of vvplot. *)

From Coq Require Import ZArith Bool List Lia Reals Lra.
From Flocq Require Import Core.Core IEEE754.BinarySingleNaN.
From Verif.Base Require Import Num F64 F32.
From Verif.Plot Require Import ModelData.
Import ListNotations.
Local Open Scope R_scope.

(** A double a float can hold. *)
Definition fits (x : f64) : Prop := is_finite x = true /\ Rabs (B2R x) <= bpow radix2 127.
Definition close (y : f32) (x : f64) : Prop :=
  is_finite y = true /\ Rabs (B2R y - B2R x) <= / 2 ^ 24 * Rabs (B2R x) + bpow radix2 (-150).

Lemma narrow (x : f64) : fits x -> B2R (f64_to_f32 x) = rnd32 (B2R x) /\ is_finite (f64_to_f32 x) = true.
Proof.
  intros (F & L). destruct x as [s|s| |s m e Hm]; try discriminate.
  - cbn. unfold rnd32. rewrite round_0; auto with typeclass_instances.
  - cbn [f64_to_f32].
    pose proof (binary_normalize_correct 24 128 Hprec32 Hmax32 mode_NE (cond_Zopp s (Z.pos m)) e s) as K.
    cbv zeta in K. change (F2R (Float radix2 (cond_Zopp s (Z.pos m)) e)) with (B2R (B754_finite s m e Hm)) in K.
    fold (rnd32 (B2R (B754_finite s m e Hm))) in K.
    rewrite Rlt_bool_true in K by (apply (rnd32_bound _ 127); [exact L|lia]).
    destruct K as (K1 & K2 & _). split; assumption.
Qed.
Lemma narrow_close (x : f64) : fits x -> close (f64_to_f32 x) x.
Proof. intros H. destruct (narrow x H) as (E & F). split; [exact F|]. rewrite E. apply rnd32_err. Qed.

(** The outline goes through all corners in order and back to the first one. *)
Theorem C136_outline_partial corners : corners <> [] -> Forall (fun p => fits (fst p) /\ fits (snd p)) corners ->
  exists l, outline corners = Some l /\ List.length l = S (List.length corners) /\
    (forall i p, nth_error corners i = Some p -> exists q, nth_error l i = Some q /\ close (fst q) (fst p) /\ close (snd q) (snd p)) /\
    nth_error l (List.length corners) = nth_error l 0.
Proof.
  intros N F. destruct corners as [|c t]; [congruence|]. eexists. split; [reflexivity|].
  split; [rewrite app_length, map_length; cbn; lia|]. split.
  - intros i p E. exists (point p). rewrite nth_error_app1.
    + rewrite nth_error_map, E. split; [reflexivity|]. rewrite Forall_forall in F.
      destruct (F p (nth_error_In _ _ E)). split; apply narrow_close; assumption.
    + rewrite map_length. apply nth_error_Some. congruence.
  - rewrite nth_error_app2 by (rewrite map_length; lia). rewrite map_length, Nat.sub_diag. reflexivity.
Qed.

(** A body without corners is undefined, *)
Theorem C136_empty_refuted : outline [] = None.
Proof. reflexivity. Qed.

(** a unit square a hundred million away is drawn as one point. *)
Definition square (d : Z) : list (f64 * f64) :=
  [(f64_ofZ d, f64_ofZ d); (f64_ofZ (d + 1), f64_ofZ d); (f64_ofZ (d + 1), f64_ofZ (d + 1)); (f64_ofZ d, f64_ofZ (d + 1))].
Definition shown (o : option (list (f32 * f32))) := option_map (map (fun q => (B2SF (fst q), B2SF (snd q)))) o.
Theorem C136_far_refuted : NoDup (map (fun p => (B2R (fst p), B2R (snd p))) (square 100000000)) /\
  exists q, shown (outline (square 100000000)) = Some (repeat q 5).
Proof.
  split.
  - destruct (f64_ofZ_R 100000000) as (E & _); [lia|]. destruct (f64_ofZ_R (100000000 + 1)) as (E' & _); [lia|].
    unfold square. cbn [map fst snd]. rewrite E, E'.
    assert (D : IZR 100000000 <> IZR (100000000 + 1)) by (intros C; apply eq_IZR in C; lia).
    repeat constructor; cbn [In]; intros H; repeat (destruct H as [H|H]; [injection H; intros; congruence|]); exact H.
  - exists (SpecFloat.S754_finite false 12500000 3, SpecFloat.S754_finite false 12500000 3). vm_compute. reflexivity.
Qed.

(** Every vortex is drawn, in order. *)
Theorem C136_vortices l : List.length (vortex_rows l) = List.length l /\
  forall i v, nth_error l i = Some v -> fits (fst (place v)) -> fits (snd (place v)) ->
    exists q c, nth_error (vortex_rows l) i = Some (q, c) /\ close (fst q) (fst (place v)) /\ close (snd q) (snd (place v)).
Proof.
  split; [apply map_length|]. intros i v E Fx Fy. exists (point (place v)), (f64_to_f32 (circulation v)).
  unfold vortex_rows. rewrite nth_error_map, E. split; [reflexivity|]. split; apply narrow_close; assumption.
Qed.

(** The colour tells the sign of the circulation, if a float can hold it; *)
Definition red : Z := 16711680.
Definition blue : Z := 255.
Definition white : Z := 16777215.
Definition black : Z := 0.
Theorem C136_color_partial v : fits (circulation v) -> bpow radix2 (-149) <= Rabs (B2R (circulation v)) ->
  (0 < B2R (circulation v) -> color false (snd (vortex_row v)) = red /\ color true (snd (vortex_row v)) = white) /\
  (B2R (circulation v) < 0 -> color false (snd (vortex_row v)) = blue /\ color true (snd (vortex_row v)) = black).
Proof.
  intros F L. destruct (narrow _ F) as (E & Fi). set (g := B2R (circulation v)) in *. cbn [vortex_row snd]. unfold color.
  assert (M : rnd32 (bpow radix2 (-149)) = bpow radix2 (-149)).
  { rewrite rnd32_flt. apply round_generic; auto with typeclass_instances. apply generic_format_bpow. unfold FLT_exp. lia. }
  assert (M' : rnd32 (- bpow radix2 (-149)) = - bpow radix2 (-149)).
  { rewrite rnd32_flt. apply round_generic; auto with typeclass_instances. apply generic_format_opp, generic_format_bpow. unfold FLT_exp. lia. }
  pose proof (bpow_gt_0 radix2 (-149)). split; intros S.
  - rewrite Rabs_pos_eq in L by lra. pose proof (rnd32_le _ _ L) as H1. rewrite M in H1.
    replace (Bltb (B754_zero false) (f64_to_f32 (circulation v))) with true; [split; reflexivity|].
    symmetry. apply ltb32; [reflexivity|exact Fi|]. rewrite E. cbn [B2R]. lra.
  - rewrite Rabs_left in L by lra. assert (L' : g <= - bpow radix2 (-149)) by lra. pose proof (rnd32_le _ _ L') as H1. rewrite M' in H1.
    destruct (Bltb (B754_zero false) (f64_to_f32 (circulation v))) eqn:C; [|split; reflexivity].
    apply ltb32 in C; [|reflexivity|exact Fi]. rewrite E in C. cbn [B2R] in C. lra.
Qed.

Definition half_min : f64 := @B754_finite 53 1024 false 4503599627370496 (-202) eq_refl.
Definition tiny : f64 := @B754_finite 53 1024 false 4503599627370496 (-300) eq_refl.
(** positive circulations of half the smallest float and less look negative. *)
Theorem C136_color_refuted v : is_finite (circulation v) = true -> 0 < B2R (circulation v) <= bpow radix2 (-150) ->
  color false (snd (vortex_row v)) = blue /\ color true (snd (vortex_row v)) = black.
Proof.
  intros F (P & L). assert (FF : fits (circulation v)).
  { split; [exact F|]. rewrite Rabs_pos_eq by lra. eapply Rle_trans; [exact L|]. apply bpow_le. lia. }
  destruct (narrow _ FF) as (E & Fi). cbn [vortex_row snd]. unfold color.
  destruct (Bltb (B754_zero false) (f64_to_f32 (circulation v))) eqn:C; [exfalso|split; reflexivity].
  apply ltb32 in C; [|reflexivity|exact Fi]. rewrite E in C. cbn [B2R] in C.
  assert (Z : rnd32 (bpow radix2 (-150)) = 0).
  { transitivity (B2R (f64_to_f32 half_min)).
    - symmetry. destruct (narrow half_min) as (X & _).
      + split; [reflexivity|]. unfold half_min, tiny; cbn [B2R]. unfold F2R. cbn [Fnum Fexp cond_Zopp]. change (IZR 4503599627370496) with (bpow radix2 52).
        rewrite <- bpow_plus, Rabs_pos_eq by apply bpow_ge_0. apply bpow_le. lia.
      + rewrite X. f_equal. unfold half_min, tiny; cbn [B2R]. unfold F2R. cbn [Fnum Fexp cond_Zopp]. change (IZR 4503599627370496) with (bpow radix2 52).
        rewrite <- bpow_plus. reflexivity.
    - rewrite <- SF2R_B2SF. replace (B2SF (f64_to_f32 _)) with (SpecFloat.S754_zero false) by (vm_compute; reflexivity). reflexivity. }
  pose proof (rnd32_le _ _ L). lra.
Qed.
Example C136_color_case : exists v, is_finite (circulation v) = true /\ 0 < B2R (circulation v) <= bpow radix2 (-150).
Proof.
  exists (mkVortex (f64_ofZ 0, f64_ofZ 0) tiny). cbn [circulation]. split; [reflexivity|].
  unfold half_min, tiny; cbn [B2R]. unfold F2R. cbn [Fnum Fexp cond_Zopp]. change (IZR 4503599627370496) with (bpow radix2 52). rewrite <- bpow_plus.
  split; [apply bpow_gt_0|apply bpow_le; lia].
Qed.

Example C136_ex : shown (outline (square 1)) = shown (Some (map (fun p => (f32_ofZ (fst p), f32_ofZ (snd p))) [(1, 1); (2, 1); (2, 2); (1, 2); (1, 1)]%Z)).
Proof. vm_compute. reflexivity. Qed.
Example C136_ex_vortices : map (fun r => color false (snd r)) (vortex_rows [mkVortex (f64_ofZ 0, f64_ofZ 0) (f64_ofZ 2); mkVortex (f64_ofZ 1, f64_ofZ 0) (f64_ofZ (-2))]) = [red; blue].
Proof. vm_compute. reflexivity. Qed.

Print Assumptions C136_outline_partial.
Print Assumptions C136_empty_refuted.
Print Assumptions C136_far_refuted.
Print Assumptions C136_vortices.
Print Assumptions C136_color_partial.
Print Assumptions C136_color_refuted.
