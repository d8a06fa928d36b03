(** C135: the numbers vvplot writes with a fixed number of places. *)

From Coq Require Import ZArith Bool List String Ascii Reals Lia Lra.
From Flocq Require Import IEEE754.BinarySingleNaN.
From Verif.Base Require Import Num F64.
From Verif.Plot Require Import ModelDims PropertiesDims.
From Verif.Print Require Import Model ModelFixed Spec Proofs ProofsFixed.
Import ListNotations.
Local Open Scope string_scope.
Local Open Scope R_scope.

(** What is read is the number to half a unit of the last place, *)
Theorem C135_near p x : finite x -> exists v, reads (show_f p x) v /\ Rabs (v - real x) <= / 2 * powerRZ 10 (- Z.of_nat p).
Proof. intros F. exists (fixed p x). split; [apply show_f_fixed, F|]. pose proof (fixed_near p x). lra. Qed.

(** exactly so if it has no further places, *)
Theorem C135_exact p x M : finite x -> real x = IZR M * powerRZ 10 (- Z.of_nat p) -> reads (show_f p x) (real x).
Proof. intros F E. rewrite <- (fixed_exact p x M E). apply show_f_fixed, F. Qed.

(** and in order. *)
Theorem C135_order p x y v w : finite x -> finite y -> real x <= real y ->
  reads (show_f p x) v -> reads (show_f p y) w -> v <= w.
Proof.
  intros Fx Fy L V W. rewrite (reads_fun _ _ _ V (show_f_fixed p x Fx)), (reads_fun _ _ _ W (show_f_fixed p y Fy)).
  apply fixed_mono, L.
Qed.

(** It has no blanks, commas, quotes or brackets, so the command around it stays whole. *)
Theorem C135_word p x : word (show_f p x).
Proof. apply show_f_word. Qed.
Theorem C135_special p s : show_f p (NaN s) = minus s ++ "nan" /\ show_f p (Inf s) = minus s ++ "inf".
Proof. split; reflexivity. Qed.

(** A circle is drawn to two per cent if its radius is at least 1/40000, *)
Theorem C135_circle_partial x : finite x -> / 40000 <= real x ->
  exists v, reads (show_f 6 x) v /\ Rabs (v - real x) <= real x / 50.
Proof.
  intros F H. destruct (C135_near 6 x F) as (v & R & N). exists v. split; [exact R|].
  change (powerRZ 10 (- Z.of_nat 6)) with (/ (10 ^ 6)) in N. lra.
Qed.

(** but not at all if it is at most half a millionth, *)
Theorem C135_vanishing x v : finite x -> Rabs (real x) < / 2 * / 10 ^ 6 -> reads (show_f 6 x) v -> v = 0.
Proof.
  intros F H R. rewrite (reads_fun _ _ _ R (show_f_fixed 6 x F)). clear R v.
  destruct x as [s|s|s|s m d]; try reflexivity. cbn [fixed real] in *. rewrite Rabs_signed in H.
  assert (E : round_even (Z.pos m * 10 ^ Z.of_nat 6) (Z.pos d) = 0%Z).
  { apply Z.le_antisymm; [|apply round_pos]. unfold round_even.
    pose proof (IZR_pos d) as Pd. pose proof (IZR_pos m) as Pm.
    rewrite Rabs_pos_eq in H by (apply Rlt_le, Rdiv_lt_0_compat; assumption).
    apply (Rmult_lt_compat_r (IZR (Zpos d))) in H; [|exact Pd].
    replace (IZR (Z.pos m) / IZR (Z.pos d) * IZR (Z.pos d)) with (IZR (Zpos m)) in H by (field; lra).
    assert (L : IZR (Zpos m * 10 ^ Z.of_nat 6 * 2) < IZR (Zpos d)).
    { rewrite !mult_IZR. change (IZR (10 ^ Z.of_nat 6)) with 1000000. lra. }
    apply lt_IZR in L. rewrite Z.div_small, Z.mod_small by lia.
    replace (2 * (Z.pos m * 10 ^ Z.of_nat 6) <? Z.pos d)%Z with true by (symmetry; apply Z.ltb_lt; lia). lia. }
  rewrite E. destruct s; cbn [signed]; ring.
Qed.

(** as all vortices in a picture of 0.0003 by 0.0002 and 1280 columns. *)
Definition small_view : @view F64 := @mkView F64 1280 0 (f64_ofZ 0) (f64_dec 3 4) (f64_ofZ 0) (f64_dec 2 4).
Theorem C135_circle_refuted : exists v lo hi vcirc, f64_complete small_view 320 640 4 = Done v lo hi vcirc /\
  0 < B2R vcirc /\ vortex_circles vcirc = " u 1:2:(0.000000):(color($3))".
Proof.
  assert (C : (match f64_complete small_view 320 640 4 with Done _ _ _ c => Some (B2SF c) | _ => None end)
    = Some (SpecFloat.S754_finite false 8854437155380584 (-74))) by (vm_compute; reflexivity).
  destruct (f64_complete small_view 320 640 4) as [| |v lo hi vcirc]; try discriminate.
  exists v, lo, hi, vcirc. split; [reflexivity|].
  destruct vcirc as [s|s| |s m e h]; try discriminate C. cbn [B2SF] in C. injection C as -> -> ->. split.
  - cbn [B2R]. apply Float_prop.F2R_gt_0. reflexivity.
  - vm_compute. reflexivity.
Qed.

(** The ends of different colour scales can be labelled alike, even as one number, *)
Theorem C135_labels_refuted : exists a b : f64, B2R a < B2R b /\ B2R b = B2R a + / 32 /\ end_label a = end_label b.
Proof.
  exists (@ndiv F64 (f64_ofZ 1) (f64_ofZ 128)), (@ndiv F64 (f64_ofZ 5) (f64_ofZ 128)).
  assert (A : B2R (@ndiv F64 (f64_ofZ 1) (f64_ofZ 128)) = / 128).
  { rewrite <- SF2R_B2SF. replace (B2SF _) with (SpecFloat.S754_finite false 4503599627370496 (-59)) by (vm_compute; reflexivity).
    cbn. unfold Defs.F2R. cbn. lra. }
  assert (C : B2R (@ndiv F64 (f64_ofZ 5) (f64_ofZ 128)) = 5 / 128).
  { rewrite <- SF2R_B2SF. replace (B2SF _) with (SpecFloat.S754_finite false 5629499534213120 (-57)) by (vm_compute; reflexivity).
    cbn. unfold Defs.F2R. cbn. lra. }
  rewrite A, C. split; [lra|]. split; [lra|]. vm_compute. reflexivity.
Qed.

(** and so can the times of two pictures. *)
Theorem C135_time_refuted : exists t t' ts : Z, (t < t')%Z /\
  time_label (@ndiv F64 (f64_ofZ t) (f64_ofZ ts)) = time_label (@ndiv F64 (f64_ofZ t') (f64_ofZ ts)).
Proof. exists 1%Z, 4%Z, 10000000%Z. split; [lia|]. vm_compute. reflexivity. Qed.

Example C135_ex : map (fun x => show_f 6 (of_double x)) [f64_ofZ 0; f64_dec 5 1; f64_dec (-12345678) 7; f64_ofZ 1000; f64_ofZ (2 ^ 70)]
  = ["0.000000"; "0.500000"; "-1.234568"; "1000.000000"; "1180591620717411303424.000000"].
Proof. vm_compute. reflexivity. Qed.
Example C135_ex_label : map (fun x => show_f 1 (of_double x)) [f64_dec (-15) 1; f64_ofZ 1; f64_dec 25 2; f64_dec 75 2; f64_dec (-4) 2; f64_dec 996 2]
  = ["-1.5"; "1.0"; "0.2"; "0.8"; "-0.0"; "10.0"].
Proof. vm_compute. reflexivity. Qed.
Example C135_ex_spring : spring_heads (f64_dec 25 2) = " head size 0.750000,135" /\ holder_circles (f64_dec 25 2) = " u 1:2:(1.5*0.250000)".
Proof. split; vm_compute; reflexivity. Qed.
Example C135_ex_time : time_label (f64_dec 25 1) = "set label ""t = 2.500000"" at graph 0.05, 0.90 front".
Proof. vm_compute. reflexivity. Qed.

Print Assumptions C135_near.
Print Assumptions C135_exact.
Print Assumptions C135_order.
Print Assumptions C135_word.
Print Assumptions C135_special.
Print Assumptions C135_circle_partial.
Print Assumptions C135_vanishing.
Print Assumptions C135_circle_refuted.
Print Assumptions C135_labels_refuted.
Print Assumptions C135_time_refuted.
