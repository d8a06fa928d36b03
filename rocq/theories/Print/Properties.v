(** C130: numbers that are printed and read again. *)

From Coq Require Import ZArith Bool List String Ascii Reals Lia Lra.
From Flocq Require Import IEEE754.BinarySingleNaN.
From Verif.Base Require Import Num.
From Verif.Print Require Import Model Spec Proofs.
Import ListNotations.
Local Open Scope string_scope.
Local Open Scope R_scope.

(** A printed number is read as a number near it: with [p] digits, half a unit of
    the last digit at most.  That it is read as itself is refuted below. *)
Theorem C130_near_partial p x : (1 <= p)%nat -> finite x ->
  exists v, reads (show_g p x) v /\ Rabs (v - real x) * (2 * 10 ^ (p - 1)) <= Rabs (real x).
Proof. intros Hp F. exists (printed p x). split; [apply show_g_printed; assumption|apply printed_near; assumption]. Qed.

Theorem C130_table_partial p x : finite x ->
  exists v, reads (show_e p x) v /\ Rabs (v - real x) * (2 * 10 ^ p) <= Rabs (real x).
Proof.
  intros F. exists (printed (S p) x). split; [apply show_e_printed; assumption|].
  replace p with (S p - 1)%nat at 2 by lia. apply printed_near. lia.
Qed.

(** A number of no more than [p] digits is read as itself. *)
Theorem C130_exact_partial p x M k : (1 <= p)%nat -> finite x ->
  (Z.abs M < 10 ^ Z.of_nat p)%Z -> real x = IZR M * powerRZ 10 k -> reads (show_g p x) (real x).
Proof. intros Hp F HM X. rewrite <- (printed_exact p x M k) by assumption. apply show_g_printed; assumption. Qed.

(** The order of numbers is not reversed. *)
Theorem C130_order p x y v w : (1 <= p)%nat -> finite x -> finite y -> real x <= real y ->
  reads (show_g p x) v -> reads (show_g p y) w -> v <= w.
Proof.
  intros Hp Fx Fy H Hv Hw. rewrite (reads_fun _ _ _ Hv (show_g_printed p x Hp Fx)), (reads_fun _ _ _ Hw (show_g_printed p y Hp Fy)).
  apply printed_mono; assumption.
Qed.
Theorem C130_order_table p x y v w : finite x -> finite y -> real x <= real y ->
  reads (show_e p x) v -> reads (show_e p y) w -> v <= w.
Proof.
  intros Fx Fy H Hv Hw. rewrite (reads_fun _ _ _ Hv (show_e_printed p x Fx)), (reads_fun _ _ _ Hw (show_e_printed p y Fy)).
  apply printed_mono; [lia|exact H].
Qed.

(** Infinite numbers and those that are none are read as such. *)
Theorem C130_special p s :
  read (show_g p (Inf s)) = Some (VInf s) /\ read (show_g p (NaN s)) = Some (VNaN s) /\
  read (show_e p (Inf s)) = Some (VInf s) /\ read (show_e p (NaN s)) = Some (VNaN s).
Proof. destruct s; repeat split; reflexivity. Qed.

(** A number is one word, so the parts of vectors and objects can be told apart. *)
Theorem C130_word p x : word (show_g p x).
Proof. apply show_g_word. Qed.

Lemma comma : ~ word_char ",".
Proof. unfold word_char. cbn. intros H. repeat (destruct H as [H|H]; [discriminate H|]). exact H. Qed.
Lemma bracket : ~ word_char ")".
Proof. unfold word_char. cbn. intros H. repeat (destruct H as [H|H]; [discriminate H|]). exact H. Qed.

Theorem C130_vector x y x' y' : show_vec x y = show_vec x' y' -> show_g 14 x = show_g 14 x' /\ show_g 14 y = show_g 14 y'.
Proof.
  unfold show_vec. intros H. cbn [append] in H. injection H as H. unfold lua_number in H.
  apply apart in H; [|exact comma|apply show_g_word|apply show_g_word]. destruct H as [-> H].
  apply apart in H; [|exact bracket|apply show_g_word|apply show_g_word]. destruct H as [-> _]. auto.
Qed.

Lemma three a b c a' b' c' : (a ++ "," ++ b ++ "," ++ c ++ ")" = a' ++ "," ++ b' ++ "," ++ c' ++ ")") ->
  word a -> word b -> word c -> word a' -> word b' -> word c' -> a = a' /\ b = b' /\ c = c'.
Proof.
  intros H Wa Wb Wc Wa' Wb' Wc'. cbn [append] in H.
  apply apart in H; [|exact comma|assumption|assumption]. destruct H as [-> H].
  apply apart in H; [|exact comma|assumption|assumption]. destruct H as [-> H].
  apply apart in H; [|exact bracket|assumption|assumption]. destruct H as [-> _]. auto.
Qed.

Theorem C130_object f x y g x' y' g' : f = show_vec3 \/ f = show_obj -> f x y g = f x' y' g' ->
  show_g 14 x = show_g 14 x' /\ show_g 14 y = show_g 14 y' /\ show_g 14 g = show_g 14 g'.
Proof.
  intros [-> | ->] H; unfold show_vec3, show_obj in H; cbn [append] in H; injection H as H;
    apply (three _ _ _ _ _ _ H); apply show_g_word.
Qed.

(** Doubles that differ are printed alike, also with the fourteen digits of Lua. *)
Definition one : f64 := @B754_finite 53 1024 false 4503599627370496 (-52) eq_refl.
Definition next : f64 := @B754_finite 53 1024 false 4503599627370497 (-52) eq_refl.
Theorem C130_near_refuted : exists x y : f64, x <> y /\ real (of_double x) <> real (of_double y) /\
  show_g 14 (of_double x) = show_g 14 (of_double y) /\ show_g 6 (of_double x) = show_g 6 (of_double y) /\
  show_e 6 (of_double x) = show_e 6 (of_double y).
Proof.
  exists one, next. split; [intros E; discriminate E|]. split; [|vm_compute; auto].
  cbn [of_double one next real signed]. change (Zpos (2 ^ 52)) with 4503599627370496%Z. lra.
Qed.

(** Two times of steps that follow one another, TTime.hpp:54, sensors.cpp:62. *)
Definition clock (value timescale : Z) : number := of_double (@ndiv F64 (nofZ value) (nofZ timescale)).
Theorem C130_time_refuted : exists t t', (t < t')%Z /\
  show_g 6 (clock t 1000) = show_g 6 (clock t' 1000).
Proof. exists 1000001%Z, 1000002%Z. split; [lia|]. vm_compute. reflexivity. Qed.

Example C130_ex :
  show_g 6 (clock 1000001 1000) = "1000" /\ show_g 6 (Fin false 1234567 1) = "1.23457e+06" /\
  show_e 6 (Fin true 1 3) = "-3.333333e-01" /\ show_g 6 (Fin false 9999996 10) = "1e+06" /\
  show_g 6 (Fin false 1 10000) = "0.0001" /\ show_g 6 (Fin false 1 100000) = "1e-05" /\
  show_vec (Fin false 1 3) (Fin true 7 2) = "TVec(0.33333333333333,-3.5)" /\
  show_obj (Zero true) (Inf true) (clock 1 10) = "TObj(-0,-inf,0.1)".
Proof. vm_compute. repeat split; reflexivity. Qed.

Example C130_ex_exact : reads (show_g 6 (Fin false 123456 1000)) (123456 / 1000).
Proof.
  apply (C130_exact_partial 6 (Fin false 123456 1000) 123456 (-3)); [lia|exact I|reflexivity|].
  cbn [real signed]. simpl. lra.
Qed.

Print Assumptions C130_near_partial.
Print Assumptions C130_table_partial.
Print Assumptions C130_exact_partial.
Print Assumptions C130_order.
Print Assumptions C130_order_table.
Print Assumptions C130_special.
Print Assumptions C130_word.
Print Assumptions C130_vector.
Print Assumptions C130_object.
Print Assumptions C130_near_refuted.
Print Assumptions C130_time_refuted.
