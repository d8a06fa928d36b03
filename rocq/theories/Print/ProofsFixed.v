From Coq Require Import ZArith Bool List String Ascii Reals Lia Lra Psatz.
From Verif.Base Require Import Num.
From Verif.Print Require Import Model ModelFixed Spec Proofs.
Import ListNotations.
Local Open Scope string_scope.
Local Open Scope R_scope.
Local Open Scope Z_scope.

Lemma whole_spec n : 0 <= n -> whole n <> [] /\ Forall decimal_digit (whole n) /\ val 0 (whole n) = n.
Proof.
  intros H. split; [|split].
  - intros C. apply (f_equal (@List.length Z)) in C. unfold whole in C. rewrite digits_length in C. discriminate.
  - apply digits_ok.
  - unfold whole. rewrite val_digits; [lia|]. split; [exact H|].
    destruct (Z.eq_dec n 0) as [->|N]; [apply Z.pow_pos_nonneg; lia|].
    assert (L : n < 2 ^ Z.of_nat (Z.to_nat (Z.log2 n + 1))).
    { pose proof (Z.log2_nonneg n). rewrite Z2Nat.id by lia. apply Z.log2_spec; lia. }
    destruct (size10_spec _ n ltac:(lia) L) as (S0 & _ & U).
    rewrite Nat2Z.inj_succ, Z2Nat.id by lia. exact U.
Qed.

(** What is printed. *)
Definition fixed (p : nat) (x : number) : R :=
  match x with
  | Fin s m d => signed s (IZR (round_even (Zpos m * 10 ^ Z.of_nat p) (Zpos d)) * B (- Z.of_nat p))
  | _ => 0%R
  end.

Lemma round_pos p m d : 0 <= round_even (Zpos m * 10 ^ Z.of_nat p) (Zpos d).
Proof. apply round_ge; [lia|]. assert (0 < 10 ^ Z.of_nat p) by (apply Z.pow_pos_nonneg; lia). lia. Qed.

Lemma show_f_fixed p x : finite x -> reads (show_f p x) (fixed p x).
Proof.
  destruct x as [s|s|s|s m d]; cbn [finite]; intros F; try contradiction.
  - exists s, (val 0 ([0] ++ repeat 0 p)), (0 - Z.of_nat (List.length (repeat 0 p))). split.
    + cbn [show_f]. rewrite <- (append_nil (mantissa [0] (repeat 0 p))).
      apply read_number; auto; [congruence|repeat constructor; unfold decimal_digit; lia| |now left].
      apply Forall_forall. intros z Hz. apply repeat_spec in Hz. unfold decimal_digit. lia.
    + rewrite val_app, val_zeros. change (val 0 [0]) with 0. rewrite Z.mul_0_l, Rmult_0_l. destruct s; simpl; ring.
  - cbn [show_f fixed]. pose proof (round_pos p m d) as H. set (n := round_even _ _) in *. cbv zeta.
    assert (P : 0 < 10 ^ Z.of_nat p) by (apply Z.pow_pos_nonneg; lia).
    destruct (whole_spec (n / 10 ^ Z.of_nat p)) as (N & D & V); [apply Z.div_pos; lia|].
    exists s, n, (- Z.of_nat p). split; [|reflexivity].
    rewrite <- (append_nil (mantissa _ _)).
    rewrite (read_number s (minus s) (whole (n / 10 ^ Z.of_nat p)) (digits p (n mod 10 ^ Z.of_nat p)) "" 0);
      [|now left|exact N|exact D|apply digits_ok|now left].
    rewrite val_app, V, val_digits by (apply Z.mod_pos_bound; lia). rewrite digits_length.
    do 2 f_equal. pose proof (Z.div_mod n (10 ^ Z.of_nat p) ltac:(lia)). lia.
Qed.

Lemma fixed_near p x : (Rabs (fixed p x - real x) * 2 <= B (- Z.of_nat p))%R.
Proof.
  pose proof (B_pos (- Z.of_nat p)) as BP.
  destruct x as [s|s|s|s m d]; cbn [fixed real]; try (rewrite Rminus_0_r, Rabs_R0; lra).
  set (n := round_even _ _). pose proof (round_near (Zpos m * 10 ^ Z.of_nat p) (Zpos d) ltac:(lia)) as N. fold n in N.
  replace (signed s (IZR n * B (- Z.of_nat p)) - signed s (IZR (Zpos m) / IZR (Zpos d)))%R
    with (signed s (IZR n * B (- Z.of_nat p) - IZR (Zpos m) / IZR (Zpos d))) by (destruct s; simpl; ring).
  rewrite Rabs_signed. pose proof (B_inv (Z.of_nat p)) as I. pose proof (IZR_pos d) as Pd.
  destruct N as [N1 N2]. apply IZR_le in N1. apply IZR_le in N2.
  rewrite mult_IZR, minus_IZR, !mult_IZR in N1, N2. rewrite opp_IZR in N1. rewrite <- B_Z in N1, N2 by lia.
  set (b := B (- Z.of_nat p)) in *. set (B' := B (Z.of_nat p)) in *. set (D := IZR (Zpos d)) in *. set (M := IZR (Zpos m)) in *.
  assert (E : (IZR n * b - M / D = (IZR n * D - M * B') * (b / D))%R).
  { replace (M / D)%R with (M * (b * B') / D)%R by (rewrite I; field; lra). field. lra. }
  rewrite E. assert (Q : (0 < b / D)%R) by (apply Rdiv_lt_0_compat; lra).
  rewrite Rabs_mult, (Rabs_pos_eq (b / D)) by lra.
  assert (A : (Rabs (IZR n * D - M * B') * 2 <= D)%R) by (unfold Rabs; destruct (Rcase_abs _); lra).
  assert ((Rabs (IZR n * D - M * B') * 2) * (b / D) <= D * (b / D))%R by (apply Rmult_le_compat_r; lra).
  replace (D * (b / D))%R with b in H by (field; lra). lra.
Qed.

Lemma fixed_mono p x y : (real x <= real y)%R -> (fixed p x <= fixed p y)%R.
Proof.
  assert (P : forall m d, (0 < IZR (Zpos m) / IZR (Zpos d))%R) by (intros; apply Rdiv_lt_0_compat; apply IZR_pos).
  assert (Q : forall m d, (0 <= IZR (round_even (Zpos m * 10 ^ Z.of_nat p) (Zpos d)) * B (- Z.of_nat p))%R).
  { intros m d. apply Rmult_le_pos; [apply IZR_le, round_pos|pose proof (B_pos (- Z.of_nat p)); lra]. }
  assert (R : forall m d m' d', (IZR (Zpos m) / IZR (Zpos d) <= IZR (Zpos m') / IZR (Zpos d'))%R ->
    (IZR (round_even (Zpos m * 10 ^ Z.of_nat p) (Zpos d)) * B (- Z.of_nat p) <= IZR (round_even (Zpos m' * 10 ^ Z.of_nat p) (Zpos d')) * B (- Z.of_nat p))%R).
  { intros m d m' d' H. apply Rmult_le_compat_r; [pose proof (B_pos (- Z.of_nat p)); lra|]. apply IZR_le, round_mono; try lia.
    pose proof (IZR_pos d). pose proof (IZR_pos d').
    assert (C : (IZR (Zpos m) * IZR (Zpos d') <= IZR (Zpos m') * IZR (Zpos d))%R).
    { apply (Rmult_le_compat_r (IZR (Zpos d) * IZR (Zpos d'))) in H; [|apply Rmult_le_pos; lra].
      replace (IZR (Zpos m) / IZR (Zpos d) * (IZR (Zpos d) * IZR (Zpos d')))%R with (IZR (Zpos m) * IZR (Zpos d'))%R in H by (field; lra).
      replace (IZR (Zpos m') / IZR (Zpos d') * (IZR (Zpos d) * IZR (Zpos d')))%R with (IZR (Zpos m') * IZR (Zpos d))%R in H by (field; lra). exact H. }
    rewrite <- !mult_IZR in C. apply le_IZR in C.
    assert (0 < 10 ^ Z.of_nat p) by (apply Z.pow_pos_nonneg; lia). nia. }
  destruct x as [s|s|s|s m d], y as [t|t|t|t m' d']; cbn [real fixed]; try lra;
    try (pose proof (P m' d'); pose proof (Q m' d'); destruct t; cbn [signed]; lra);
    try (pose proof (P m d); pose proof (Q m d); destruct s; cbn [signed]; lra).
  pose proof (P m d). pose proof (Q m d). pose proof (P m' d'). pose proof (Q m' d').
  destruct s, t; cbn [signed]; intros HL; try lra.
  - pose proof (R m' d' m d ltac:(lra)). lra.
  - apply R, HL.
Qed.

Lemma fixed_exact p x M : real x = (IZR M * B (- Z.of_nat p))%R -> fixed p x = real x.
Proof.
  intros E. pose proof (B_pos (- Z.of_nat p)) as BP.
  assert (F : exists N, fixed p x = (IZR N * B (- Z.of_nat p))%R).
  { destruct x as [s|s|s|s m d]; cbn [fixed]; try (exists 0; ring).
    exists (if s then - round_even (Zpos m * 10 ^ Z.of_nat p) (Zpos d) else round_even (Zpos m * 10 ^ Z.of_nat p) (Zpos d)).
    destruct s; cbn [signed]; rewrite ?opp_IZR; ring. }
  destruct F as (N & F). pose proof (fixed_near p x) as H. rewrite E, F in *.
  replace (IZR N * B (- Z.of_nat p) - IZR M * B (- Z.of_nat p))%R with (IZR (N - M) * B (- Z.of_nat p))%R in H by (rewrite minus_IZR; ring).
  rewrite Rabs_mult, (Rabs_pos_eq (B _)), <- abs_IZR in H by lra.
  assert (IZR (Z.abs (N - M)) < 1)%R by nra. apply lt_IZR in H0. replace N with M by lia. reflexivity.
Qed.

Lemma show_f_word p x : word (show_f p x).
Proof.
  destruct x as [s|s|s|s m d]; cbn [show_f].
  1-2: apply word_app; [apply word_minus|repeat constructor; unfold word_char; cbn; tauto].
  - apply word_app; [apply word_minus|]. apply word_mantissa; [repeat constructor; unfold decimal_digit; lia|].
    apply Forall_forall. intros z Hz. apply repeat_spec in Hz. unfold decimal_digit. lia.
  - apply word_app; [apply word_minus|]. apply word_mantissa; apply digits_ok.
Qed.
