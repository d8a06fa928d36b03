(** C130: the numbers in the tables of vvxtract. *)

From Coq Require Import ZArith Bool List String Ascii Reals Lia Lra.
From Verif.Base Require Import Num.
From Verif.Xtract Require Import Model Spec Properties.
From Verif.Print Require Import Model Spec Proofs.
Import ListNotations.
Local Open Scope string_scope.
Local Open Scope R_scope.

Lemma show_e_word p x : word (show_e p x).
Proof.
  assert (P : forall s, word (plus s)) by (intros []; repeat constructor; unfold word_char; cbn; tauto).
  destruct x as [s|s|s|s m d]; cbn [show_e].
  1-2: apply word_app; [apply P|repeat constructor; unfold word_char; cbn; tauto].
  - apply word_app; [apply P|]. apply word_app; [|apply word_power]. apply word_mantissa; [repeat constructor; unfold decimal_digit; lia|].
    apply Forall_forall. intros z Hz. apply repeat_spec in Hz. unfold decimal_digit. lia.
  - destruct (significant (S p) m d) as [n e]. set (l := digits (S p) n).
    assert (Hl : Forall decimal_digit l) by apply digits_ok. rewrite <- (firstn_skipn 1 l) in Hl. apply Forall_app in Hl.
    apply word_app; [apply P|]. apply word_app; [apply word_mantissa; apply Hl|apply word_power].
Qed.

Lemma show_e_some p x : show_e p x <> "".
Proof. destruct x as [[]|[]|[]|[] m d]; cbn [show_e]; try discriminate; destruct (significant (S p) m d); discriminate. Qed.

Lemma word_blank c : word_char c -> blank c = false.
Proof. unfold word_char. cbn. intros H. repeat (destruct H as [<-|H]; [reflexivity|]). contradiction. Qed.

(** What awk finds in a column of the table is read as the value of the dataset,
    to seven digits; that the columns stay in place needs rows in all datasets
    before it (C90), and the value itself is not printed (C130_near_refuted). *)
Theorem C130_columns_partial (f : @file number) args ds :
  args <> [] -> Forall2 (holds f) args ds -> full f ->
  (forall a, In a args -> without newline a /\ without tabulator a) ->
  exists out first lines,
    main (show_e 6) false false (Some f) args = Exit 0 out /\ pieces newline (first :: lines) out /\
    forall i line k d j v, nth_error lines i = Some line -> nth_error ds k = Some d -> (j < cols d)%nat ->
      (forall e, In e (firstn (S k) ds) -> (i < rows e)%nat) -> Xtract.Spec.value d i j v -> finite v ->
      exists s w, nth_error (awk_fields line) (place ds k + j) = Some s /\ reads s w /\
        Rabs (w - real v) * 2000000 <= Rabs (real v).
Proof.
  intros A H F N.
  destruct (C90_awk_partial (show_e 6) f args ds A H F) as (out & first & lines & M & P & Q).
  - intros v. split; [apply show_e_some|]. intros c Hc. apply word_blank.
    pose proof (show_e_word 6 v) as W. unfold word in W. rewrite Forall_forall in W. exact (W c Hc).
  - exact N.
  - exists out, first, lines. split; [exact M|]. split; [exact P|].
    intros i line k d j v E K J B VV FV. exists (show_e 6 v), (printed 7 v).
    split; [exact (Q i line k d j v E K J B VV)|]. split; [apply show_e_printed, FV|].
    pose proof (printed_near 7 v ltac:(lia)) as X. replace 2000000 with (2 * 10 ^ (7 - 1)) by (simpl; lra). exact X.
Qed.

(** Cells are as wide as the 13 blanks of an empty one (vvxtract.cpp:241). *)
Lemma text_length l : String.length (text l) = List.length l.
Proof. induction l as [|d l IH]; simpl; congruence. Qed.
Lemma append_length a b : String.length (a ++ b) = (String.length a + String.length b)%nat.
Proof. induction a as [|c a IH]; simpl; congruence. Qed.

Lemma power_length e : (-100 < e < 100)%Z -> String.length (power e) = 4%nat.
Proof.
  intros H. unfold power. rewrite !append_length, text_length, digits_length.
  assert (S : (size10 (Z.to_nat (Z.abs e)) (Z.abs e) <= 1)%Z).
  { destruct (Z.eq_dec e 0) as [->|N]; [vm_compute; discriminate|].
    destruct (size10_spec (Z.to_nat (Z.abs e)) (Z.abs e)) as (S0 & L & _); [lia| |].
    - rewrite Z2Nat.id by lia. apply Z.pow_gt_lin_r; lia.
    - destruct (Z_le_gt_dec (size10 (Z.to_nat (Z.abs e)) (Z.abs e)) 1) as [|G]; [assumption|exfalso].
      assert (10 ^ 2 <= 10 ^ size10 (Z.to_nat (Z.abs e)) (Z.abs e))%Z by (apply Z.pow_le_mono_r; lia). lia. }
  destruct (e <? 0)%Z; cbn [plus String.length]; lia.
Qed.

Theorem C130_width_partial x : real x = 0 /\ finite x \/ powerRZ 10 (-99) <= Rabs (real x) < powerRZ 10 99 ->
  String.length (show_e 6 x) = 13%nat.
Proof.
  destruct x as [s|s|s|s m d]; cbn [finite real].
  1-2: intros [[_ C]|[C _]]; [contradiction|exfalso; rewrite Rabs_R0 in C; pose proof (B_pos (-99)); lra].
  - intros _. destruct s; reflexivity.
  - rewrite Rabs_signed. set (x := IZR (Zpos m) / IZR (Zpos d)).
    assert (x0 : 0 < x) by (unfold x; apply Rdiv_lt_0_compat; apply IZR_pos).
    intros [[C _]|[L U]]; [exfalso; destruct s; simpl in C; lra|].
    rewrite (Rabs_pos_eq x) in L, U by lra. pose proof (exponent_spec m d) as [L' U']. fold x in L', U'.
    assert (E1 : (exponent m d < 99)%Z) by (apply B_lt_inv; lra).
    assert (E2 : (-99 < exponent m d + 1)%Z) by (apply B_lt_inv; lra).
    cbn [show_e]. destruct (significant 7 m d) as [n e] eqn:E.
    assert (E3 : (e = exponent m d \/ e = exponent m d + 1)%Z).
    { unfold significant in E. destruct (scale m d _) as [a b]. destruct (_ =? _)%Z; apply pair_equal_spec in E; destruct E as [_ <-]; auto. }
    unfold mantissa. rewrite !append_length, power_length, text_length by lia.
    pose proof (digits_length 7 n) as DL. destruct (digits 7 n) as [|d0 l]; [discriminate|].
    cbn [firstn skipn List.length] in *. destruct l as [|d1 l]; [discriminate|].
    rewrite append_length, text_length. cbn [List.length String.length] in *. destruct s; cbn [plus String.length]; lia.
Qed.

(** Numbers that are none and infinite ones are narrower. *)
Theorem C130_width_refuted : exists x, String.length (show_e 6 x) <> 13%nat.
Proof. exists (NaN false). discriminate. Qed.

Example C130_ex_columns :
  main (show_e 6) false false (Some (mkFile ["time"] "" None (fun _ => Array 2 1 [Fin false 1 3; Zero false]))) ["time"] =
  Exit 0 ("#time" ++ tab ++ nl ++ "+3.333333e-01" ++ tab ++ nl ++ "+0.000000e+00" ++ tab ++ nl).
Proof. vm_compute. reflexivity. Qed.

Print Assumptions C130_columns_partial.
Print Assumptions C130_width_partial.
Print Assumptions C130_width_refuted.
