From Coq Require Import ZArith Bool List Lia Arith Reals Lra Permutation.
From Flocq Require Import Core.Core IEEE754.BinarySingleNaN.
From Verif.Base Require Import Num F64 F32 Bytes.
From Verif.Field Require Import Model Spec.
Import ListNotations.
Local Open Scope Z_scope.

(** * Words and bytes *)

Lemma data_words W k : Forall (fun w => 0 <= w < 2 ^ 32) W -> 0 <= k ->
  data (flat_map bytes_of_word W) k = nth_error W (Z.to_nat k).
Proof.
  intros HW Hk. unfold data. replace (0 <=? k) with true by (symmetry; apply Z.leb_le; lia).
  generalize (Z.to_nat k). clear k Hk. intros n. revert W HW.
  induction n as [|n IH]; intros W HW.
  - destruct W as [|w W]; [reflexivity|]. inversion HW; subst. cbn [flat_map]. unfold bytes_of_word.
    cbn -[word_of_bytes Z.div Z.modulo Z.pow]. f_equal. apply word_bytes. assumption.
  - destruct W as [|w W]; [cbn [flat_map]; rewrite ?nth_error_nil; destruct (4 * S n)%nat; reflexivity|].
    inversion HW; subst. cbn [flat_map]. unfold bytes_of_word at 1 2 3 4.
    replace (4 * S n)%nat with (S (S (S (S (4 * n))))) by lia.
    cbn [app nth_error plus]. apply (IH W). assumption.
Qed.

Lemma length_bytes W : length (flat_map bytes_of_word W) = (4 * length W)%nat.
Proof. induction W as [|w W IH]; [reflexivity|]. cbn [flat_map length]. rewrite app_length, IH. simpl. lia. Qed.

(** Blocks of equal length. *)
Lemma nth_blocks {A} (f : nat -> list A) w : forall n s j i,
  (forall k, (s <= k < s + n)%nat -> length (f k) = w) -> (j < n)%nat -> (i < w)%nat ->
  nth_error (flat_map f (seq s n)) (j * w + i) = nth_error (f (s + j)%nat) i.
Proof.
  induction n as [|n IH]; intros s j i Hf Hj Hi; [lia|].
  cbn [seq flat_map]. destruct j as [|j].
  - rewrite nth_error_app1 by (rewrite Hf; lia). rewrite Nat.add_0_r. reflexivity.
  - rewrite nth_error_app2 by (rewrite Hf; lia).
    rewrite (Hf s) by lia. replace (S j * w + i - w)%nat with (j * w + i)%nat by lia.
    rewrite (IH (S s) j i); [f_equal; f_equal; lia| |lia|assumption].
    intros k Hk. apply Hf. lia.
Qed.

Lemma length_blocks {A} (f : nat -> list A) w : forall n s,
  (forall k, (s <= k < s + n)%nat -> length (f k) = w) ->
  length (flat_map f (seq s n)) = (n * w)%nat.
Proof.
  induction n as [|n IH]; intros s Hf; [reflexivity|].
  cbn [seq flat_map]. rewrite app_length, Hf by lia. rewrite (IH (S s)); [lia|].
  intros k Hk. apply Hf. lia.
Qed.

Lemma row_length F j : wf_field F -> (j < Z.to_nat (yres F))%nat -> length (row F j) = Z.to_nat (xres F).
Proof.
  intros (Hx & Hy & Hl & _) Hj. unfold row. rewrite firstn_length, skipn_length.
  assert (Z.to_nat (xres F) * Z.to_nat (yres F) = length (map_ F))%nat by lia. nia.
Qed.

Lemma nth_firstn {A} (l : list A) n i : (i < n)%nat -> nth_error (firstn n l) i = nth_error l i.
Proof.
  revert l i. induction n as [|n IH]; intros l i H; [lia|].
  destruct l as [|a l]; [reflexivity|]. destruct i as [|i]; [reflexivity|]. simpl. apply IH. lia.
Qed.
Lemma nth_skipn {A} (l : list A) n i : nth_error (skipn n l) i = nth_error l (n + i).
Proof.
  revert l. induction n as [|n IH]; intros l; [reflexivity|].
  destruct l as [|a l]; [destruct i; reflexivity|]. simpl. apply IH.
Qed.

Lemma row_nth F j i : (i < Z.to_nat (xres F))%nat ->
  nth_error (row F j) i = nth_error (map_ F) (j * Z.to_nat (xres F) + i).
Proof. intros H. unfold row. rewrite nth_firstn, nth_skipn by assumption. reflexivity. Qed.

(** * Words of a written field *)
Section Written.
Variable F : field.
Hypothesis WF : wf_field F.
Let X := Z.to_nat (xres F).
Let Y := Z.to_nat (yres F).

Let block yj := word_of_f32 (node (ymin F) (dxdy F) yj) :: row F yj.

Lemma block_length k : (k < Y)%nat -> length (block k) = S X.
Proof. intros H. unfold block. simpl. rewrite row_length; auto. Qed.

Lemma words_length : length (words F) = ((X + 1) * (Y + 1))%nat.
Proof.
  unfold words. cbn [length]. rewrite app_length, map_length. unfold zseq at 1. rewrite seq_length.
  unfold zseq. fold block. fold X Y.
  change (flat_map (fun yj => word_of_f32 (node (ymin F) (dxdy F) yj) :: row F yj) (seq 0 Y))
    with (flat_map block (seq 0 Y)).
  rewrite (length_blocks block (S X)); [lia|]. intros k Hk. apply block_length. lia.
Qed.

Lemma words_head : nth_error (words F) 0 = Some (word_of_f32 (f32_ofZ (xres F))).
Proof. reflexivity. Qed.

Lemma words_x i : (i < X)%nat -> nth_error (words F) (S i) = Some (word_of_f32 (node (xmin F) (dxdy F) i)).
Proof.
  intros H. unfold words. cbn [nth_error].
  rewrite nth_error_app1 by (rewrite map_length; unfold zseq; rewrite seq_length; assumption).
  rewrite nth_error_map. unfold zseq. fold X.
  rewrite (nth_error_nth' _ 0%nat) by (rewrite seq_length; assumption).
  rewrite seq_nth by assumption. reflexivity.
Qed.

Lemma words_block j i : (j < Y)%nat -> (i < S X)%nat ->
  nth_error (words F) ((j + 1) * (X + 1) + i) = nth_error (block j) i.
Proof.
  intros Hj Hi. unfold words.
  replace ((j + 1) * (X + 1) + i)%nat with (S (X + (j * S X + i))) by lia.
  cbn [nth_error]. rewrite nth_error_app2 by (rewrite map_length; unfold zseq; rewrite seq_length; fold X; lia).
  rewrite map_length. unfold zseq. rewrite !seq_length. fold X Y.
  replace (X + (j * S X + i) - X)%nat with (j * S X + i)%nat by lia.
  change (flat_map (fun yj => word_of_f32 (node (ymin F) (dxdy F) yj) :: row F yj) (seq 0 Y))
    with (flat_map block (seq 0 Y)).
  rewrite (nth_blocks block (S X)); try assumption; [reflexivity|].
  intros k Hk. apply block_length. lia.
Qed.

Lemma words_y j : (j < Y)%nat ->
  nth_error (words F) ((j + 1) * (X + 1)) = Some (word_of_f32 (node (ymin F) (dxdy F) j)).
Proof. intros H. rewrite <- (Nat.add_0_r ((j + 1) * (X + 1))), words_block by lia. reflexivity. Qed.

Lemma words_value j i : (j < Y)%nat -> (i < X)%nat ->
  nth_error (words F) ((j + 1) * (X + 1) + (i + 1)) = nth_error (map_ F) (j * X + i).
Proof.
  intros Hj Hi. rewrite words_block by lia. rewrite Nat.add_1_r. cbn [block nth_error]. apply row_nth. assumption.
Qed.

Lemma words_range : Forall (fun w => 0 <= w < 2 ^ 32) (words F).
Proof.
  destruct WF as (_ & _ & _ & Hm). unfold words. constructor; [apply word_of_f32_range|].
  apply Forall_app. split.
  - rewrite Forall_map. apply Forall_forall. intros. apply word_of_f32_range.
  - rewrite Forall_forall. intros w Hw. apply in_flat_map in Hw as (j & _ & [<-|Hw]); [apply word_of_f32_range|].
    unfold row in Hw. rewrite Forall_forall in Hm. apply Hm.
    rewrite <- (firstn_skipn (j * Z.to_nat (xres F)) (map_ F)), in_app_iff. right.
    rewrite <- (firstn_skipn (Z.to_nat (xres F)) (skipn (j * Z.to_nat (xres F)) (map_ F))), in_app_iff. left. assumption.
Qed.
End Written.

(** * Round trip *)

Lemma sequence_map {A B} (f : A -> option B) (l : list A) (r : list B) :
  map f l = map Some r -> sequence (map f l) = Some r.
Proof.
  intros ->. induction r as [|b r IH]; [reflexivity|]. simpl. rewrite IH. reflexivity.
Qed.

Lemma sequence_some {A} (l : list (option A)) r : l = map Some r -> sequence l = Some r.
Proof. intros ->. induction r as [|b r IH]; [reflexivity|]. simpl. rewrite IH. reflexivity. Qed.

Lemma list_ext {A} (a b : list A) : (forall i, nth_error a i = nth_error b i) -> a = b.
Proof.
  revert b. induction a as [|x a IH]; intros b H.
  - destruct b as [|y b]; [reflexivity|]. specialize (H 0%nat). discriminate.
  - destruct b as [|y b]; [specialize (H 0%nat); discriminate|].
    pose proof (H 0%nat) as H0. injection H0 as ->. f_equal. apply IH. intros i. apply (H (S i)).
Qed.

Lemma of_to_Z_f32 z : 1 < z <= 2 ^ 24 ->
  let N := f32_of_word (word_of_f32 (f32_ofZ z)) in
  is_finite N = true /\ Bleb N (f32_ofZ 1) = false /\ integral N = true /\ Btrunc N = z.
Proof.
  intros Hz. cbv zeta. rewrite f32_of_word_of_f32.
  destruct (f32_ofZ_R z) as (E & Fz); [lia|]. destruct (f32_ofZ_R 1) as (E1 & F1); [lia|].
  assert (T : Btrunc (f32_ofZ z) = z).
  { apply eq_IZR. rewrite Btrunc_correct by reflexivity. rewrite E.
    unfold round, scaled_mantissa, cexp, FIX_exp, F2R. simpl. rewrite !Rmult_1_r. f_equal. apply Ztrunc_IZR. }
  split; [assumption|]. split; [|split; [|exact T]].
  - apply not_true_iff_false. intros H. apply leb32 in H; try assumption. rewrite E, E1 in H.
    apply le_IZR in H. lia.
  - unfold integral. rewrite T. apply eqb32; auto.
Qed.

(** The spacing check of the parser, on the written grid. *)
Definition spacing_ok (F : field) : bool :=
  negb (bad_spacing (f32_sub (node (xmin F) (dxdy F) 1) (node (xmin F) (dxdy F) 0))
                    (f32_sub (node (ymin F) (dxdy F) 1) (node (ymin F) (dxdy F) 0))).

Lemma size_quot X Y : 0 < X -> (4 * (X * Y)) / 4 / X - 1 = Y - 1.
Proof. intros H. rewrite Z.mul_comm, Z.div_mul by lia. rewrite Z.mul_comm, Z.div_mul by lia. reflexivity. Qed.

Lemma round_trip F : wf_field F -> xres F <= 2 ^ 24 -> (xres F + 1) * (yres F + 1) <= 2 ^ 30 ->
  spacing_ok F = true ->
  parse (write F) = Parsed (mkField (node (xmin F) (dxdy F) 0) (node (ymin F) (dxdy F) 0)
    (f32_sub (node (xmin F) (dxdy F) 1) (node (xmin F) (dxdy F) 0)) (xres F) (yres F) (map_ F)).
Proof.
  intros WF Hx24 Hbig Hsp.
  pose proof WF as (Hx & Hy & Hl & Hm).
  pose proof (words_range F WF) as WR.
  pose proof (words_length F WF) as WL.
  set (X := Z.to_nat (xres F)) in *. set (Y := Z.to_nat (yres F)) in *.
  assert (EX : xres F = Z.of_nat X) by (unfold X; lia).
  assert (EY : yres F = Z.of_nat Y) by (unfold Y; lia).
  assert (ESIZE : Z.of_nat (length (write F)) = 4 * ((xres F + 1) * (yres F + 1))).
  { unfold write. rewrite length_bytes, WL. lia. }
  assert (D : forall k, 0 <= k -> data (write F) k = nth_error (words F) (Z.to_nat k)).
  { intros k Hk. apply data_words; assumption. }
  assert (HXY : 9 <= (xres F + 1) * (yres F + 1)) by nia.
  unfold parse. rewrite ESIZE.
  replace (4 * ((xres F + 1) * (yres F + 1)) mod 4) with 0
    by (rewrite Z.mul_comm, Z.mod_mul; lia).
  replace (4 * ((xres F + 1) * (yres F + 1)) <? 36) with false by (symmetry; apply Z.ltb_ge; lia).
  replace (2 ^ 32 <? 4 * ((xres F + 1) * (yres F + 1))) with false by (symmetry; apply Z.ltb_ge; lia).
  cbn [Z.eqb negb]. rewrite (D 0) by lia. cbn [Z.to_nat]. rewrite words_head.
  destruct (of_to_Z_f32 (xres F)) as (A1 & A2 & A3 & A4); [lia|].
  cbv zeta. rewrite A1, A2, A3, A4. cbn [negb orb].
  replace (2 ^ 31 <=? xres F) with false by (symmetry; apply Z.leb_gt; lia).
  rewrite size_quot by lia.
  replace (yres F + 1 - 1) with (yres F) by lia.
  replace (4 * ((xres F + 1) * (yres F + 1)) =? 4 * (xres F + 1) * (yres F + 1)) with true
    by (symmetry; apply Z.eqb_eq; ring).
  cbn [negb].
  rewrite (D 1), (D 2), (D (2 * (xres F + 1))), (D (xres F + 1)) by lia.
  replace (Z.to_nat 1) with 1%nat by reflexivity. replace (Z.to_nat 2) with 2%nat by reflexivity.
  rewrite (words_x F 0), (words_x F 1) by (fold X; lia).
  replace (Z.to_nat (2 * (xres F + 1))) with ((1 + 1) * (X + 1))%nat by lia.
  replace (Z.to_nat (xres F + 1)) with ((0 + 1) * (X + 1))%nat by lia.
  unfold X at 1 2. rewrite !(words_y F WF) by (fold Y; lia). fold X.
  rewrite !f32_of_word_of_f32.
  unfold spacing_ok in Hsp. apply negb_true_iff in Hsp. rewrite Hsp.
  rewrite (sequence_some _ (map_ F)); [reflexivity|].
  apply list_ext. intros k.
  set (W := fun yj : nat => map (fun xi : nat => data (write F) ((Z.of_nat yj + 1) * (xres F + 1) + (Z.of_nat xi + 1))) (zseq (xres F))).
  assert (WLEN : forall j, length (W j) = X) by (intros j; unfold W, zseq; rewrite map_length, seq_length; reflexivity).
  destruct (le_lt_dec (Y * X) k) as [Big|Small].
  - assert (N1 : nth_error (flat_map W (zseq (yres F))) k = None).
    { apply nth_error_None. unfold zseq. rewrite (length_blocks W X); [fold Y; lia|auto]. }
    rewrite N1. symmetry. apply nth_error_None. rewrite map_length. nia.
  - assert (HX0 : (X <> 0)%nat) by lia.
    rewrite (Nat.div_mod k X HX0). rewrite (Nat.mul_comm X).
    assert (HJ : (k / X < Y)%nat) by (apply Nat.div_lt_upper_bound; lia).
    assert (HI : (k mod X < X)%nat) by (apply Nat.mod_upper_bound; lia).
    set (j := (k / X)%nat) in *. set (i := (k mod X)%nat) in *.
    unfold zseq. rewrite (nth_blocks W X); [|auto|fold Y; assumption|assumption]. cbn [plus].
    unfold W, zseq. rewrite nth_error_map, (nth_error_nth' _ 0%nat) by (rewrite seq_length; assumption).
    rewrite seq_nth by assumption. cbn [option_map plus].
    rewrite D by nia.
    replace (Z.to_nat ((Z.of_nat j + 1) * (xres F + 1) + (Z.of_nat i + 1)))
      with ((j + 1) * (X + 1) + (i + 1))%nat by nia.
    unfold X at 1. rewrite (words_value F WF) by assumption. fold X.
    rewrite nth_error_map. destruct (nth_error (map_ F) (j * X + i)) eqn:E; [reflexivity|].
    apply nth_error_None in E. nia.
Qed.
