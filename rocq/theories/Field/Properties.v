(** Properties C33-C35, C50: fields. *)

From Coq Require Import ZArith Bool List Lia Arith Reals Lra Permutation Sorted.
From Flocq Require Import Core.Core IEEE754.BinarySingleNaN.
From Verif.Base Require Import Num F64 F32 Bytes.
From Verif.Field Require Import Model Spec Proofs ProofsMore.
Import ListNotations.
Local Open Scope Z_scope.

Definition fw (z : Z) : Z := word_of_f32 (f32_ofZ z).

Lemma ltb32_false (x y : f32) : is_finite x = true -> is_finite y = true ->
  Bltb x y = false -> (B2R y <= B2R x)%R.
Proof.
  intros Hx Hy E. destruct (Rle_or_lt (B2R y) (B2R x)) as [H|H]; [assumption|].
  apply (ltb32 x y Hx Hy) in H. congruence.
Qed.

(** * C33 *)

(** The written string is read back with the same resolution and the same bits
    at every node, for fields whose corner is within 4096 steps of the origin.
    Missing: fields farther away, which the spacing check may reject (next
    theorem), and more than 2^24 columns or 2^30 words. *)
Theorem C33_round_trip_partial : forall F,
  wf_field F -> xres F <= 2 ^ 24 -> (xres F + 1) * (yres F + 1) <= 2 ^ 30 ->
  is_finite (xmin F) = true -> is_finite (ymin F) = true -> is_finite (dxdy F) = true ->
  (bpow radix2 (-100) <= B2R (dxdy F) <= bpow radix2 100)%R ->
  (Rabs (B2R (xmin F)) <= 4096 * B2R (dxdy F))%R -> (Rabs (B2R (ymin F)) <= 4096 * B2R (dxdy F))%R ->
  exists F', parse (write F) = Parsed F' /\ xres F' = xres F /\ yres F' = yres F /\
    forall xi yj, 0 <= xi < xres F -> 0 <= yj < yres F ->
      at_ F' xi yj = at_ F xi yj /\ at_ F xi yj <> None.
Proof.
  intros F WF H1 H2 Fx Fy Fd HD Hx Hy.
  rewrite (round_trip F WF H1 H2 (spacing_near F Fx Fy Fd HD Hx Hy)).
  eexists. split; [reflexivity|]. split; [reflexivity|]. split; [reflexivity|].
  intros xi yj Hi Hj. split; [reflexivity|]. destruct WF as (_ & _ & HL & _).
  unfold at_. replace (0 <=? yj * xres F + xi) with true by (symmetry; apply Z.leb_le; nia).
  apply nth_error_Some. nia.
Qed.
Print Assumptions C33_round_trip_partial.

(** Values with NaN bits 0x7fc12345 survive. *)
Definition sample : field :=
  mkField (f32_ofZ (-3)) (f32_ofZ 5) (f32_div (f32_ofZ 1) (f32_ofZ 4)) 3 2
    [fw 1; 2143363909; fw 3; fw 4; fw 5; fw 0].
Example C33_case :
  match parse (write sample) with
  | Parsed F => (xres F, yres F, map_ F) = (3, 2, map_ sample) /\ at_ F 1 0 = Some 2143363909
  | _ => False
  end.
Proof. vm_compute. split; reflexivity. Qed.
Example C33_case_hyps : wf_field sample /\
  (Rabs (B2R (xmin sample)) <= 4096 * B2R (dxdy sample))%R.
Proof.
  split.
  - assert (R : forall z, 0 <= fw z < 2 ^ 32) by (intros z; apply word_of_f32_range).
    unfold wf_field, sample; cbn [xres yres map_ length].
    split; [lia|]. split; [lia|]. split; [reflexivity|].
    repeat (constructor; [apply R || lia|]). constructor.
  - unfold sample; cbn [xmin dxdy].
    assert (A : B2R (f32_ofZ (-3)) = (-3)%R) by (destruct (f32_ofZ_R (-3)); [lia|assumption]).
    assert (S : B2SF (f32_div (f32_ofZ 1) (f32_ofZ 4)) = SpecFloat.S754_finite false 8388608 (-25)) by (vm_compute; reflexivity).
    assert (B : B2R (f32_div (f32_ofZ 1) (f32_ofZ 4)) = (/ 4)%R).
    { rewrite <- SF2R_B2SF, S. unfold SF2R, F2R. simpl. lra. }
    rewrite A, B, Rabs_left by lra. lra.
Qed.

(** A field that cannot be read back: its corner is 2^24 steps away, so the
    first two written coordinates coincide. *)
Theorem C33_round_trip_refuted :
  exists F, wf_field F /\ is_finite (xmin F) = true /\ is_finite (ymin F) = true /\ B2R (dxdy F) = 1%R /\
    parse (write F) = Thrown.
Proof.
  exists (mkField (f32_ofZ (2 ^ 24)) (f32_ofZ 0) (f32_ofZ 1) 2 2 [fw 1; fw 2; fw 3; fw 4]).
  split; [|split; [|split; [|split]]].
  - assert (R : forall z, 0 <= fw z < 2 ^ 32) by (intros z; apply word_of_f32_range).
    unfold wf_field; cbn [xres yres map_ length]. split; [lia|]. split; [lia|]. split; [reflexivity|].
    repeat (constructor; [apply R|]). constructor.
  - vm_compute. reflexivity.
  - vm_compute. reflexivity.
  - apply f32_ofZ_R. lia.
  - vm_compute. reflexivity.
Qed.
Print Assumptions C33_round_trip_refuted.

(** * C34 *)

(** A string of 40 bytes (4 columns, 1 row) passes all checks made before the
    read of data[10], which is past its end. *)
Theorem C34_reads_inside_refuted :
  exists s, Forall (fun b => 0 <= b < 256) s /\ parse s = OutOfRange.
Proof.
  exists (flat_map bytes_of_word [fw 4; fw 0; fw 1; fw 2; fw 3; fw 0; fw 7; fw 7; fw 7; fw 7]).
  split; [|vm_compute; reflexivity].
  rewrite Forall_forall. intros b Hb. apply in_flat_map in Hb as (w & _ & Hb).
  unfold bytes_of_word in Hb. simpl in Hb.
  destruct Hb as [<-|[<-|[<-|[<-|[]]]]]; apply Z.mod_pos_bound; lia.
Qed.
Print Assumptions C34_reads_inside_refuted.

(** A header of 2^31 makes the conversion of N to int undefined. *)
Theorem C34_bad_cast_refuted : exists s, Forall (fun b => 0 <= b < 256) s /\ parse s = BadCast.
Proof.
  exists (flat_map bytes_of_word [fw (2 ^ 31); 0; 0; 0; 0; 0; 0; 0; 0]).
  split; [|vm_compute; reflexivity].
  rewrite Forall_forall. intros b Hb. apply in_flat_map in Hb as (w & _ & Hb).
  unfold bytes_of_word in Hb. simpl in Hb.
  destruct Hb as [<-|[<-|[<-|[<-|[]]]]]; apply Z.mod_pos_bound; lia.
Qed.
Print Assumptions C34_bad_cast_refuted.

(** No read is outside the string when it is long enough for two rows of the
    width in its header. Missing: shorter strings, see above. *)
Theorem C34_reads_inside_partial : forall s,
  (forall w, data s 0 = Some w -> Z.of_nat (length s) >= 4 * 3 * (Btrunc (f32_of_word w) + 1)) ->
  parse s <> OutOfRange.
Proof. exact parse_in_range. Qed.
Print Assumptions C34_reads_inside_partial.
Example C34_case :
  match parse (firstn 40 (write sample)) with Thrown => true | _ => false end = true /\
  match parse (write sample) with Parsed _ => true | _ => false end = true.
Proof. vm_compute. split; reflexivity. Qed.

(** * C35 *)

(** The rank is the floor of the product n*q rounded to float; when it is not 0
    the answer is the element of that rank. Missing: rank 0 (next theorem),
    fields over 2^24 values, and NaN values, for which std::partial_sort
    promises nothing. *)
Theorem C35_order_statistic_partial : forall ps, partial_sort_contract ps ->
  forall (values : list f32) (p : f32),
  Forall (fun x => is_finite x = true) values -> (length values <= Z.to_nat (2 ^ 24))%nat ->
  is_finite p = true -> (0 < B2R p < 1)%R ->
  let v : list f32 := filter (fun x => negb (Beqb x (f32_ofZ 0))) values in
  let q : f32 := if Bltb p half then p else f32_sub (f32_ofZ 1) p in
  let N := Zfloor (rnd32 (IZR (Z.of_nat (length v)) * B2R q)) in
  0 < N ->
  exists x, percentile ps values p = PValue x /\
    ((B2R p < / 2)%R -> kth_smallest (Z.to_nat N) v x) /\
    ((/ 2 <= B2R p)%R -> kth_largest (Z.to_nat N) v x).
Proof.
  intros ps PS values p Fv Lv Fp Hp v q N HN.
  assert (Lf : (length v <= length values)%nat).
  { unfold v. clear. induction values as [|a l IH]; cbn [filter length]; [lia|]. destruct (negb _); cbn [length]; lia. }
  assert (Fv' : Forall (fun x => is_finite x = true) v).
  { unfold v. rewrite Forall_forall in *. intros x Hx. apply filter_In in Hx as (Hx & _). auto. }
  destruct (f32_ofZ_R 0) as (Z0 & FZ0); [lia|]. destruct (f32_ofZ_R 1) as (Z1 & FZ1); [lia|].
  assert (Hh : is_finite half = true /\ B2R half = (/ 2)%R).
  { assert (S : B2SF half = SpecFloat.S754_finite false 8388608 (-24)) by (vm_compute; reflexivity).
    split; [rewrite <- is_finite_SF_B2SF, S; reflexivity|].
    rewrite <- SF2R_B2SF, S. unfold SF2R, F2R. simpl. lra. }
  destruct Hh as (Fh & Eh).
  assert (Hq : is_finite q = true /\ (0 <= B2R q <= 1)%R).
  { unfold q. destruct (Bltb p half); [split; [assumption|lra]|].
    destruct (f32_sub_R (f32_ofZ 1) p 1 FZ1 Fp) as (Eq & Fq).
    { rewrite Z1. simpl. apply Rabs_le. lra. } { lia. }
    split; [assumption|]. rewrite Eq, Z1. split.
    - rewrite <- (rnd32_Z 0) by lia. apply rnd32_le; lra.
    - rewrite <- (rnd32_Z 1) at 2 by lia. apply rnd32_le; lra. }
  destruct Hq as (Fq & Bq).
  assert (NL : Z.of_nat (length v) <= 2 ^ 24) by lia.
  destruct (f32_ofZ_R (Z.of_nat (length v))) as (En & Fn); [lia|].
  assert (POS : (0 <= IZR (Z.of_nat (length v)))%R) by (apply IZR_le; lia).
  assert (UP : (IZR (Z.of_nat (length v)) <= bpow radix2 24)%R).
  { apply (IZR_le _ (2 ^ 24)). assumption. }
  destruct (f32_mul_R (f32_ofZ (Z.of_nat (length v))) q 24 Fn Fq) as (Em & Fm).
  { rewrite En. rewrite Rabs_pos_eq by nra. nra. } { lia. }
  assert (RK : rank (length v) q = N).
  { unfold rank, N. rewrite <- En, <- Em.
    assert (T : Btrunc (f32_mul (f32_ofZ (Z.of_nat (length v))) q) = Ztrunc (B2R (f32_mul (f32_ofZ (Z.of_nat (length v))) q))).
    { apply eq_IZR. rewrite Btrunc_correct by reflexivity.
      unfold round, scaled_mantissa, cexp, FIX_exp, F2R. simpl. rewrite !Rmult_1_r. reflexivity. }
    rewrite T. apply Ztrunc_floor. rewrite Em, En. rewrite <- (rnd32_Z 0) by lia.
    apply rnd32_le; nra. }
  assert (NN : N <= Z.of_nat (length v)).
  { unfold N. apply le_IZR. eapply Rle_trans; [apply Zfloor_lb|].
    rewrite <- (rnd32_Z (Z.of_nat (length v))) at 2 by lia. apply rnd32_le; nra. }
  unfold percentile.
  replace (Bltb (f32_ofZ 0) p) with true by (symmetry; apply ltb32; auto; rewrite Z0; lra).
  replace (Bltb p (f32_ofZ 1)) with true by (symmetry; apply ltb32; auto; rewrite Z1; lra).
  cbn [andb negb]. assert (VE : filter nonzero values = v) by reflexivity.
  rewrite VE. clearbody v. clear VE. destruct (Bltb p half) eqn:EH; unfold q in RK; clearbody N; clear q Fq Bq Fm Em; cbv beta iota zeta; rewrite RK;
    (replace (N =? 0) with false by (symmetry; apply Z.eqb_neq; lia)).
  - destruct (PS lt (Z.to_nat N) v) as (Perm & _); [lia| |].
    { intros a b c Ha Hb Hc. rewrite Forall_forall in Fv'. apply Fv' in Ha, Hb, Hc. unfold lt. repeat split.
      - apply not_true_iff_false. intros K. apply ltb32 in K; auto. lra.
      - intros K1 K2. apply ltb32 in K1; auto. apply ltb32 in K2; auto. apply ltb32; auto. lra.
      - intros K1 K2. apply ltb32_false in K1; auto. apply ltb32_false in K2; auto.
        apply not_true_iff_false. intros K. apply ltb32 in K; auto. lra. }
    destruct (nth_error (ps lt (Z.to_nat N) v) (Z.to_nat N - 1)) as [x|] eqn:E.
    + exists x. split; [reflexivity|]. split.
      * intros _. eapply kth_lt; try eassumption. lia.
      * intros K. apply ltb32 in EH; auto. lra.
    + apply nth_error_None in E. apply Permutation_length in Perm. lia.
  - destruct (PS gt (Z.to_nat N) v) as (Perm & _); [lia| |].
    { intros a b c Ha Hb Hc. rewrite Forall_forall in Fv'. apply Fv' in Ha, Hb, Hc. unfold gt. repeat split.
      - apply not_true_iff_false. intros K. apply ltb32 in K; auto. lra.
      - intros K1 K2. apply ltb32 in K1; auto. apply ltb32 in K2; auto. apply ltb32; auto. lra.
      - intros K1 K2. apply ltb32_false in K1; auto. apply ltb32_false in K2; auto.
        apply not_true_iff_false. intros K. apply ltb32 in K; auto. lra. }
    destruct (nth_error (ps gt (Z.to_nat N) v) (Z.to_nat N - 1)) as [x|] eqn:E.
    + exists x. split; [reflexivity|]. split.
      * intros K. apply ltb32_false in EH; auto. rewrite Eh in EH. lra.
      * intros _. eapply kth_gt; try eassumption. lia.
    + apply nth_error_None in E. apply Permutation_length in Perm. lia.
Qed.
Print Assumptions C35_order_statistic_partial.

(** A sort that meets the contract, so that the hypothesis is not empty. *)
Fixpoint insert (cmp : f32 -> f32 -> bool) (x : f32) (l : list f32) : list f32 :=
  match l with
  | [] => [x]
  | y :: t => if cmp x y then x :: l else y :: insert cmp x t
  end.
Definition isort (cmp : f32 -> f32 -> bool) (n : nat) (l : list f32) : list f32 :=
  fold_right (insert cmp) [] l.

Example C35_contract_met : partial_sort_contract isort.
Proof.
  intros cmp n v _ Hcmp. unfold isort.
  assert (PI : forall x l, Permutation (x :: l) (insert cmp x l)).
  { intros x l. induction l as [|y l IH]; simpl; [reflexivity|].
    destruct (cmp x y); [reflexivity|]. rewrite perm_swap. constructor. assumption. }
  assert (PF : forall l, Permutation l (fold_right (insert cmp) [] l)).
  { induction l as [|x l IH]; simpl; [reflexivity|]. rewrite <- PI. constructor. assumption. }
  split; [apply PF|].
  assert (ST : forall l, incl l v -> StronglySorted (fun a b => cmp b a = false) (fold_right (insert cmp) [] l)).
  { induction l as [|x l IH]; intros Hl; simpl; [constructor|].
    assert (Hx : In x v) by (apply Hl; left; reflexivity).
    assert (IH' : StronglySorted (fun a b => cmp b a = false) (fold_right (insert cmp) [] l))
      by (apply IH; intros a Ha; apply Hl; right; assumption).
    assert (Hin : incl (fold_right (insert cmp) [] l) v).
    { intros a Ha. apply Hl. right. apply Permutation_in with (fold_right (insert cmp) [] l); [symmetry; apply PF|assumption]. }
    clear IH. induction IH' as [|y t Ht IHt Hy]; simpl; [repeat constructor|].
    assert (Hyv : In y v) by (apply Hin; left; reflexivity).
    assert (Htv : incl t v) by (intros a Ha; apply Hin; right; assumption).
    destruct (cmp x y) eqn:E.
    - constructor; [constructor; assumption|]. constructor.
      + destruct (cmp y x) eqn:E2; [|reflexivity].
        destruct (Hcmp x y x Hx Hyv Hx) as (A & B & _). rewrite (B E E2) in A. discriminate.
      + rewrite Forall_forall in *. intros a Ha. specialize (Hy a Ha).
        destruct (cmp a x) eqn:E2; [|reflexivity].
        destruct (Hcmp a x y (Htv a Ha) Hx Hyv) as (_ & B & _). rewrite (B E2 E) in Hy. discriminate.
    - constructor; [apply IHt; assumption|].
      rewrite Forall_forall in *. intros a Ha.
      apply Permutation_in with (l' := x :: t) in Ha; [|symmetry; apply PI].
      destruct Ha as [<-|Ha]; [assumption|auto]. }
  intros i j a b Hij _ Ha Hb. specialize (ST v (fun _ H => H)).
  revert i j Hij Ha Hb. induction ST as [|y t Ht IHt Hy]; intros i j Hij Ha Hb.
  - destruct i; discriminate.
  - destruct j as [|j]; [lia|]. destruct i as [|i].
    + injection Ha as <-. rewrite Forall_forall in Hy. apply Hy. eapply nth_error_In; exact Hb.
    + apply (IHt i j); [lia|exact Ha|exact Hb].
Qed.

Definition five := f32_div (f32_ofZ 1) (f32_ofZ 5).
Example C35_case :
  match percentile isort (map f32_ofZ [5; 0; 3; 9; 0; 7; 1; 8; 2; 6; 4; 10]) (f32_div (f32_ofZ 3) (f32_ofZ 10)) with
  | PValue x => B2SF x = B2SF (f32_ofZ 3)
  | _ => False
  end /\
  match percentile isort (map f32_ofZ [5; 0; 3; 9; 0; 7; 1; 8; 2; 6; 4; 10]) (f32_div (f32_ofZ 3) (f32_ofZ 4)) with
  | PValue x => B2SF x = B2SF (f32_ofZ 9)
  | _ => False
  end.
Proof. vm_compute. split; reflexivity. Qed.

(** With four values and p = 1/5 the rank is 0 and the code reads v[-1]. *)
Theorem C35_defined_refuted :
  exists values p, (0 < B2R p < 1)%R /\ length values = 4%nat /\
    forall ps, percentile ps values p = PUndefined.
Proof.
  exists (map f32_ofZ [1; 2; 3; 4]), five. split; [|split; [reflexivity|]].
  - assert (S : B2SF five = SpecFloat.S754_finite false 13421773 (-26)) by (vm_compute; reflexivity).
    assert (E : B2R five = (13421773 / 67108864)%R).
    { rewrite <- SF2R_B2SF, S. unfold SF2R, F2R. simpl. lra. }
    rewrite E. lra.
  - intros ps. unfold percentile.
    replace (negb (Bltb (f32_ofZ 0) five && Bltb five (f32_ofZ 1))) with false by (vm_compute; reflexivity).
    replace (Bltb five half) with true by (vm_compute; reflexivity). cbv zeta.
    replace (rank (length (filter nonzero (map f32_ofZ [1; 2; 3; 4]))) five) with 0 by (vm_compute; reflexivity).
    reflexivity.
Qed.
Print Assumptions C35_defined_refuted.

(** * C50 *)

(** Missing: fields with NaN values, see the next theorem. *)
Theorem C50_bounds_partial : forall values m M,
  Forall (fun x => is_finite x = true) values ->
  field_min values = Some m -> field_max values = Some M ->
  In m values /\ In M values /\
  forall x, In x values -> (B2R m <= B2R x <= B2R M)%R.
Proof.
  intros values m M Fv Hm HM. destruct values as [|a l]; [discriminate|].
  injection Hm as <-. injection HM as <-. inversion Fv; subst.
  destruct (min_element_spec l a) as (A & B); try assumption.
  destruct (max_element_spec l a) as (C & D); try assumption.
  split; [assumption|]. split; [assumption|]. intros x Hx.
  rewrite Forall_forall in Fv.
  split; apply leb32; auto.
Qed.
Print Assumptions C50_bounds_partial.
Example C50_case :
  option_map B2SF (field_min (map f32_ofZ [3; -7; 5])) = Some (B2SF (f32_ofZ (-7))) /\
  option_map B2SF (field_max (map f32_ofZ [3; -7; 5])) = Some (B2SF (f32_ofZ 5)).
Proof. vm_compute. split; reflexivity. Qed.

(** A NaN in the first node hides all other values. *)
Theorem C50_nan_refuted :
  exists values m x, field_min values = Some m /\ In x values /\ is_finite x = true /\ is_nan m = true.
Proof.
  exists [B754_nan; f32_ofZ 1], B754_nan, (f32_ofZ 1). repeat split. right; left; reflexivity.
Qed.
Print Assumptions C50_nan_refuted.
