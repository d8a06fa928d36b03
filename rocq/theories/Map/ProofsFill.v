(** The loops over the nodes. *)

From Coq Require Import List ZArith Bool Arith Lia Permutation.
From Verif.Base Require Import Num.
From Verif.Body Require Import Model.
From Verif.Vortex Require Import Model.
From Verif.Map Require Import Model Spec ProofsCut.
Import ListNotations.

Lemma set_nth_length : forall {A} n (a : A) l, length (set_nth n a l) = length l.
Proof. intros A n. induction n as [| n IH]; intros a [| b l]; cbn [set_nth length]; try reflexivity. rewrite IH. reflexivity. Qed.
Lemma set_nth_same : forall {A} n (a : A) l, n < length l -> nth_error (set_nth n a l) n = Some a.
Proof. intros A n. induction n as [| n IH]; intros a [| b l] H; cbn in *; try lia; [reflexivity |]. apply IH. lia. Qed.
Lemma set_nth_other : forall {A} n m (a : A) l, n <> m -> nth_error (set_nth n a l) m = nth_error l m.
Proof. intros A n. induction n as [| n IH]; intros [| m] a [| b l] H; cbn; try reflexivity; try lia. apply IH. lia. Qed.

Lemma fill_length : forall {A} (value : nat -> nat -> A) xres order m, length (fill value xres order m) = length m.
Proof.
  intros A value xres order. unfold fill. induction order as [| n order IH]; intro m; cbn [fold_left]; [reflexivity |].
  rewrite IH. apply set_nth_length.
Qed.
Lemma place_inj : forall xres i j k l, i < xres -> k < xres -> place xres i j = place xres k l -> i = k /\ j = l.
Proof. intros xres i j k l Hi Hk E. unfold place in E. assert (j = l) by nia. subst. lia. Qed.

Lemma fill_keeps : forall {A} (value : nat -> nat -> A) xres order m i j, i < xres ->
  (forall n, In n order -> fst n < xres) -> ~ In (i, j) order ->
  nth_error (fill value xres order m) (place xres i j) = nth_error m (place xres i j).
Proof.
  intros A value xres order. unfold fill. induction order as [| [k l] order IH]; intros m i j Hi B N; cbn [fold_left fst snd]; [reflexivity |].
  rewrite IH; [| exact Hi | intros; apply B; right; assumption | intro; apply N; right; assumption].
  apply set_nth_other. intro E. apply N. left.
  destruct (place_inj xres k l i j) as [-> ->]; [apply (B (k, l)); left; reflexivity | exact Hi | exact E | reflexivity].
Qed.
Lemma fill_sets : forall {A} (value : nat -> nat -> A) xres order m i j, i < xres -> place xres i j < length m ->
  (forall n, In n order -> fst n < xres) -> In (i, j) order ->
  nth_error (fill value xres order m) (place xres i j) = Some (value i j).
Proof.
  intros A value xres order. induction order as [| [k l] order IH]; intros m i j Hi Hl B I; [contradiction |].
  unfold fill. cbn [fold_left fst snd]. fold (fill value xres order (set_nth (place xres k l) (value k l) m)).
  assert (B' : forall n, In n order -> fst n < xres) by (intros; apply B; right; assumption).
  destruct (in_dec (fun a b : nat * nat => ltac:(decide equality; apply Nat.eq_dec)) (i, j) order) as [H | H].
  - apply IH; [exact Hi | rewrite set_nth_length; exact Hl | exact B' | exact H].
  - rewrite fill_keeps by assumption. destruct I as [E | I]; [| contradiction].
    assert (k = i) by congruence. assert (l = j) by congruence. subst k l. apply set_nth_same. exact Hl.
Qed.

Lemma fill_values : forall {A} (value : nat -> nat -> A) xres yres order m,
  all_nodes xres yres order -> length m = xres * yres -> holds_values value xres yres (fill value xres order m).
Proof.
  intros A value xres yres order m All L i j Hi Hj. change (j * xres + i) with (place xres i j).
  assert (In_ : forall a b, In (a, b) order <-> a < xres /\ b < yres).
  { intros a b. split.
    - intro H. apply (Permutation_in _ All) in H. apply in_prod_iff in H. rewrite !in_seq in H. lia.
    - intro H. apply (Permutation_in _ (Permutation_sym All)). apply in_prod_iff. rewrite !in_seq. lia. }
  apply fill_sets.
  - exact Hi.
  - rewrite L. unfold place. nia.
  - intros [a b] H. apply In_ in H. cbn. lia.
  - apply In_. lia.
Qed.
