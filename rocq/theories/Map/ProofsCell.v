(** The corrected corners of a cell. *)

From Coq Require Import List Reals ZArith Lra Psatz Bool Arith Lia Permutation.
From Verif.Base Require Import Num.
From Verif.Body Require Import Model.
From Verif.Vortex Require Import Model.
From Verif.Map Require Import Model Spec ProofsAngle ProofsStream ProofsFlow ProofsCut.
Import ListNotations.
Local Open Scope R_scope.

Section C.
Variable f : R -> R -> R.
Hypothesis P : principal f.
Variables (tiny10 i4 : R) (S : rspace) (e : R) (ref : rvec).
Variables nearp farp : rvec -> list rpart.
Notation psiS S p := (psi (K := RNum) ln f tiny10 i4 (/ (2 * PI)) S e ref (nearp p) (farp p) p).

Definition angle_of (p : rvec) (s : rpart) : R := f (y p - y (pr s)) (x p - x (pr s)).

Lemma psi_split : forall p, psiS S p = psiS (without S) p + total (fun s : rpart => pg s * angle_of p s) (sources S) * / (2 * PI).
Proof.
  intro p. rewrite !psi_form. cbn [bodies sources flow without total]. rewrite Rplus_0_r.
  rewrite (total_ext (fun o => psi_q (K := RNum) f (vsub p (pr o)) (pg o)) (fun s : rpart => pg s * angle_of p s)) by (intros; reflexivity).
  rring.
Qed.

Variables (o : rvec) (step : R) (xres yres : nat) (order : list (nat * nat)).
Hypothesis Hstep : 0 < step.
Hypothesis All : all_nodes xres yres order.
Hypothesis Hx : (Z.of_nat xres <= 65536)%Z.
Hypothesis Hy : (Z.of_nat yres <= 65536)%Z.
Hypothesis Right : none_right o step xres yres (sources S).

Notation value := (fun i j => psiS S (point o step i j)).
Notation gaps := (gap_list (K := RNum) (sources S) o step order).

Lemma corners_form : forall i j, (j < yres)%nat ->
  cell_corners (K := RNum) value gaps i j =
  [value i j + total (fun s : rpart => if cut o step i j s then pg s else 0) (sources S);
   value i (Datatypes.S j); value (Datatypes.S i) (Datatypes.S j);
   value (Datatypes.S i) j + total (fun s : rpart => if cut o step (Datatypes.S i) j s then pg s else 0) (sources S);
   value i j + total (fun s : rpart => if cut o step (Datatypes.S i) j s then pg s else 0) (sources S)].
Proof.
  intros i j Hj. unfold cell_corners. cbv zeta. rewrite !shifted_total.
  rewrite (gaps_total o step xres yres (sources S) order Hstep All Hx Hy Right (fun k => Z.leb (Z.of_nat i) k) i j Hj).
  - rewrite (gaps_total o step xres yres (sources S) order Hstep All Hx Hy Right (fun k => Z.ltb (Z.of_nat i) k) (Datatypes.S i) j Hj); [reflexivity |].
    intros c _. destruct (Nat.leb_spec (Datatypes.S i) c), (Z.ltb_spec (Z.of_nat i) (Z.of_nat c)); lia || reflexivity.
  - intros c _. destruct (Nat.leb_spec i c), (Z.leb_spec (Z.of_nat i) (Z.of_nat c)); lia || reflexivity.
Qed.

Definition rel (p : rvec) (s : rpart) : rvec := V (x p - x (pr s)) (y p - y (pr s)).

Lemma not_on_vertical : forall (s : rpart) m j, ~ between (point o step m j) (point o step m (Datatypes.S j)) (pr s) ->
  ~ (x o + INR m * step - x (pr s) = 0 /\ y o + INR j * step - y (pr s) <= 0 <= y o + INR (Datatypes.S j) * step - y (pr s)).
Proof.
  intros s m j N [A B]. apply N. exists ((y (pr s) - (y o + INR j * step)) / step).
  unfold point. cbn [x y]. rewrite S_INR in *. change (T RNum) with R in *.
  set (t := y (pr s) - (y o + INR j * step)) in *.
  assert (T0 : 0 <= t) by (unfold t; lra). assert (T1 : t <= step) by (unfold t; lra).
  split; [split |].
  - apply Rmult_le_reg_r with step; [exact Hstep |]. unfold Rdiv. rewrite Rmult_assoc, Rinv_l by lra. lra.
  - apply Rmult_le_reg_r with step; [exact Hstep |]. unfold Rdiv. rewrite Rmult_assoc, Rinv_l by lra. lra.
  - split; [lra |]. replace (y o + (INR j + 1) * step - (y o + INR j * step)) with step by ring.
    unfold Rdiv. rewrite Rmult_assoc, Rinv_l by lra. unfold t. lra.
Qed.
Lemma not_on_side : forall (s : rpart) i m, ~ between (point o step i m) (point o step (Datatypes.S i) m) (pr s) ->
  ~ (y o + INR m * step - y (pr s) = 0 /\ x o + INR i * step - x (pr s) <= 0 <= x o + INR (Datatypes.S i) * step - x (pr s)).
Proof.
  intros s i m N [A B]. apply N. exists ((x (pr s) - (x o + INR i * step)) / step).
  unfold point. cbn [x y]. rewrite S_INR in *. change (T RNum) with R in *.
  set (t := x (pr s) - (x o + INR i * step)) in *.
  assert (T0 : 0 <= t) by (unfold t; lra). assert (T1 : t <= step) by (unfold t; lra).
  split; [split |].
  - apply Rmult_le_reg_r with step; [exact Hstep |]. unfold Rdiv. rewrite Rmult_assoc, Rinv_l by lra. lra.
  - apply Rmult_le_reg_r with step; [exact Hstep |]. unfold Rdiv. rewrite Rmult_assoc, Rinv_l by lra. lra.
  - split; [| lra]. replace (x o + (INR i + 1) * step - (x o + INR i * step)) with step by ring.
    unfold Rdiv. rewrite Rmult_assoc, Rinv_l by lra. unfold t. lra.
Qed.
Lemma between_sym : forall a b p, between a b p -> between b a p.
Proof. intros a b p [s [B [X Y]]]. exists (1 - s). change (T RNum) with R in *. split; [lra |]. split; [rewrite X | rewrite Y]; ring. Qed.

Lemma up_seen : forall (s : rpart) m j, ~ between (point o step m j) (point o step m (Datatypes.S j)) (pr s) ->
  seen (rel (point o step m j) s) (rel (point o step m (Datatypes.S j)) s)
    (angle_of (point o step m (Datatypes.S j)) s - angle_of (point o step m j) s - (if cut o step m j s then 2 * PI else 0)).
Proof.
  intros s m j N. unfold rel, angle_of, cut, point. cbn [x y].
  apply (seen_up f P); [rewrite S_INR; change (T RNum) with R in *; lra | apply not_on_vertical; exact N].
Qed.
Lemma side_seen : forall (s : rpart) i m, ~ between (point o step i m) (point o step (Datatypes.S i) m) (pr s) ->
  seen (rel (point o step i m) s) (rel (point o step (Datatypes.S i) m) s)
    (angle_of (point o step (Datatypes.S i) m) s - angle_of (point o step i m) s - 0).
Proof.
  intros s i m N. unfold rel, angle_of, point. cbn [x y].
  apply (seen_side f P); [rewrite S_INR; change (T RNum) with R in *; lra | apply not_on_side; exact N].
Qed.

Lemma cut_total : forall m j, total (fun s : rpart => if cut o step m j s then pg s else 0) (sources S)
  = total (fun s : rpart => pg s * (if cut o step m j s then 2 * PI else 0)) (sources S) * / (2 * PI).
Proof.
  intros m j. pose proof PI_RGT_0. rewrite <- total_scale. apply total_ext. intros s _.
  change (T RNum) with R. destruct (cut o step m j s); [symmetry; field; lra | rring].
Qed.
Lemma total_minus : forall {A} (g h : A -> R) l, total g l - total h l = total (fun a => g a - h a) l.
Proof. intros A g h l. induction l as [| a l IH]; cbn [total]; [ring | rewrite <- IH; ring]. Qed.

Lemma cell_edges : forall i j k a b u v, (j < yres)%nat ->
  nth_error (cell_points o step i j) k = Some a -> nth_error (cell_points o step i j) (Datatypes.S k) = Some b ->
  nth_error (cell_corners (K := RNum) value gaps i j) k = Some u ->
  nth_error (cell_corners (K := RNum) value gaps i j) (Datatypes.S k) = Some v ->
  (forall s, In s (sources S) -> ~ between a b (pr s)) ->
  exists t : rpart -> R,
    (forall s, In s (sources S) -> seen (vminus a (pr s)) (vminus b (pr s)) (t s)) /\
    v - u = psiS (without S) b - psiS (without S) a + total (fun s : rpart => pg s * t s) (sources S) / (2 * PI).
Proof.
  intros i j k a b u v Hj Ha Hb Hu Hv N. pose proof PI_RGT_0 as HPI.
  rewrite corners_form in Hu, Hv by exact Hj. unfold cell_points in Ha, Hb.
  destruct k as [| [| [| [| k]]]]; cbn [nth_error] in *.
  - assert (a = point o step i j) by congruence. assert (b = point o step i (Datatypes.S j)) by congruence. subst a b.
    exists (fun s => angle_of (point o step i (Datatypes.S j)) s - angle_of (point o step i j) s - (if cut o step i j s then 2 * PI else 0)).
    split; [intros s Hs; apply up_seen; apply N; exact Hs |].
    match type of Hu with Some ?z = _ => assert (Eu : u = z) by congruence end.
    match type of Hv with Some ?z = _ => assert (Ev : v = z) by congruence end.
    rewrite Eu, Ev, !(psi_split (point _ _ _ _)), cut_total.
    rewrite (total_ext (fun s : rpart => pg s * (angle_of (point o step i (Datatypes.S j)) s - angle_of (point o step i j) s - (if cut o step i j s then 2 * PI else 0)))
      (fun s : rpart => pg s * angle_of (point o step i (Datatypes.S j)) s - pg s * angle_of (point o step i j) s - pg s * (if cut o step i j s then 2 * PI else 0)))
      by (intros; rring).
    rewrite <- !total_minus. field. lra.
  - assert (a = point o step i (Datatypes.S j)) by congruence. assert (b = point o step (Datatypes.S i) (Datatypes.S j)) by congruence. subst a b.
    exists (fun s => angle_of (point o step (Datatypes.S i) (Datatypes.S j)) s - angle_of (point o step i (Datatypes.S j)) s - 0).
    split; [intros s Hs; apply side_seen; apply N; exact Hs |].
    match type of Hu with Some ?z = _ => assert (Eu : u = z) by congruence end.
    match type of Hv with Some ?z = _ => assert (Ev : v = z) by congruence end.
    rewrite Eu, Ev, !(psi_split (point _ _ _ _)).
    rewrite (total_ext (fun s : rpart => pg s * (angle_of (point o step (Datatypes.S i) (Datatypes.S j)) s - angle_of (point o step i (Datatypes.S j)) s - 0))
      (fun s : rpart => pg s * angle_of (point o step (Datatypes.S i) (Datatypes.S j)) s - pg s * angle_of (point o step i (Datatypes.S j)) s))
      by (intros; rring).
    rewrite <- !total_minus. field. lra.
  - assert (a = point o step (Datatypes.S i) (Datatypes.S j)) by congruence. assert (b = point o step (Datatypes.S i) j) by congruence. subst a b.
    exists (fun s => - (angle_of (point o step (Datatypes.S i) (Datatypes.S j)) s - angle_of (point o step (Datatypes.S i) j) s - (if cut o step (Datatypes.S i) j s then 2 * PI else 0))).
    split; [intros s Hs; apply seen_back; apply up_seen; intro B; apply (N s Hs); apply between_sym; exact B |].
    match type of Hu with Some ?z = _ => assert (Eu : u = z) by congruence end.
    match type of Hv with Some ?z = _ => assert (Ev : v = z) by congruence end.
    rewrite Eu, Ev, !(psi_split (point _ _ _ _)), cut_total.
    rewrite (total_ext (fun s : rpart => pg s * - (angle_of (point o step (Datatypes.S i) (Datatypes.S j)) s - angle_of (point o step (Datatypes.S i) j) s - (if cut o step (Datatypes.S i) j s then 2 * PI else 0)))
      (fun s : rpart => pg s * angle_of (point o step (Datatypes.S i) j) s - pg s * angle_of (point o step (Datatypes.S i) (Datatypes.S j)) s - pg s * - (if cut o step (Datatypes.S i) j s then 2 * PI else 0)))
      by (intros; rring).
    rewrite <- !total_minus.
    rewrite (total_ext (fun s : rpart => pg s * - (if cut o step (Datatypes.S i) j s then 2 * PI else 0)) (fun s : rpart => pg s * (if cut o step (Datatypes.S i) j s then 2 * PI else 0) * (-1)))
      by (intros; rring).
    rewrite total_scale. field. lra.
  - assert (a = point o step (Datatypes.S i) j) by congruence. assert (b = point o step i j) by congruence. subst a b.
    exists (fun s => - (angle_of (point o step (Datatypes.S i) j) s - angle_of (point o step i j) s - 0)).
    split; [intros s Hs; apply seen_back; apply side_seen; intro B; apply (N s Hs); apply between_sym; exact B |].
    match type of Hu with Some ?z = _ => assert (Eu : u = z) by congruence end.
    match type of Hv with Some ?z = _ => assert (Ev : v = z) by congruence end.
    rewrite Eu, Ev, !(psi_split (point _ _ _ _)).
    rewrite (total_ext (fun s : rpart => pg s * - (angle_of (point o step (Datatypes.S i) j) s - angle_of (point o step i j) s - 0))
      (fun s : rpart => pg s * angle_of (point o step i j) s - pg s * angle_of (point o step (Datatypes.S i) j) s))
      by (intros; rring).
    rewrite <- !total_minus. field. lra.
  - destruct k; discriminate.
Qed.

End C.
