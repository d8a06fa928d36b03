(** The shapes of the generated bodies over the reals. *)

From Coq Require Import ZArith Bool List String Reals Lia Lra Psatz.
From Flocq Require Import Core.Core.
From Verif.Base Require Import Num.
From Verif.Body Require Import Model Spec.
From Verif.Gen Require Import Model Spec ProofsCurve.
Import ListNotations.
Local Open Scope R_scope.

(** Operations of [RNum] as those of R. *)
Ltac rn := change (@nadd RNum) with Rplus in *; change (@nsub RNum) with Rminus in *; change (@nmul RNum) with Rmult in *;
  change (@ndiv RNum) with Rdiv in *; change (@nopp RNum) with Ropp in *; change (@nofZ RNum) with IZR in *;
  change (lpi Rlib) with PI in *; change (lcos Rlib) with cos in *; change (lsin Rlib) with sin in *;
  change (ltan Rlib) with tan in *; change (lasin Rlib) with asin in *; change (lacos Rlib) with acos in *; change (T RNum) with R in *.

Lemma cos_3PI2 : cos (3 * (PI / 2)) = 0.
Proof. replace (3 * (PI / 2)) with (PI / 2 + PI) by field. rewrite neg_cos, cos_PI2. ring. Qed.
Lemma sin_3PI2 : sin (3 * (PI / 2)) = -1.
Proof. replace (3 * (PI / 2)) with (PI / 2 + PI) by field. rewrite neg_sin, sin_PI2. ring. Qed.

Definition ends (p : rp) : pt :=
  match p with
  | Seg _ p2 _ _ => p2
  | Arc c r _ a _ _ | ArcN c r _ a _ _ => P (px c + r * cos a) (py c + r * sin a)
  end.
Definition begins (p : rp) : pt :=
  match p with
  | Seg p1 _ _ _ => p1
  | Arc c r a _ _ _ | ArcN c r a _ _ _ => P (px c + r * cos a) (py c + r * sin a)
  end.
Lemma along_1 p : along p 1 = ends p.
Proof.
  destruct p; cbn [along ends].
  - apply pt_eq; unfold P, px, py; cbn [x y]; rn; ring.
  - replace (a1 + 1 * (a2 - a1)) with (a2 : R) by (rn; ring). reflexivity.
  - replace (a1 + 1 * (a2 - a1)) with (a2 : R) by (rn; ring). reflexivity.
Qed.
Lemma along_0 p : along p 0 = begins p.
Proof.
  destruct p; cbn [along begins].
  - apply pt_eq; unfold P, px, py; cbn [x y]; rn; ring.
  - replace (a1 + 0 * (a2 - a1)) with (a1 : R) by (rn; ring). reflexivity.
  - replace (a1 + 0 * (a2 - a1)) with (a1 : R) by (rn; ring). reflexivity.
Qed.

Ltac trig := repeat first [rewrite cos_PI | rewrite sin_PI | rewrite cos_0 | rewrite sin_0 | rewrite cos_2PI | rewrite sin_2PI
  | rewrite cos_PI2 | rewrite sin_PI2 | rewrite cos_3PI2 | rewrite sin_3PI2 | rewrite cos_neg | rewrite sin_neg].

Ltac joints :=
  let p := fresh "p" in let q := fresh "q" in let I := fresh "I" in
  intros p q I; cbn [edges chain app] in I;
  repeat (destruct I as [I|I]; [injection I as <- <-|]); [..|destruct I];
  rewrite along_1, along_0; cbn [ends begins]; unfold V, twopi, P, px, py; cbn [x y]; rn.

Lemma cylinder_closed n d R : closed (cylinder_pieces Rlib n d R).
Proof. unfold closed, cylinder_pieces. destruct (nltb _ d); joints; trig; apply pt_eq; unfold px, py; cbn [x y]; rn; ring. Qed.

Lemma semicyl_closed n d R : closed (semicyl_pieces Rlib n d R).
Proof. unfold closed, semicyl_pieces. joints; trig; apply pt_eq; unfold px, py; cbn [x y]; rn; ring. Qed.

Lemma parallelogram_closed n d L H a : closed (parallelogram_pieces Rlib n d L H a).
Proof. unfold closed, parallelogram_pieces. joints; reflexivity. Qed.

Lemma savonius_closed n d R h : closed (savonius_pieces Rlib n d R h).
Proof. unfold closed, savonius_pieces. joints; trig; apply pt_eq; unfold px, py; cbn [x y]; rn; field. Qed.

Lemma box_closed dln dls L H D h d : closed (box_pieces Rlib dln dls L H D h d).
Proof.
  unfold closed, box_pieces. joints.
  all: repeat (replace (PI * 1 / 2) with (PI / 2) by field); repeat (replace (- PI * 1 / 2) with (- (PI / 2)) by field);
    repeat (replace (PI * 3 / 2) with (3 * (PI / 2)) by field); trig; apply pt_eq; unfold px, py; cbn [x y]; rn; field.
Qed.

Lemma gpj_closed dln dls R0 d X0 X1 X2 X3 L H : closed (gpj_pieces Rlib dln dls R0 d X0 X1 X2 X3 L H).
Proof.
  unfold closed, gpj_pieces. cbv zeta. joints.
  all: repeat (replace (PI * 1 / 2) with (PI / 2) by field);
    repeat (replace (PI * 3 / 2) with (3 * (PI / 2)) by field); trig; apply pt_eq; unfold px, py; cbn [x y]; rn; ring.
Qed.

Lemma plate_closed n d R1 R2 L start stop gap : closed (plate_pieces Rlib n d R1 R2 L start stop gap).
Proof.
  unfold closed, plate_pieces. cbv zeta. rn. set (phi := PI / 2 + asin ((R2 - R1) / L)).
  assert (C : cos (2 * PI - phi) = cos phi) by (rewrite cos_minus, cos_2PI, sin_2PI; ring).
  assert (S : sin (2 * PI - phi) = - sin phi) by (rewrite sin_minus, cos_2PI, sin_2PI; ring).
  destruct (@neqb RNum stop 1); joints; unfold vadd, vscale; cbn [x y]; rn; rewrite ?C, ?S; trig;
    apply pt_eq; unfold px, py; cbn [x y]; rn; ring.
Qed.

(** * Lengths of the edges *)

Lemma dist_sqr (p q : pt) v : 0 <= v -> (px q - px p) * (px q - px p) + (py q - py p) * (py q - py p) = v * v -> dist p q = v.
Proof. intros V E. unfold dist. rewrite E. apply sqrt_square, V. Qed.

Lemma dist_square (p q : pt) : dist p q * dist p q = (px q - px p) * (px q - px p) + (py q - py p) * (py q - py p).
Proof. unfold dist. apply sqrt_sqrt. generalize (px q - px p) (py q - py p). intros a b. nra. Qed.

Lemma seg_dist p1 p2 d s n e : (0 < n)%nat -> In e (cuts (Seg (K:=RNum) p1 p2 d s) n) -> dist (fst e) (snd e) = dist p1 p2 / INR n.
Proof.
  intros N I. apply in_map_iff in I as (i & <- & _). cbn [fst snd].
  assert (D : 0 < INR n) by (apply lt_0_INR; lia).
  apply dist_sqr; [apply Rmult_le_pos; [apply sqrt_pos|left; apply Rinv_0_lt_compat, D]|].
  cbn [along]. unfold P, px, py. cbn [x y]. rewrite S_INR.
  transitivity (((x p2 - x p1) * (x p2 - x p1) + (y p2 - y p1) * (y p2 - y p1)) / (INR n * INR n)).
  - generalize (x p1) (x p2) (y p1) (y p2). intros a b a' b'. rn. field. lra.
  - change (((x p2 - x p1) * (x p2 - x p1) + (y p2 - y p1) * (y p2 - y p1)))
      with ((px p2 - px p1) * (px p2 - px p1) + (py p2 - py p1) * (py p2 - py p1)).
    rewrite <- dist_square. field. lra.
Qed.

(** A chord of the angle [a]. *)
Lemma px_P a b : px (P a b) = a.
Proof. reflexivity. Qed.
Lemma py_P a b : py (P a b) = b.
Proof. reflexivity. Qed.

Lemma chord c r u v : dist (P (px c + r * cos u) (py c + r * sin u)) (P (px c + r * cos v) (py c + r * sin v)) =
  2 * Rabs (r * sin ((v - u) / 2)).
Proof.
  apply dist_sqr; [pose proof (Rabs_pos (r * sin ((v - u) / 2))); lra|].
  rewrite !px_P, !py_P.
  set (h := (v - u) / 2). set (m := (v + u) / 2).
  replace v with (m + h) by (unfold m, h; field). replace u with (m - h) by (unfold m, h; field).
  rewrite cos_plus, sin_plus, cos_minus, sin_minus.
  replace (2 * Rabs (r * sin h) * (2 * Rabs (r * sin h))) with (4 * (Rabs (r * sin h) * Rabs (r * sin h))) by ring.
  assert (A : forall z, Rabs z * Rabs z = z * z).
  { intros z. rewrite <- Rabs_mult. apply Rabs_pos_eq. nra. }
  rewrite A. generalize (px c) (py c). intros a b.
  pose proof (sin2_cos2 m) as E. unfold Rsqr in E.
  transitivity (4 * (r * sin h * (r * sin h)) * (sin m * sin m + cos m * cos m)); [ring|]. rewrite E. ring.
Qed.

Lemma arc_dist c r a1 a2 d s n e : (0 < n)%nat -> In e (cuts (Arc (K:=RNum) c r a1 a2 d s) n) ->
  dist (fst e) (snd e) = 2 * Rabs (r * sin ((a2 - a1) / INR n / 2)).
Proof.
  intros N I. apply in_map_iff in I as (i & <- & _). cbn [fst snd along].
  assert (D : 0 < INR n) by (apply lt_0_INR; lia). rewrite chord. do 2 f_equal. f_equal. f_equal. rewrite S_INR. rn. field. lra.
Qed.

Lemma sin_le_abs v : Rabs (sin v) <= Rabs v.
Proof.
  assert (P : forall u, 0 <= u -> Rabs (sin u) <= u).
  { intros u U. destruct (Req_dec u 0) as [->|Z]; [rewrite sin_0, Rabs_R0; lra|].
    destruct (Rle_lt_dec u 1) as [H|H].
    - rewrite Rabs_pos_eq; [left; apply sin_lt_x; lra|]. apply sin_ge_0; [lra|]. pose proof PI2_3_2. lra.
    - pose proof (SIN_bound u). apply Rle_trans with 1; [|lra]. apply Rabs_le. lra. }
  destruct (Rle_lt_dec 0 v) as [H|H].
  - rewrite (Rabs_pos_eq v) by exact H. apply P, H.
  - rewrite <- Rabs_Ropp, <- sin_neg, <- (Rabs_Ropp v), (Rabs_pos_eq (- v)) by lra. apply P. lra.
Qed.

(** No edge is longer than the part of the curve it stands for. *)
Lemma cut_le (p : rp) n e : (0 < n)%nat -> match p with Seg _ _ _ _ => True | Arc _ r _ _ _ _ | ArcN _ r _ _ _ _ => 0 <= r end ->
  by_step p -> In e (cuts p n) -> dist (fst e) (snd e) <= len p / INR n.
Proof.
  intros N R B I. assert (D : 0 < INR n) by (apply lt_0_INR; lia).
  destruct p as [p1 p2 d s|c r a1 a2 d s|]; [| |destruct B].
  - right. apply (seg_dist p1 p2 d s n e N I).
  - rewrite (arc_dist c r a1 a2 d s n e N I). cbn [len]. rn. rewrite Rabs_mult, (Rabs_pos_eq r) by exact R.
    apply Rle_trans with (2 * (r * Rabs ((a2 - a1) / INR n / 2))).
    + apply Rmult_le_compat_l; [lra|]. apply Rmult_le_compat_l; [exact R|]. apply sin_le_abs.
    + right. unfold Rdiv. rewrite !Rabs_mult, (Rabs_pos_eq (/ 2)) by lra. rewrite (Rabs_pos_eq (/ INR n)) by (left; apply Rinv_0_lt_compat, D).
      field. lra.
Qed.

(** The distance of corners along the curve stays near the wanted one. *)
Lemma even (p : rp) n : by_step p -> 0 < step p -> count Rlib p = Some n ->
  (n = 0%nat <-> len p < step p / 2) /\ ((0 < n)%nat -> step p / 2 <= len p / INR n < 3 / 2 * step p).
Proof.
  intros B S C. apply count_nearest in C; [|exact B]. unfold nearest in C.
  assert (E : len p = len p / step p * step p) by (field; lra). set (v := len p / step p) in *. rewrite E. clearbody v. clear E.
  rewrite <- INR_IZR_INZ in C. split.
  - split.
    + intros ->. cbn [INR] in C. nra.
    + intros H. destruct n as [|n]; [reflexivity|]. exfalso. rewrite S_INR in C. pose proof (pos_INR n). nra.
  - intros N. assert (D : 1 <= INR n) by (change 1 with (INR 1); apply le_INR; lia). split.
    + apply (Rmult_le_reg_r (INR n)); [lra|]. replace (v * step p / INR n * INR n) with (v * step p) by (field; lra). nra.
    + apply (Rmult_lt_reg_r (INR n)); [lra|]. replace (v * step p / INR n * INR n) with (v * step p) by (field; lra). nra.
Qed.

(** * How many corners altogether *)

Definition sum_nat (l : list nat) : nat := fold_right Nat.add 0%nat l.

Lemma row_length p n : List.length (corner_row p n) = n.
Proof. unfold corner_row. rewrite map_length, seq_length. reflexivity. Qed.

Lemma rows_length (l : list rp) ns : List.length ns = List.length l ->
  List.length (List.concat (map (fun pn => corner_row (fst pn) (snd pn)) (combine l ns))) = sum_nat ns.
Proof.
  revert ns. induction l as [|p l IH]; intros [|n ns] L; try discriminate; [reflexivity|].
  cbn [combine map List.concat fst snd]. rewrite app_length, row_length, IH by (injection L; auto). reflexivity.
Qed.

Lemma total_near (l : list rp) ns : Forall by_step l -> Forall2 (fun p n => count Rlib p = Some n) l ns ->
  total (fun p => len p / step p) l - INR (List.length l) / 2 <= INR (sum_nat ns) <= total (fun p => len p / step p) l + INR (List.length l) / 2.
Proof.
  intros B H. induction H as [|p n l ns C H IH]; [cbn [sum_nat fold_right total List.length INR]; lra|].
  inversion B as [|? ? Bp Bl]; subst. specialize (IH Bl). apply count_nearest in C; [|exact Bp]. unfold nearest in C. rewrite <- INR_IZR_INZ in C.
  cbn [sum_nat fold_right total List.length]. fold (sum_nat ns) (total (fun p => len p / step p) l). rewrite plus_INR, S_INR. lra.
Qed.

(** The number of corners when N is given: at most half a corner per piece off. *)
Lemma total_bound (l : list rp) d n r : (0 < d) -> Forall (fun p => by_step p /\ step p = d) l ->
  total len l = n * d -> make Rlib l = Ok r -> Rabs (INR (List.length r) - n) <= INR (List.length l) / 2.
Proof.
  intros D F E M. destruct (make_counts l r M) as (ns & _ & P & L & C).
  assert (Lr : List.length r = sum_nat ns) by (rewrite <- (rows_length l ns L), <- P; unfold points; rewrite map_length; reflexivity).
  rewrite Lr. pose proof (total_near l ns (Forall_impl by_step (fun p (X : by_step p /\ step p = d) => proj1 X) F) C) as N.
  assert (T : total (fun p => len p / step p) l = n).
  { rewrite (total_ext _ (fun p => len p * / d)); [|intros p I; rewrite Forall_forall in F; rewrite (proj2 (F p I)); reflexivity].
    assert (G : total (fun p => len p * / d) l = total len l * / d).
    { clear. induction l as [|p l IH]; cbn [total fold_right]; [ring|]. fold (total len l) (total (fun p => len p * / d) l). rewrite IH. ring. }
    rewrite G, E. field. lra. }
  rewrite T in N. apply Rabs_le. lra.
Qed.
