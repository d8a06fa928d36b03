(** Cylinder, half cylinder, parallelogram, turbine, plate and ellipse. *)

From Coq Require Import ZArith Bool List String Reals Ratan Lia Lra Psatz.
From Flocq Require Import Core.Core.
From Verif.Base Require Import Num.
From Verif.Body Require Import Model Spec.
From Verif.Gen Require Import Model Spec ProofsCurve ProofsShapes.
Import ListNotations.
Local Open Scope R_scope.

(** The corners of one circle, clockwise from (R, 0). *)
Definition circle (r : R) (n : nat) : list pt :=
  map (fun i => P (r * cos (2 * PI * INR i / INR n)) (- r * sin (2 * PI * INR i / INR n))) (seq 0 n).

Lemma full_row r d s n : (0 < n)%nat -> corner_row (Arc (K:=RNum) (P 0 0) r (2 * PI) 0 d s) n = circle r n.
Proof.
  intros N. assert (D : INR n <> 0) by (apply not_0_INR; lia).
  unfold corner_row, circle. apply map_ext. intros i. cbn [along]. rewrite px_P, py_P.
  replace (2 * PI + INR i / INR n * (0 - 2 * PI)) with (2 * PI - 2 * PI * INR i / INR n) by (field; exact D).
  rewrite cos_minus, sin_minus, cos_2PI, sin_2PI. f_equal; ring.
Qed.

Lemma cylinder_points z d R l : 0 < R -> 0 <= d -> (d = 0 -> (0 < z)%Z) -> make Rlib (cylinder_pieces Rlib z d R) = Ok l ->
  exists n, points l = circle R n /\ (d = 0 -> n = Z.to_nat z) /\ (0 < d -> nearest (2 * PI * R / d) (Z.of_nat n)) /\
    List.length l = n /\ Forall (fun c => snd c = false) l.
Proof.
  intros HR D Z M. unfold cylinder_pieces in M. rn.
  assert (SL : forall (p : rp) r, make Rlib [p] = Ok r -> slips p = false -> Forall (fun c => snd c = false) r).
  { intros p r E S. cbn [make] in E. destruct (count Rlib p); [|discriminate]. cbn [bind] in E. injection E as <-. rewrite app_nil_r.
    apply Forall_forall. intros c I. apply in_map_iff in I as (i & <- & _). exact S. }
  change (@nltb RNum 0 d) with (Rltb 0 d) in M. destruct (Rltb 0 d) eqn:L; rbool.
  - pose proof (SL _ _ M eq_refl) as S. destruct (make_counts _ _ M) as (ns & _ & Ep & Ln & C).
    destruct ns as [|n [|? ?]]; try discriminate. inversion C as [|? ? ? ? Cn _]; subst. clear C.
    cbn [combine map List.concat fst snd] in Ep. rewrite app_nil_r in Ep.
    pose proof (fun B => count_nearest _ n B Cn) as Nn; specialize (Nn I). cbn [len step] in Nn. unfold twopi in Nn. rn.
    assert (A : Rabs (0 - 2 * PI) = 2 * PI).
    { rewrite Rabs_minus_sym, Rminus_0_r. apply Rabs_pos_eq. pose proof PI_RGT_0. lra. }
    rewrite A in Nn. replace (R * (2 * PI)) with (2 * PI * R) in Nn by ring. exists n.
    assert (E : points l = circle R n).
    { rewrite Ep. destruct n as [|n]; [reflexivity|]. apply full_row. lia. }
    split; [exact E|]. split; [intros ->; lra|]. split; [intros _; exact Nn|]. split; [|exact S].
    transitivity (List.length (points l)); [symmetry; apply map_length|]. rewrite E. unfold circle. rewrite map_length, seq_length. reflexivity.
  - assert (d = 0) by lra. subst d. specialize (Z eq_refl).
    pose proof (SL _ _ M eq_refl) as S. destruct (make_counts _ _ M) as (ns & _ & Ep & Ln & C).
    destruct ns as [|n [|? ?]]; try discriminate. inversion C as [|? ? ? ? Cn _]; subst. clear C. cbn [count] in Cn. injection Cn as <-.
    cbn [combine map List.concat fst snd] in Ep. rewrite app_nil_r in Ep. exists (Z.to_nat z).
    assert (E : points l = circle R (Z.to_nat z)).
    { rewrite Ep. rewrite <- (full_row R 1 false) by lia. reflexivity. }
    split; [exact E|]. split; [reflexivity|]. split; [intros X; lra|]. split; [|exact S].
    transitivity (List.length (points l)); [symmetry; apply map_length|]. rewrite E. unfold circle. rewrite map_length, seq_length. reflexivity.
Qed.

(** The circle as a polygon. *)
Lemma circle_edges r n : (0 < n)%nat -> edges (circle r n) = cuts (Arc (K:=RNum) (P 0 0) r (2 * PI) 0 1 false) n.
Proof.
  intros N. set (p := Arc (K:=RNum) (P 0 0) r (2 * PI) 0 1 false).
  assert (C : closed [p]).
  { intros a b I. cbn in I. destruct I as [I|[]]. injection I as <- <-. rewrite along_1, along_0. cbn [p ends begins]. rewrite cos_2PI, sin_2PI, cos_0, sin_0. reflexivity. }
  pose proof (polygon [p] [n] C eq_refl (Forall_cons _ N (Forall_nil _))) as X.
  cbn [combine map List.concat fst snd] in X. rewrite !app_nil_r in X. unfold p in X at 1. rewrite full_row in X by exact N. exact X.
Qed.

Lemma circle_dist r n e : 0 <= r -> (0 < n)%nat -> In e (edges (circle r n)) -> dist (fst e) (snd e) = 2 * r * sin (PI / INR n).
Proof.
  intros R N I. rewrite circle_edges in I by exact N. assert (D : 1 <= INR n) by (change 1 with (INR 1); apply le_INR; lia).
  rewrite (arc_dist _ _ _ _ _ _ _ _ N I).
  replace ((0 - 2 * PI) / INR n / 2) with (- (PI / INR n)) by (field; lra). rewrite sin_neg.
  replace (r * - sin (PI / INR n)) with (- (r * sin (PI / INR n))) by ring. rewrite Rabs_Ropp, Rabs_pos_eq; [ring|].
  apply Rmult_le_pos; [exact R|]. pose proof PI_RGT_0. apply sin_ge_0.
  - apply Rmult_le_pos; [lra|]. left. apply Rinv_0_lt_compat. lra.
  - apply (Rmult_le_reg_r (INR n)); [lra|]. replace (PI / INR n * INR n) with PI by (field; lra). nra.
Qed.

Lemma circle_area r n : (0 < n)%nat -> shoelace (circle r n) = INR n / 2 * (r * r) * sin (2 * PI / INR n).
Proof.
  intros N. assert (D : INR n <> 0) by (apply not_0_INR; lia). unfold shoelace. rewrite circle_edges by exact N.
  pose proof (arc_cross r (2 * PI) 0 1 false n N) as X. unfold cross2 in X. rewrite X. rewrite Rminus_0_r. field.
Qed.

(** The origin lies to the right of every edge. *)
Lemma circle_clockwise r n e : 0 < r -> (2 < n)%nat -> In e (edges (circle r n)) ->
  0 < py (fst e) * px (snd e) - px (fst e) * py (snd e).
Proof.
  intros R N I. rewrite circle_edges in I by lia. apply in_map_iff in I as (i & <- & _). cbn [fst snd along].
  rewrite !px_P, !py_P. assert (D : 3 <= INR n) by (replace 3 with (INR 3) by (cbn [INR]; ring); apply le_INR; lia).
  rewrite S_INR. set (u := 2 * PI + INR i / INR n * (0 - 2 * PI)). set (v := 2 * PI + (INR i + 1) / INR n * (0 - 2 * PI)).
  replace ((0 + r * sin u) * (0 + r * cos v) - (0 + r * cos u) * (0 + r * sin v)) with (r * r * sin (u - v)) by (rewrite sin_minus; ring).
  assert (E : u - v = 2 * PI / INR n) by (unfold u, v; field; lra). rewrite E. pose proof PI_RGT_0.
  apply Rmult_lt_0_compat; [nra|]. apply sin_gt_0.
  - apply Rdiv_lt_0_compat; lra.
  - apply (Rmult_lt_reg_r (INR n)); [lra|]. replace (2 * PI / INR n * INR n) with (2 * PI) by (field; lra). nra.
Qed.

(** * Areas of other shapes *)

Lemma shoelace_polygon (l : list rp) ns : closed l -> List.length ns = List.length l -> Forall (fun n => (0 < n)%nat) ns ->
  shoelace (List.concat (map (fun pn => corner_row (fst pn) (snd pn)) (combine l ns))) =
  total (fun pn => total cross2 (cuts (fst pn) (snd pn))) (combine l ns) / 2.
Proof.
  intros C L N. unfold shoelace. rewrite polygon by assumption. rewrite total_concat, total_map. reflexivity.
Qed.

(** Every piece long enough to have a corner. *)
Definition long (p : rp) : Prop := step p / 2 <= len p.

Lemma long_counts (l : list rp) ns : Forall (fun p => by_step p /\ 0 < step p /\ long p) l ->
  Forall2 (fun p n => count Rlib p = Some n) l ns -> Forall (fun n => (0 < n)%nat) ns.
Proof.
  intros F H. induction H as [|p n l ns C H IH]; [constructor|]. inversion F as [|? ? (B & S & G) Fl]; subst. constructor; [|apply IH, Fl].
  destruct n; [|lia]. destruct (even p 0 B S C) as [[X _] _]. specialize (X eq_refl). unfold long in G. lra.
Qed.

(** ** Parallelogram *)

Lemma tan_len H a : 0 < H -> sin a <> 0 -> H / tan a = H * cos a / sin a.
Proof.
  intros P S. unfold tan. destruct (Req_dec (cos a) 0) as [C|C].
  - rewrite C. unfold Rdiv. rewrite Rinv_0, !Rmult_0_r, Rinv_0. ring.
  - field. auto.
Qed.

Lemma para_sin a : 0 < a < 180 -> 0 < sin (a / 180 * PI).
Proof. intros [L U]. pose proof PI_RGT_0. apply sin_gt_0; nra. Qed.

Lemma para_side H al : 0 < H -> 0 < sin al -> dist (P 0 0) (P (H * cos al / sin al) H) = H / sin al.
Proof.
  intros PH S. apply dist_sqr; [left; apply Rdiv_lt_0_compat; assumption|]. rewrite !px_P, !py_P.
  pose proof (sin2_cos2 al) as E. unfold Rsqr in E.
  replace (H / sin al * (H / sin al)) with (H * H * (sin al * sin al + cos al * cos al) / (sin al * sin al)) by (rewrite E; field; lra).
  field. lra.
Qed.

Lemma dist_shift a b c d u v : dist (P (a + u) (b + v)) (P (c + u) (d + v)) = dist (P a b) (P c d).
Proof. unfold dist. rewrite !px_P, !py_P. f_equal. ring. Qed.

Lemma dist_sym p q : dist p q = dist q p.
Proof. unfold dist. f_equal. ring. Qed.

Lemma dist_level a b c : a <= c -> dist (P a b) (P c b) = c - a.
Proof. intros L. apply dist_sqr; [lra|]. rewrite !px_P, !py_P. ring. Qed.

Lemma para_len z d L H a : 0 < L -> 0 < H -> 0 < a < 180 ->
  map len (parallelogram_pieces Rlib z d L H a) = [L; H / sin (a / 180 * PI); L; H / sin (a / 180 * PI)].
Proof.
  intros PL PH A. pose proof (para_sin a A) as S. unfold parallelogram_pieces. cbv zeta. rn. cbn [map len]. unfold V.
  set (al := a / 180 * PI) in *. rewrite (tan_len H al PH ltac:(lra)). set (l2 := H * cos al / sin al).
  change (@mkVec RNum) with P.
  f_equal; [rewrite dist_sym, dist_level by lra; ring|].
  f_equal; [apply para_side; assumption|].
  f_equal; [rewrite dist_level by lra; ring|].
  f_equal. rewrite dist_sym. replace (P L 0) with (P (0 + L) (0 + 0)) by (f_equal; ring).
  replace (P (L + l2) H) with (P (l2 + L) (H + 0)) by (f_equal; ring). rewrite dist_shift. apply para_side; assumption.
Qed.

Lemma para_area z d L H a ns : 0 < L -> 0 < H -> 0 < a < 180 -> List.length ns = 4%nat -> Forall (fun n => (0 < n)%nat) ns ->
  shoelace (List.concat (map (fun pn => corner_row (fst pn) (snd pn)) (combine (parallelogram_pieces Rlib z d L H a) ns))) = L * H.
Proof.
  intros PL PH A Ln N. rewrite shoelace_polygon; [|apply parallelogram_closed|rewrite Ln; reflexivity|exact N].
  destruct ns as [|n1 [|n2 [|n3 [|n4 [|? ?]]]]]; try discriminate.
  inversion N as [|? ? N1 N']; subst. inversion N' as [|? ? N2 N'']; subst. inversion N'' as [|? ? N3 N3']; subst. inversion N3' as [|? ? N4 _]; subst.
  unfold parallelogram_pieces. cbv zeta. cbn [combine total fold_right fst snd]. rewrite !seg_cross by assumption.
  unfold cross2, V. cbn [fst snd]. change (@mkVec RNum) with P. rewrite !px_P, !py_P. rn.
  generalize (H / tan (a / 180 * PI)). intros l2. field.
Qed.

(** ** Half cylinder *)

Lemma semi_len z d R : 0 < R -> map len (semicyl_pieces Rlib z d R) = [R; R * PI; R].
Proof.
  intros P0. pose proof PI_RGT_0. unfold semicyl_pieces. cbv zeta. rn. cbn [map len]. unfold V, twopi. change (@mkVec RNum) with P. rn.
  rewrite !dist_level by lra. f_equal; [ring|]. f_equal; [|f_equal; ring]. f_equal. rewrite Rabs_minus_sym. rewrite Rabs_pos_eq by lra. ring.
Qed.

Lemma semi_area z d R n1 n2 n3 : (0 < n1)%nat -> (0 < n2)%nat -> (0 < n3)%nat ->
  shoelace (List.concat (map (fun pn => corner_row (fst pn) (snd pn)) (combine (semicyl_pieces Rlib z d R) [n1; n2; n3]))) =
  INR n2 / 2 * (R * R) * sin (PI / INR n2).
Proof.
  intros N1 N2 N3. rewrite shoelace_polygon; [|apply semicyl_closed|reflexivity|repeat constructor; assumption].
  unfold semicyl_pieces. cbv zeta. cbn [combine total fold_right fst snd]. rewrite !seg_cross by assumption.
  unfold twopi, V. change (@mkVec RNum) with P. rn. rewrite arc_cross by assumption. unfold cross2. cbn [fst snd]. rewrite !px_P, !py_P.
  replace ((2 * PI - PI) / INR n2) with (PI / INR n2) by (field; apply not_0_INR; lia). field.
Qed.

(** ** Turbine *)

Lemma savonius_len z d R h : 0 < h < R -> map len (savonius_pieces Rlib z d R h) =
  [(R - h / 2) * PI; h / 2 * PI; (R + h / 2) * PI; (R - h / 2) * PI; h / 2 * PI; (R + h / 2) * PI].
Proof.
  intros H. pose proof PI_RGT_0. unfold savonius_pieces. cbv zeta. rn. cbn [map len]. unfold twopi. rn.
  assert (A1 : Rabs (2 * PI - PI) = PI) by (rewrite Rabs_pos_eq; lra).
  assert (A2 : Rabs (PI - 2 * PI) = PI) by (rewrite Rabs_minus_sym; exact A1).
  assert (A3 : Rabs (PI - 0) = PI) by (rewrite Rabs_pos_eq; lra).
  assert (A4 : Rabs (0 - PI) = PI) by (rewrite Rabs_minus_sym; exact A3).
  rewrite A1, A2, A3, A4. reflexivity.
Qed.

(** ** Plate *)

Lemma plate_len z d R1 R2 L gap : 0 <= R1 -> 0 <= R2 -> 0 < L -> Rabs (R2 - R1) <= L ->
  let al := asin ((R2 - R1) / L) in let phi := PI / 2 + al in
  map len (plate_pieces Rlib z d R1 R2 L 0 1 gap) =
  [R2 * phi; L * cos al; R1 * (PI - phi); R1 * (PI - phi); L * cos al; R2 * phi].
Proof.
  intros P1 P2 PL B al phi. pose proof PI_RGT_0.
  assert (Bs : -1 <= (R2 - R1) / L <= 1).
  { apply Rabs_le_inv. unfold Rdiv. rewrite Rabs_mult, (Rabs_pos_eq (/ L)) by (left; apply Rinv_0_lt_compat, PL).
    apply (Rmult_le_reg_r L); [exact PL|]. rewrite Rmult_assoc, Rinv_l by lra. lra. }
  assert (Sa : sin al = (R2 - R1) / L) by (apply sin_asin; exact Bs).
  assert (Ba : - (PI / 2) <= al <= PI / 2) by apply asin_bound.
  assert (Ca : 0 <= cos al) by (apply cos_ge_0; lra).
  assert (Cp : cos phi = - sin al) by (unfold phi; rewrite cos_plus, cos_PI2, sin_PI2; ring).
  assert (Sp : sin phi = cos al) by (unfold phi; rewrite sin_plus, cos_PI2, sin_PI2; ring).
  unfold plate_pieces. cbv zeta. rn. fold al. fold phi.
  change (@neqb RNum 1 1) with (Reqb 1 1). unfold Reqb. destruct (Req_EM_T 1 1) as [_|X]; [|destruct X; reflexivity].
  cbn [map len]. unfold vadd, vscale, V, twopi. cbn [x y]. change (@mkVec RNum) with P. rn. rewrite Cp, Sp.
  assert (E : R2 - R1 = L * sin al) by (rewrite Sa; field; lra).
  pose proof (sin2_cos2 al) as U. unfold Rsqr in U.
  assert (Sd : forall s, s * s = 1 -> dist (P (1 * L + - sin al * (R1 + 1 * (R2 - R1))) (0 + s * cos al * (R1 + 1 * (R2 - R1))))
      (P (0 * L + - sin al * (R1 + 0 * (R2 - R1))) (0 + s * cos al * (R1 + 0 * (R2 - R1)))) = L * cos al).
  { intros s S. apply dist_sqr; [nra|]. rewrite !px_P, !py_P. rewrite E.
    replace (0 * L + - sin al * (R1 + 0 * (L * sin al)) - (1 * L + - sin al * (R1 + 1 * (L * sin al)))) with (- L * (1 - sin al * sin al)) by ring.
    replace (1 - sin al * sin al) with (cos al * cos al) by lra.
    replace (0 + s * cos al * (R1 + 0 * (L * sin al)) - (0 + s * cos al * (R1 + 1 * (L * sin al)))) with (- s * cos al * L * sin al) by ring.
    transitivity (L * L * (cos al * cos al) * (cos al * cos al + (s * s) * (sin al * sin al))); [ring|]. rewrite S.
    replace (cos al * cos al + 1 * (sin al * sin al)) with 1 by lra. ring. }
  f_equal; [replace (- phi - - 0) with (- phi) by ring; rewrite Rabs_Ropp, Rabs_pos_eq by (unfold phi; lra); ring|].
  f_equal; [rewrite <- (Sd (-1)) by ring; f_equal; f_equal; ring|].
  f_equal; [rewrite Rabs_minus_sym, Rabs_pos_eq by (unfold phi; lra); ring|].
  f_equal; [rewrite Rabs_minus_sym, Rabs_pos_eq by (unfold phi; lra); ring|].
  f_equal; [rewrite <- (Sd 1) by ring; rewrite dist_sym; f_equal; f_equal; ring|].
  f_equal. replace (0 - phi) with (- phi) by ring. rewrite Rabs_Ropp, Rabs_pos_eq by (unfold phi; lra). ring.
Qed.
