(** C104: which walls of a generated body slip, and how finely they are cut. *)

From Coq Require Import ZArith Bool List String Reals Ratan Lia Lra Psatz.
From Flocq Require Import Core.Core.
From Verif.Base Require Import Num.
From Verif.Body Require Import Model Spec.
From Verif.Gen Require Import Model Spec ProofsCurve ProofsShapes ProofsTable ProofsBodies Properties PropertiesShapes.
Import ListNotations.
Local Open Scope R_scope.

(** Pieces that lead from [a] to [b]. *)
Fixpoint leads (a : pt) (l : list (piece RNum)) (b : pt) : Prop :=
  match l with [] => a = b | p :: l => along p 0 = a /\ leads (along p 1) l b end.
(** All of them slip or not and have the step [d]. *)
Definition wall (slip : bool) (d : R) (l : list (piece RNum)) : Prop := Forall (fun p => slips p = slip /\ step p = d) l.
(** The corners generated for these pieces, all with the flag [slip]. *)
Definition corners_of (slip : bool) (ps : list (piece RNum)) (l : list (vec RNum * bool)) : Prop :=
  make Rlib ps = Ok l /\ Forall (fun c => snd c = slip) l.

Lemma make_app (a b : list (piece RNum)) l : make Rlib (a ++ b) = Ok l -> exists la lb, make Rlib a = Ok la /\ make Rlib b = Ok lb /\ l = la ++ lb.
Proof.
  revert l. induction a as [|p a IH]; intros l M; [exists [], l; auto|]. cbn [app make] in *.
  destruct (count Rlib p) as [n|]; [|discriminate]. destruct (make Rlib (a ++ b)) as [r| |] eqn:E; cbn [bind] in M; try discriminate.
  destruct (IH r eq_refl) as (la & lb & Ea & Eb & ->). injection M as <-. rewrite Ea, Eb. cbn [bind].
  exists (map (fun i => (place Rlib p n i, slips p)) (seq 0 n) ++ la), lb. split; [reflexivity|]. split; [reflexivity|]. apply app_assoc.
Qed.
Lemma make_flags slip d ps l : wall slip d ps -> make Rlib ps = Ok l -> Forall (fun c => snd c = slip) l.
Proof.
  intros W. revert l. induction W as [|p ps [S _] W IH]; intros l M; cbn [make] in M; [injection M as <-; constructor|].
  destruct (count Rlib p) as [n|]; [|discriminate]. destruct (make Rlib ps) as [r| |] eqn:E; cbn [bind] in M; try discriminate.
  injection M as <-. apply Forall_app. split; [|now apply IH]. apply Forall_forall. intros c I. apply in_map_iff in I as (i & <- & _). exact S.
Qed.

Ltac lead := repeat (split; [rewrite ?along_0, ?along_1; cbn [begins ends]; unfold V, P, px, py; cbn [x y]; rn|]);
  rewrite ?along_0, ?along_1; cbn [begins ends]; unfold V, P, px, py; cbn [x y]; rn.
Ltac angles := repeat (replace (PI * 1 / 2) with (PI / 2) by field); repeat (replace (- PI * 1 / 2) with (- (PI / 2)) by field);
    repeat (replace (PI * 3 / 2) with (3 * (PI / 2)) by field); trig; apply pt_eq; unfold px, py; cbn [x y]; rn; field.
Ltac walled := repeat constructor.

(** The box: its floor inside and the edges of the hole do not slip. *)
Theorem C104_box (t : table RNum) l : gen_box Rlib t = Ok l -> exists dln dls L H D h d,
  given t "dln" dln /\ given t "dls" dls /\ given t "L" L /\ given t "H" H /\ given t "D" D /\ given t "h" h /\ given t "d" d /\
  exists s1 n1 s2 n2 s3 l1 m1 l2 m2 l3, l = l1 ++ m1 ++ l2 ++ m2 ++ l3 /\
    leads (P 0 H) s1 (P (- L / 2) 0) /\ wall true dls s1 /\ corners_of true s1 l1 /\
    leads (P (- L / 2) 0) n1 (P (- (D + d) / 2) (- d)) /\ wall false dln n1 /\ corners_of false n1 m1 /\
    leads (P (- (D + d) / 2) (- d)) s2 (P ((D + d) / 2) (- d)) /\ wall true dls s2 /\ corners_of true s2 l2 /\
    leads (P ((D + d) / 2) (- d)) n2 (P (L / 2) 0) /\ wall false dln n2 /\ corners_of false n2 m2 /\
    leads (P (L / 2) 0) s3 (P 0 H) /\ wall true dls s3 /\ corners_of true s3 l3.
Proof.
  intros G. apply (box_ok Rlib) in G. destruct G as (dln & dls & L & H & D & h & d & P1 & P2 & P3 & P4 & P5 & P6 & P7 & _ & M).
  exists dln, dls, L, H, D, h, d.
  do 7 (split; [match goal with |- given _ ?s _ => match goal with Q : pos _ _ s _ |- _ => apply Q | Q : in_range _ s _ _ _ |- _ => apply Q end end|]).
  match type of M with make _ ?ps = _ => let p := eval cbv [box_pieces] in ps in change ps with p in M end.
  match type of M with make _ ?ps = _ => set (all := ps) in M end.
  assert (E : all = firstn 2 all ++ firstn 3 (skipn 2 all) ++ firstn 5 (skipn 5 all) ++ firstn 3 (skipn 10 all) ++ skipn 13 all) by reflexivity.
  rewrite E in M. apply make_app in M as (l1 & r1 & M1 & M & ->). apply make_app in M as (m1 & r2 & M2 & M & ->).
  apply make_app in M as (l2 & r3 & M3 & M & ->). apply make_app in M as (m2 & l3 & M4 & M5 & ->). clear E.
  subst all. cbn [firstn skipn] in *.
  do 10 eexists. split; [reflexivity|].
  match goal with |- leads _ ?a _ /\ _ => idtac end.
  split; [| split; [| split; [split; [exact M1|] |]]].
  4: split; [| split; [| split; [split; [exact M2|] |]]].
  7: split; [| split; [| split; [split; [exact M3|] |]]].
  10: split; [| split; [| split; [split; [exact M4|] |]]].
  13: split; [| split; [| split; [exact M5|]]].
  all: try (match goal with |- wall _ _ _ => walled end).
  all: try (match goal with M : make _ ?ps = Ok ?l |- Forall _ ?l => first [apply (make_flags true dls ps l); [walled | exact M] | apply (make_flags false dln ps l); [walled | exact M]] end).
  all: cbn [leads]; lead; angles.
Qed.
Print Assumptions C104_box.

(** The chamber: the channel from X1 on does not slip, to both sides; the face of
    the box beside its mouth is cut in at least five parts of the wanted size. *)
Definition wall_upto (slip : bool) (d : R) (l : list (piece RNum)) : Prop := Forall (fun p => slips p = slip /\ step p <= d) l.
Ltac upto := unfold wall_upto; repeat (apply Forall_cons; [split; [reflexivity | cbn [step]; rn; lra]|]); apply Forall_nil.
Lemma make_flags_upto slip d ps l : wall_upto slip d ps -> make Rlib ps = Ok l -> Forall (fun c => snd c = slip) l.
Proof.
  intros W. revert l. induction W as [|p ps [S _] W IH]; intros l M; cbn [make] in M; [injection M as <-; constructor|].
  destruct (count Rlib p) as [n|]; [|discriminate]. destruct (make Rlib ps) as [r| |] eqn:E; cbn [bind] in M; try discriminate.
  injection M as <-. apply Forall_app. split; [|now apply IH]. apply Forall_forall. intros c I. apply in_map_iff in I as (i & <- & _). exact S.
Qed.

Theorem C104_gpj (t : table RNum) l : gen_gpj Rlib t = Ok l -> exists dln dls R0 d X0 X1 X2 X3 L H,
  given t "dln" dln /\ given t "dls" dls /\ given t "R0" R0 /\ given t "d" d /\ given t "X0" X0 /\ given t "X1" X1 /\ given t "X2" X2 /\
  given t "X3" X3 /\ given t "L" L /\ given t "H" H /\
  let Y := R0 + (X3 - X2) * tan (d * PI / 180) in
  exists s1 n1 s2 n2 s3 l1 m1 l2 m2 l3, l = l1 ++ m1 ++ l2 ++ m2 ++ l3 /\
    leads (P (X3 - L) (- H / 2)) s1 (P X3 Y) /\ wall_upto true dls s1 /\ corners_of true s1 l1 /\
    leads (P X3 Y) n1 (P X1 R0) /\ wall false dln n1 /\ corners_of false n1 m1 /\
    leads (P X1 R0) s2 (P X1 (- R0)) /\ wall true dls s2 /\ corners_of true s2 l2 /\
    leads (P X1 (- R0)) n2 (P X3 (- Y)) /\ wall false dln n2 /\ corners_of false n2 m2 /\
    leads (P X3 (- Y)) s3 (P (X3 - L) (- H / 2)) /\ wall_upto true dls s3 /\ corners_of true s3 l3 /\
    (exists p, In p s1 /\ along p 0 = P X3 (H / 2) /\ along p 1 = P X3 Y /\ 5 * step p <= H / 2 - Y /\ (step p = dls \/ 5 * step p = H / 2 - Y)) /\
    (exists p, In p s3 /\ along p 0 = P X3 (- Y) /\ along p 1 = P X3 (- H / 2) /\ 5 * step p <= H / 2 - Y /\ (step p = dls \/ 5 * step p = H / 2 - Y)).
Proof.
  intros G. apply (gpj_ok Rlib) in G. destruct G as (dln & dls & R0 & d & X0 & X1 & X2 & X3 & L & H & P1 & P2 & P3 & P4 & P5 & P6 & P7 & P8 & P9 & P10 & _ & M).
  exists dln, dls, R0, d, X0, X1, X2, X3, L, H.
  do 10 (split; [match goal with |- given _ ?s _ => match goal with Q : pos _ _ s _ |- _ => apply Q | Q : in_range _ s _ _ _ |- _ => apply Q end end|]).
  cbv zeta. unfold gpj_pieces in M. cbv zeta in M. unfold gpj_y3 in M. rn.
  set (Y := R0 + (X3 - X2) * tan (d * PI / 180)) in *.
  assert (F : exists e, (if @nltb RNum ((H / 2 - Y) / 5) dls then (H / 2 - Y) / 5 else dls) = e /\ e <= dls /\ 5 * e <= H / 2 - Y /\ (e = dls \/ 5 * e = H / 2 - Y)).
  { eexists. split; [reflexivity|]. change (@nltb RNum) with Rltb. destruct (Rltb ((H / 2 - Y) / 5) dls) eqn:B.
    - apply Rltb_true in B. rn. split; [lra|]. split; [lra|]. right. lra.
    - apply Rltb_false in B. rn. split; [lra|]. split; [lra|]. now left. }
  destruct F as (e & Fe & F1 & F2 & F3). rewrite Fe in M. clear Fe.
  match type of M with make _ ?ps = _ => set (all := ps) in M end.
  assert (E : all = firstn 3 all ++ firstn 2 (skipn 3 all) ++ firstn 3 (skipn 5 all) ++ firstn 2 (skipn 8 all) ++ skipn 10 all) by reflexivity.
  rewrite E in M. apply make_app in M as (l1 & r1 & M1 & M & ->). apply make_app in M as (m1 & r2 & M2 & M & ->).
  apply make_app in M as (l2 & r3 & M3 & M & ->). apply make_app in M as (m2 & l3 & M4 & M5 & ->). clear E.
  subst all. cbn [firstn skipn] in *.
  do 10 eexists. split; [reflexivity|].
  split; [| split; [| split; [split; [exact M1|] |]]].
  4: split; [| split; [| split; [split; [exact M2|] |]]].
  7: split; [| split; [| split; [split; [exact M3|] |]]].
  10: split; [| split; [| split; [split; [exact M4|] |]]].
  13: split; [| split; [| split; [split; [exact M5|] |]]].
  all: try (match goal with |- wall _ _ _ => walled end).
  all: try (match goal with |- wall_upto _ _ _ => upto end).
  all: try (match goal with M : make _ ?ps = Ok ?l |- Forall _ ?l => first
    [ apply (make_flags_upto true dls ps l); [upto | exact M] | apply (make_flags false dln ps l); [walled | exact M]] end).
  all: try (cbn [leads]; lead; angles).
  split.
  - eexists. split; [right; right; left; reflexivity|]. cbn [step]. lead; try assumption; angles.
  - eexists. split; [left; reflexivity|]. cbn [step]. lead; try assumption; angles.
Qed.
Print Assumptions C104_gpj.

(** The plate: its sides lie on the common tangents of the two circles also when it
    is cut; they do not slip.  A cut end slips and is hollow with a radius larger by
    the gap, at least by a step. *)
Lemma plate_slen R1 R2 L : 0 <= R1 -> 0 <= R2 -> 0 < L -> Rabs (R2 - R1) <= L ->
  let al := asin ((R2 - R1) / L) in
  0 < 2 * ((PI - (PI / 2 + al)) * R1 + (PI / 2 + al) * R2 + L * cos al) /\ sin al = (R2 - R1) / L /\ 0 <= cos al.
Proof.
  intros B1 B2 PL D al. pose proof (asin_bound ((R2 - R1) / L)) as Ba. fold al in Ba. pose proof PI_RGT_0.
  assert (Ca : 0 <= cos al) by (apply cos_ge_0; lra).
  assert (Bs : -1 <= (R2 - R1) / L <= 1).
  { apply Rabs_le_inv. unfold Rdiv. rewrite Rabs_mult, (Rabs_pos_eq (/ L)) by (left; apply Rinv_0_lt_compat, PL).
    apply (Rmult_le_reg_r L); [exact PL|]. rewrite Rmult_assoc, Rinv_l by lra. lra. }
  assert (Sa : sin al = (R2 - R1) / L) by (apply sin_asin; exact Bs).
  split; [|now split].
  assert (0 <= (PI - (PI / 2 + al)) * R1) by (apply Rmult_le_pos; lra).
  assert (0 <= (PI / 2 + al) * R2) by (apply Rmult_le_pos; lra). assert (0 <= L * cos al) by (apply Rmult_le_pos; lra).
  destruct (Req_dec (cos al) 0) as [K|K].
  - pose proof (sin2_cos2 al) as U. rewrite K in U. unfold Rsqr in U.
    assert (S1 : (sin al - 1) * (sin al + 1) = 0) by lra. apply Rmult_integral in S1.
    assert (ER : R2 - R1 = L * sin al) by (rewrite Sa; field; lra).
    destruct S1 as [S1|S1].
    + assert (sin al = sin (PI / 2)) by (rewrite sin_PI2; lra). assert (Ea : al = PI / 2) by (apply sin_inj; lra).
      assert (S2 : sin al = 1) by lra. rewrite S2 in ER. assert (0 < (PI / 2 + al) * R2) by (rewrite Ea; apply Rmult_lt_0_compat; lra). lra.
    + assert (sin al = sin (- (PI / 2))) by (rewrite sin_neg, sin_PI2; lra). assert (Ea : al = - (PI / 2)) by (apply sin_inj; lra).
      assert (S2 : sin al = -1) by lra. rewrite S2 in ER. assert (0 < (PI - (PI / 2 + al)) * R1) by (rewrite Ea; apply Rmult_lt_0_compat; lra). lra.
  - assert (0 < L * cos al) by (apply Rmult_lt_0_compat; lra). lra.
Qed.

Definition or_else (d : R) (t : table RNum) (s : string) (v : R) : Prop := given t s v \/ absent t s /\ v = d.
Lemma tangent_line r f s (q1 q2 : vec RNum) (n m k : R) : (x q1 : R) * n + (y q1 : R) * m = k -> (x q2 : R) * n + (y q2 : R) * m = k ->
  px (along (Seg (K := RNum) q1 q2 f s) r) * n + py (along (Seg (K := RNum) q1 q2 f s) r) * m = k.
Proof.
  intros E1 E2. cbn [along]. unfold px, py, P. cbn [x y]. rn.
  replace ((x q1 + r * (x q2 - x q1)) * n + (y q1 + r * (y q2 - y q1)) * m) with ((1 - r) * (x q1 * n + y q1 * m) + r * (x q2 * n + y q2 * m)) by ring.
  rewrite E1, E2. ring.
Qed.

Theorem C104_plate_partial (t : table RNum) l : gen_plate Rlib t = Ok l ->
  (forall R1 R2 L, given t "R1" R1 -> given t "R2" R2 -> given t "L" L -> Rabs (R2 - R1) <= L) ->
  exists R1 R2 L start stop gap dl cut1 cut2,
  given t "R1" R1 /\ given t "R2" R2 /\ given t "L" L /\ or_else 0 t "start" start /\ or_else 1 t "stop" stop /\ or_else 0 t "gap" gap /\
  0 < dl /\ (cut1 = true <-> 0 < start) /\ (cut2 = true <-> stop < 1) /\
  let n := (R1 - R2) / L in let m := sqrt (1 - n * n) in
  exists e1 u b1 b2 v e2 l1 l2 l3 l4 l5, l = l1 ++ l2 ++ l3 ++ l4 ++ l5 /\ Forall (fun p => step p = dl) [e1; u; b1; b2; v; e2] /\
    corners_of cut2 [e1] l1 /\ corners_of false [u] l2 /\ corners_of cut1 [b1; b2] l3 /\ corners_of false [v] l4 /\ corners_of cut2 [e2] l5 /\
    (forall s, px (along u s) * n - py (along u s) * m = R1) /\ (forall s, px (along v s) * n + py (along v s) * m = R1) /\
    (forall s, dist (P (start * L) 0) (along b1 s) = R1 + start * (R2 - R1) /\ dist (P (start * L) 0) (along b2 s) = R1 + start * (R2 - R1)) /\
    let r := R1 + stop * (R2 - R1) + (if cut2 then Rmax gap dl else 0) in
    (forall s, dist (P (stop * L) 0) (along e1 s) = r /\ dist (P (stop * L) 0) (along e2 s) = r).
Proof.
  intros E D. apply (plate_ok Rlib good_R) in E.
  destruct E as (n & d & z & R1 & R2 & L & start & stop & gap & N & Z & Q1 & Q2 & C & PL & Is & Ie & Ig & _ & M).
  apply pos_real in PL as [GL PL]. destruct Q1 as (G1 & _ & B1 & _). destruct Q2 as (G2 & _ & B2 & _).
  specialize (D R1 R2 L G1 G2 GL). change (@nltb RNum) with Rltb in *. change (@nofZ RNum) with IZR in *. apply Rltb_false in B1. apply Rltb_false in B2.
  destruct (plate_slen R1 R2 L B1 B2 PL D) as (Sl & Sa & Ca). cbv zeta in *.
  set (al := asin ((R2 - R1) / L)) in *. set (len2 := 2 * ((PI - (PI / 2 + al)) * R1 + (PI / 2 + al) * R2 + L * cos al)) in *.
  destruct (spaced_real t n d z len2 N Z Sl) as (_ & Pd & _). set (dl := spacing d len2 z) in *.
  assert (Os : or_else 0 t "start" start /\ 0 <= start <= 1).
  { destruct Is as [(G & _ & U & W)|[A ->]]; [|split; [now right|lra]]. split; [now left|]. change (@nltb RNum) with Rltb in *. apply Rltb_false in U. apply Rltb_false in W.
    rn. assert (0 <= dbleps Rlib) by (cbn [dbleps Rlib]; left; apply Raux.bpow_gt_0). lra. }
  assert (Oe : or_else 1 t "stop" stop /\ 0 <= stop <= 1).
  { destruct Ie as [(G & _ & U & W)|[A ->]]; [|split; [now right|lra]]. split; [now left|]. change (@nltb RNum) with Rltb in *. apply Rltb_false in U. apply Rltb_false in W.
    rn. assert (0 <= dblmin Rlib) by (cbn [dblmin Rlib]; left; apply Raux.bpow_gt_0). lra. }
  assert (Og : or_else 0 t "gap" gap) by (destruct Ig as [(G & _)|[A ->]]; [now left|now right]).
  destruct Os as [Os Bs]. destruct Oe as [Oe Be].
  exists R1, R2, L, start, stop, gap, dl, (Rltb 0 start), (Rltb stop 1).
  do 7 (split; [assumption|]). split; [apply Rltb_true|]. split; [apply Rltb_true|].
  set (nn := (R1 - R2) / L). set (mm := sqrt (1 - nn * nn)).
  assert (Ec : cos (PI / 2 + al) = nn) by (rewrite cos_plus, cos_PI2, sin_PI2, Sa; unfold nn; field; lra).
  assert (Es : sin (PI / 2 + al) = mm).
  { rewrite sin_plus, cos_PI2, sin_PI2. assert (En : nn = - sin al) by (rewrite Sa; unfold nn; field; lra).
    unfold mm. rewrite En. replace (1 - - sin al * - sin al) with (cos al * cos al) by (pose proof (sin2_cos2 al) as U; unfold Rsqr in U; lra).
    rewrite sqrt_square by exact Ca. ring. }
  assert (U : nn * nn + mm * mm = 1) by (rewrite <- Ec, <- Es; pose proof (sin2_cos2 (PI / 2 + al)) as U; unfold Rsqr in U; lra).
  set (phi := PI / 2 + al) in *. set (r1 := R1 + start * (R2 - R1)). set (r2 := R1 + stop * (R2 - R1)).
  assert (r1p : 0 <= r1). { unfold r1. replace (R1 + start * (R2 - R1)) with ((1 - start) * R1 + start * R2) by ring. assert (0 <= (1 - start) * R1) by (apply Rmult_le_pos; lra). assert (0 <= start * R2) by (apply Rmult_le_pos; lra). lra. }
  assert (r2p : 0 <= r2). { unfold r2. replace (R1 + stop * (R2 - R1)) with ((1 - stop) * R1 + stop * R2) by ring. assert (0 <= (1 - stop) * R1) by (apply Rmult_le_pos; lra). assert (0 <= stop * R2) by (apply Rmult_le_pos; lra). lra. }
  assert (X1 : start * L * nn + r1 = R1) by (unfold nn, r1; field; lra).
  assert (X2 : stop * L * nn + r2 = R1) by (unfold nn, r2; field; lra).
  (* the end at stop *)
  assert (Q : exists phi1 phi2 r, (if @neqb RNum stop 1 then (0, phi, r2) else (PI, phi + acos (r2 / (r2 + Rmax gap dl)), r2 + Rmax gap dl)) = (phi1, phi2, r) /\
    r = r2 + (if Rltb stop 1 then Rmax gap dl else 0) /\ 0 <= r /\ r * (cos phi2 * nn + sin phi2 * mm) = r2).
  { change (@neqb RNum) with Reqb. destruct (Reqb stop 1) eqn:S1.
    - apply Reqb_true in S1. exists 0, phi, r2. split; [reflexivity|]. rewrite S1. replace (Rltb 1 1) with false by (symmetry; apply Rltb_false; lra).
      split; [lra|]. split; [exact r2p|]. rewrite Ec, Es. rewrite U. ring.
    - assert (S2 : stop < 1). { destruct (Rle_lt_or_eq_dec stop 1 (proj2 Be)) as [X|X]; [exact X|]. apply Reqb_true in X. congruence. }
      exists PI, (phi + acos (r2 / (r2 + Rmax gap dl))), (r2 + Rmax gap dl). split; [reflexivity|]. replace (Rltb stop 1) with true by (symmetry; apply Rltb_true; exact S2).
      split; [reflexivity|]. assert (G : 0 < Rmax gap dl) by (apply Rlt_le_trans with dl; [exact Pd | apply Rmax_r]). split; [lra|].
      assert (A : -1 <= r2 / (r2 + Rmax gap dl) <= 1).
      { split; [apply Rle_trans with 0; [lra|]; apply Rmult_le_pos; [exact r2p | left; apply Rinv_0_lt_compat; lra]|].
        apply (Rmult_le_reg_r (r2 + Rmax gap dl)); [lra|]. unfold Rdiv. rewrite Rmult_assoc, Rinv_l by lra. lra. }
      replace (cos (phi + acos (r2 / (r2 + Rmax gap dl))) * nn + sin (phi + acos (r2 / (r2 + Rmax gap dl))) * mm) with (cos (acos (r2 / (r2 + Rmax gap dl)))).
      + rewrite cos_acos by exact A. field. lra.
      + rewrite <- Ec, <- Es, cos_plus, sin_plus. pose proof (sin2_cos2 phi) as V2. unfold Rsqr in V2.
        replace ((cos phi * cos (acos (r2 / (r2 + Rmax gap dl))) - sin phi * sin (acos (r2 / (r2 + Rmax gap dl)))) * cos phi +
          (sin phi * cos (acos (r2 / (r2 + Rmax gap dl))) + cos phi * sin (acos (r2 / (r2 + Rmax gap dl)))) * sin phi)
          with ((sin phi * sin phi + cos phi * cos phi) * cos (acos (r2 / (r2 + Rmax gap dl)))) by ring. rewrite V2. ring. }
  destruct Q as (phi1 & phi2 & r & Q & Er & rp & Tg).
  unfold plate_pieces in M. cbv zeta in M. rn. fold al in M. fold phi in M. fold len2 in M. fold dl in M. fold r1 r2 in M.
  assert (Gm : (if @nltb RNum dl gap then gap else dl) = Rmax gap dl).
  { change (@nltb RNum) with Rltb. destruct (Rltb dl gap) eqn:B; [apply Rltb_true in B; rewrite Rmax_left; lra | apply Rltb_false in B; rewrite Rmax_right; lra]. }
  rewrite Gm, Q in M. cbv beta iota in M.
  match type of M with make _ ?ps = _ => set (all := ps) in M end.
  assert (E : all = firstn 1 all ++ firstn 1 (skipn 1 all) ++ firstn 2 (skipn 2 all) ++ firstn 1 (skipn 4 all) ++ skipn 5 all) by reflexivity.
  rewrite E in M. apply make_app in M as (l1 & q1 & M1 & M & ->). apply make_app in M as (l2 & q2 & M2 & M & ->).
  apply make_app in M as (l3 & q3 & M3 & M & ->). apply make_app in M as (l4 & l5 & M4 & M5 & ->). clear E.
  subst all. cbn [firstn skipn] in *.
  match type of M1 with make _ [?e1] = _ => match type of M2 with make _ [?u] = _ => match type of M3 with make _ [?b1; ?b2] = _ =>
    match type of M4 with make _ [?v] = _ => match type of M5 with make _ [?e2] = _ => exists e1, u, b1, b2, v, e2, l1, l2, l3, l4, l5 end end end end end.
  split; [reflexivity|].
  assert (W : forall c p, slips p = c -> wall c (step p) [p]) by (intros c p S; repeat constructor; exact S).
  split; [repeat constructor|].
  split; [split; [exact M1|]; eapply make_flags; [|exact M1]; apply W; reflexivity|].
  split; [split; [exact M2|]; eapply make_flags; [|exact M2]; apply W; reflexivity|].
  split; [split; [exact M3|]; eapply (make_flags (Rltb 0 start) dl); [|exact M3]; repeat constructor|].
  split; [split; [exact M4|]; eapply make_flags; [|exact M4]; apply W; reflexivity|].
  split; [split; [exact M5|]; eapply make_flags; [|exact M5]; apply W; reflexivity|].
  split; [|split; [|split]].
  - intros s. 
    match goal with |- px ?a * _ - py ?a * _ = _ => replace (px a * nn - py a * mm) with (px a * nn + py a * (- mm)) by ring end.
    apply tangent_line; unfold vadd, vscale, V; cbn [x y]; rn.
    + rewrite <- X2 at 1. rewrite <- Tg. ring.
    + rewrite Ec, Es. rewrite <- X1 at 1. replace r1 with (r1 * (nn * nn + mm * mm)) at 3 by (rewrite U; ring). ring.
  - intros s. 
    apply tangent_line; unfold vadd, vscale, V; cbn [x y]; rn.
    + rewrite Ec, Es. rewrite <- X1 at 1. replace r1 with (r1 * (nn * nn + mm * mm)) at 3 by (rewrite U; ring). ring.
    + rewrite <- X2 at 1. rewrite <- Tg. ring.
  - intros s. split; apply dist_sqr; try exact r1p; cbn [along]; unfold V, P, px, py; cbn [x y]; rn;
      match goal with |- context [cos ?a] => pose proof (sin2_cos2 a) as V2; unfold Rsqr in V2; transitivity (r1 * r1 * (sin a * sin a + cos a * cos a)); [ring | rewrite V2; ring] end.
  - cbv zeta. fold r2. rewrite <- Er. intros s. split; apply dist_sqr; try exact rp; cbn [along]; unfold V, P, px, py; cbn [x y]; rn;
      match goal with |- context [cos ?a] => pose proof (sin2_cos2 a) as V2; unfold Rsqr in V2; transitivity (r * r * (sin a * sin a + cos a * cos a)); [ring | rewrite V2; ring] end.
Qed.
Print Assumptions C104_plate_partial.

(** What it looks like: a box with walls 8 x 4, and half of a plate. *)
Lemma make_given (ps : list (piece RNum)) ns : Forall2 (fun p n => count Rlib p = Some n) ps ns ->
  exists l, make Rlib ps = Ok l /\ map snd l = List.concat (map (fun pn => List.repeat (slips (fst pn)) (snd pn)) (combine ps ns)).
Proof.
  induction 1 as [|p n l ns C _ (r & M & IH)]; [exists []; split; reflexivity|]. cbn [make]. rewrite C, M. cbn [bind]. eexists. split; [reflexivity|].
  rewrite map_app, IH. cbn [combine map List.concat fst snd]. f_equal. rewrite map_map. cbn [snd]. generalize 0%nat. clear.
  induction n as [|n IH]; intros i; cbn [seq map List.repeat]; [reflexivity|]. now rewrite IH.
Qed.
Lemma counted (p : piece RNum) n v : by_step p -> len p = v -> v / step p - 1 / 2 < INR n <= v / step p + 1 / 2 -> (n < 1000)%nat -> count Rlib p = Some n.
Proof.
  intros B E N S. rewrite <- (Nat2Z.id n). apply count_of; [exact B| |lia]. unfold nearest. rewrite E, <- INR_IZR_INZ. lra.
Qed.
Lemma level_len (a b c d s : R) f : b = d -> len (Seg (K := RNum) (V (K := RNum) a b) (V (K := RNum) c d) s f) = Rabs (c - a).
Proof. intros ->. cbn [len]. apply dist_sqr; [apply Rabs_pos|]. unfold px, py, V. cbn [x y]. rn. rewrite <- Rabs_mult. rewrite (Rabs_pos_eq ((c - a) * (c - a))) by apply (Rle_0_sqr (c - a)). ring. Qed.
Lemma upright_len (a b c d s : R) f : a = c -> len (Seg (K := RNum) (V (K := RNum) a b) (V (K := RNum) c d) s f) = Rabs (d - b).
Proof. intros ->. cbn [len]. apply dist_sqr; [apply Rabs_pos|]. unfold px, py, V. cbn [x y]. rn. rewrite <- Rabs_mult. rewrite (Rabs_pos_eq ((d - b) * (d - b))) by apply (Rle_0_sqr (d - b)). ring. Qed.

Definition hall : table RNum := [(Name "dln", Some 1); (Name "dls", Some 2); (Name "L", Some 8); (Name "H", Some 4); (Name "D", Some 4); (Name "h", Some 2); (Name "d", Some 2)].
Lemma below_eps v b : 1 / 1000 <= v -> v <= b / 2 -> @nltb RNum v (dblmin Rlib) = false /\ @nltb RNum (b * (1 - dbleps Rlib)) v = false.
Proof.
  intros A B. cbn [Rlib dblmin dbleps nltb RNum]. split; apply Rltb_false.
  - apply Rle_trans with (bpow radix2 (-10)); [apply bpow_le; lia|]. simpl. lra.
  - assert (bpow radix2 (-52) <= 1 / 2) by (apply Rle_trans with (bpow radix2 (-1)); [apply bpow_le; lia|simpl; lra]). nra.
Qed.
Ltac seg_len := first [rewrite level_len by (rn; lra) | rewrite upright_len by (rn; lra)]; rn; first [rewrite Rabs_pos_eq by lra | rewrite Rabs_left by lra].
Example C104_box_ex : exists l, gen_box Rlib hall = Ok l /\
  map snd l = List.repeat true 4 ++ List.repeat false 5 ++ List.repeat true 18 ++ List.repeat false 5 ++ List.repeat true 4.
Proof.
  pose proof PI2_3_2 as Pa. pose proof PI_4 as Pb.
  destruct (make_given (box_pieces Rlib 1 2 8 4 4 2 2) [2; 2; 1; 2; 2; 2; 4; 6; 4; 2; 2; 2; 1; 2; 2]%nat) as (l & M & F).
  { unfold box_pieces. cbv zeta.
    repeat (apply Forall2_cons; [eapply counted; [exact I | first [seg_len; reflexivity | cbn [len]; rn; reflexivity] | | lia] |]); [..|apply Forall2_nil];
      cbn [step INR]; rn; try (split; lra);
      match goal with |- context [Rabs ?a] => first [rewrite (Rabs_pos_eq a) by lra | rewrite (Rabs_left a) by lra] end; split; lra. }
  exists l. split; [|rewrite F; reflexivity].
  apply (box_ok Rlib). exists 1, 2, 8, 4, 4, 2, 2.
  split; [apply real_range; [reflexivity|lra]|]. split; [apply real_range; [reflexivity|lra]|]. split; [apply real_range; [reflexivity|lra]|]. split; [apply real_range; [reflexivity|lra]|].
  split; [split; [reflexivity|]; split; [reflexivity|]; apply (below_eps 4 8); lra|].
  split; [apply real_range; [reflexivity|lra]|].
  split; [split; [reflexivity|]; split; [reflexivity|]; rn; replace (8 - 4) with 4 by ring; apply (below_eps 2 4); lra|].
  split; [in_table|]. exact M.
Qed.

Definition half_plate : table RNum := [(Name "dl", Some 1); (Name "R1", Some 1); (Name "R2", Some 1); (Name "L", Some 8); (Name "stop", Some (1 / 2)); (Name "gap", Some 1)].
Example C104_plate_ex : exists l, gen_plate Rlib half_plate = Ok l /\
  map snd l = [true; false; false; false; false; false; false; false; false; true].
Proof.
  pose proof PI2_3_2 as Pa. pose proof PI_4 as Pb.
  assert (S3 : 17 / 10 < sqrt 3 < 18 / 10).
  { split; (apply Rsqr_incrst_0; [unfold Rsqr; rewrite ?sqrt_sqrt by lra; lra | lra || apply sqrt_pos | lra || apply sqrt_pos]). }
  assert (A : acos (1 / 2) = PI / 3) by (rewrite <- cos_PI3; apply acos_cos; lra).
  assert (C : cos (PI / 2 + PI / 3) = - (sqrt 3 / 2) /\ sin (PI / 2 + PI / 3) = 1 / 2) by (rewrite cos_plus, sin_plus, cos_PI2, sin_PI2, sin_PI3, cos_PI3; lra).
  assert (E : plate_pieces Rlib 0 1 1 1 8 0 (1 / 2) 1 =
    [Arc (V (K := RNum) 4 0) 2 (- PI) (- (PI / 2 + PI / 3)) 1 true; Seg (V (K := RNum) (4 - sqrt 3) (- 1)) (V (K := RNum) 0 (-1)) 1 false;
     Arc (V (K := RNum) 0 0) 1 (2 * PI - PI / 2) PI 1 false; Arc (V (K := RNum) 0 0) 1 PI (PI / 2) 1 false;
     Seg (V (K := RNum) 0 1) (V (K := RNum) (4 - sqrt 3) 1) 1 false; Arc (V (K := RNum) 4 0) 2 (PI / 2 + PI / 3) PI 1 true]).
  { unfold plate_pieces. cbv zeta. unfold spacing. rn. change (@nltb RNum) with Rltb. change (@neqb RNum) with Reqb.
    replace ((1 - 1) / 8) with 0 by lra. rewrite asin_0. replace (PI / 2 + 0) with (PI / 2) by ring.
    repeat match goal with |- context [Rltb ?a ?b] => first [replace (Rltb a b) with true by (symmetry; apply Rltb_true; lra) | replace (Rltb a b) with false by (symmetry; apply Rltb_false; lra)] end.
    repeat match goal with |- context [Reqb ?a ?b] => first [replace (Reqb a b) with true by (symmetry; apply Reqb_true; lra) | replace (Reqb a b) with false by (symmetry; apply Reqb_false; lra)] end.
    replace (if Rltb 1 1 then 1 else 1) with 1 by (destruct (Rltb 1 1); reflexivity).
    replace ((1 + 1 / 2 * (1 - 1)) / (1 + 1 / 2 * (1 - 1) + 1)) with (1 / 2) by lra. rewrite A, (proj1 C), (proj2 C), cos_PI2, sin_PI2.
    unfold vadd, vscale, V. cbn [x y]. rn. unfold twopi. cbn [Rlib lpi]. rn. 
    repeat (apply f_equal2; [f_equal; try (f_equal; lra); lra|]). reflexivity. }
  destruct (make_given (plate_pieces Rlib 0 1 1 1 8 0 (1 / 2) 1) [1; 2; 2; 2; 2; 1]%nat) as (l & M & F).
  { rewrite E.
    repeat (apply Forall2_cons; [eapply counted; [exact I | first [seg_len; reflexivity | cbn [len]; rn; reflexivity] | | lia] |]); [..|apply Forall2_nil];
      cbn [step INR]; rn; try (split; lra);
      match goal with |- context [Rabs ?a] => first [rewrite (Rabs_pos_eq a) by lra | rewrite (Rabs_left a) by lra] end; split; lra. }
  exists l. split; [|rewrite F, E; reflexivity].
  apply (plate_ok Rlib good_R). exists 0, 1, 0%Z, 1, 1, 8, 0, (1 / 2), 1.
  assert (Rg : forall s v, field s half_plate = Some (Some v) -> 1 / 1000 <= v <= 1000000 -> pos Rlib half_plate s v) by (intros; now apply real_range).
  assert (R1 : forall s, pos Rlib half_plate s 1 -> in_range half_plate s 0 (dblinf Rlib) 1).
  { intros s (Q1 & Q2 & _ & Q3). split; [exact Q1|]. split; [exact Q2|]. split; [|exact Q3]. apply Rltb_false. lra. }
  split; [right; split; [reflexivity|]; split; [apply Rg; [reflexivity|lra]|reflexivity]|].
  split; [cbn [to_i64 Rlib]; unfold R_to_i64; destruct (Rle_dec 0 0) as [_|X]; [|lra]; change (R_floor 0) with (Zfloor (IZR 0)); rewrite Zfloor_IZR; reflexivity|].
  split; [apply R1, Rg; [reflexivity|lra]|]. split; [apply R1, Rg; [reflexivity|lra]|].
  split; [change (Rltb 0 1 || Rltb 0 1 = true)%bool; replace (Rltb 0 1) with true by (symmetry; apply Rltb_true; lra); reflexivity|].
  split; [apply Rg; [reflexivity|lra]|]. split; [right; split; reflexivity|].
  split; [left; split; [reflexivity|]; split; [reflexivity|]; split; [apply (Rg "stop"%string (1 / 2)); [reflexivity|lra] | apply Rltb_false; rn; change (1 / 2 <= 1); lra]|].
  split; [left; apply Rg; [reflexivity|lra]|]. split; [in_table|exact M].
Qed.
