(** C83: the ellipse. *)

From Coq Require Import ZArith Bool List String Reals Ratan Lia Lra Psatz.
From Flocq Require Import Core.Core.
From Verif.Base Require Import Num.
From Verif.Body Require Import Model Spec.
From Verif.Gen Require Import Model Spec ProofsCurve ProofsTable ProofsShapes ProofsBodies ProofsEllipse Properties PropertiesShapes.
Import ListNotations.
Local Open Scope R_scope.

Lemma ry_real (t : rtable) Rx Ry : in_range t "Ry" (dblmin Rlib) Rx Ry -> given t "Ry" Ry /\ 0 < Ry <= Rx.
Proof.
  intros (G & _ & L & U). split; [exact G|]. cbn [nltb RNum Rlib dblmin] in L, U. apply Rltb_false in L. apply Rltb_false in U.
  pose proof (bpow_gt_0 radix2 (-1022)). lra.
Qed.

(** The length of an ellipse as Ramanujan estimates it. *)
Definition ramanujan (a b : R) : R :=
  let h := (a - b) / (a + b) * ((a - b) / (a + b)) in PI * (a + b) * (1 + 3 * h / (10 + sqrt (4 - 3 * h))).

Lemma ell_dl_eq z d a b : ell_dl Rlib z d a b = spacing (K:=RNum) d (ramanujan a b) z.
Proof. reflexivity. Qed.

Lemma ramanujan_pos a b : 0 < b <= a -> 0 < ramanujan a b.
Proof.
  intros B. unfold ramanujan. cbv zeta. set (q := (a - b) / (a + b)). pose proof PI_RGT_0. pose proof (sqrt_pos (4 - 3 * (q * q))).
  assert (0 <= q * q) by nra. apply Rmult_lt_0_compat; [apply Rmult_lt_0_compat; lra|].
  assert (0 <= 3 * (q * q) / (10 + sqrt (4 - 3 * (q * q)))); [|lra]. apply Rmult_le_pos; [lra|]. left. apply Rinv_0_lt_compat. lra.
Qed.

Lemma ell_step_pos (t : rtable) n d z a b : n_or_dl Rlib t n d -> to_i64 Rlib n = Some z -> 0 < b <= a -> 0 < ell_dl Rlib z d a b.
Proof.
  intros N Z B. pose proof (n_dl_real t n d z N Z) as W. cbv zeta in W. rewrite ell_dl_eq. unfold spacing. change (@neqb RNum d _) with (Reqb d 0).
  unfold Reqb. change (zn (K:=RNum) z) with (IZR z). change (@ndiv RNum) with Rdiv. destruct (Req_EM_T d 0) as [E|E].
  - destruct W as [(_ & _ & _ & Pz & _)|(_ & _ & P & _)]; [|lra]. apply Rdiv_lt_0_compat; [apply ramanujan_pos, B|].
    assert (1 <= IZR z) by (apply IZR_le; exact Pz). lra.
  - destruct W as [(_ & _ & E' & _)|(_ & _ & P & _)]; [contradiction|exact P].
Qed.

(** The loop ends: with enough turns there is an answer. *)
Theorem C83_ends (t : table RNum) : (exists fuel l, gen_ellipse Rlib fuel t = Ok l) ->
  exists f l, forall fuel, (f <= fuel)%nat -> gen_ellipse Rlib fuel t = Ok (Some l).
Proof.
  intros (fuel & l & E). apply (ellipse_ok Rlib good_R) in E. destruct E as (n & d & z & Rx & Ry & N & Z & Px & Py & O & C & E).
  pose proof (ry_real _ _ _ Py) as [Gy B]. pose proof (ell_step_pos t n d z Rx Ry N Z B) as D.
  set (dl := ell_dl Rlib z d Rx Ry) in *. pose proof (semiell_some dl Rx Ry D (proj1 B) (proj2 B) (PI - asin (dl / (2 * Ry))) (asin (dl / (2 * Ry)))) as (f & s & S).
  exists f, (ell_corners Rlib Rx Ry s). intros g G. apply (ellipse_ok Rlib good_R). exists n, d, z, Rx, Ry.
  split; [exact N|]. split; [exact Z|]. split; [exact Px|]. split; [exact Py|]. split; [exact O|]. split; [exact C|].
  fold dl. specialize (S g G). cbn [lasin lpi Rlib]. change (@ndiv RNum) with Rdiv. change (@nmul RNum) with Rmult. change (@nsub RNum) with Rminus. change (@nofZ RNum) with IZR.
  rewrite S. reflexivity.
Qed.

Lemma some_eq (A : Type) (a b : A) : Some a = Some b -> b = a.
Proof. intros E. congruence. Qed.

(** The corners: 2 (m + 1) of them on the ellipse, symmetric to both axes; at
    the tips an edge across with the length asked for. *)
Theorem C83_ellipse (t : table RNum) fuel l : gen_ellipse Rlib fuel t = Ok (Some l) -> exists Rx Ry d m,
  given t "Rx" Rx /\ given t "Ry" Ry /\ 0 < Ry <= Rx /\ 0 < d /\ spaced t (ramanujan Rx Ry) d /\
  (1 <= m)%nat /\ List.length l = (2 * S m)%nat /\ Forall (fun c => snd c = false) l /\
  (forall p, In p (points l) -> px p / Rx * (px p / Rx) + py p / Ry * (py p / Ry) = 1) /\
  (forall i p, (i <= m)%nat -> nth_error (points l) i = Some p ->
    nth_error (points l) (S m + i) = Some (P (- px p) (- py p)) /\ nth_error (points l) (m - i) = Some (P (- px p) (py p))) /\
  nth_error (points l) 0 = Some (P (Rx * sqrt (1 - d / (2 * Ry) * (d / (2 * Ry)))) (- (d / 2))) /\
  nth_error (points l) (2 * m + 1) = Some (P (Rx * sqrt (1 - d / (2 * Ry) * (d / (2 * Ry)))) (d / 2)).
Proof.
  intros E. apply (ellipse_ok Rlib good_R) in E. destruct E as (n & d & z & Rx & Ry & N & Z & PX & PY & O & C & E).
  pose proof (ry_real _ _ _ PY) as [Gy B]. pose proof (ell_step_pos t n d z Rx Ry N Z B) as D. apply pos_real in PX as [Gx PX].
  destruct (spaced_real t n d z (ramanujan Rx Ry) N Z (ramanujan_pos Rx Ry B)) as (W & _ & _). rewrite <- ell_dl_eq in W.
  set (dl := ell_dl Rlib z d Rx Ry) in *. change (@nltb RNum) with Rltb in C. apply Rltb_true in C. change (@nofZ RNum) with IZR in *.
  change (@ndiv RNum) with Rdiv in *. change (@nmul RNum) with Rmult in *. change (@nsub RNum) with Rminus in *. cbn [lasin lpi Rlib] in E.
  set (a0 := asin (dl / (2 * Ry))) in *. destruct (semiell Rlib fuel dl Rx Ry (PI - a0) a0) as [s|] eqn:Es; [|discriminate].
  cbn [option_map] in E. injection E as ->.
  destruct (two_angles dl Rx Ry D (proj1 B) (proj2 B) C fuel s Es) as (b & s' & Sh). fold a0 in Sh.
  destruct (first_angle dl Ry D (proj1 B) C) as [A0 S0]. fold a0 in A0, S0.
  set (m := S (List.length s')). assert (Lm : List.length s = S m) by (rewrite Sh; reflexivity).
  destruct (ell_nth Rx Ry s m Lm) as [Ln Nth]. assert (M0 : (0 < m)%nat) by (unfold m; lia).
  assert (Bf : blend Rlib s m 0 = a0) by (rewrite (blend_first s m M0), Sh; reflexivity).
  assert (Bm : blend Rlib s m m = PI - a0) by (rewrite <- Bf, <- (blend_mirror s m 0 M0 ltac:(lia)), Nat.sub_0_r; reflexivity).
  assert (C0 : cos a0 = sqrt (1 - dl / (2 * Ry) * (dl / (2 * Ry)))).
  { pose proof (sin2_cos2 a0) as U. unfold Rsqr in U. rewrite S0 in U. symmetry. apply sqrt_lem_1; [nra| |lra].
    apply cos_ge_0; lra. }
  assert (Sy : Ry * sin a0 = dl / 2) by (rewrite S0; field; lra).
  assert (Ll : List.length (points (ell_corners Rlib Rx Ry s)) = (2 * S m)%nat) by (unfold points; rewrite map_length; exact Ln).
  exists Rx, Ry, dl, m. do 5 (split; [assumption|]). split; [lia|]. split; [exact Ln|]. split.
  { unfold ell_corners. rewrite Sh. apply Forall_forall. intros c I. apply in_app_or in I. destruct I as [I|I]; apply in_map_iff in I as (i & <- & _); reflexivity. }
  split.
  { intros p I. apply In_nth_error in I as [i I]. assert (Li : (i < 2 * S m)%nat) by (rewrite <- Ll; apply nth_error_Some; congruence).
    destruct (le_lt_dec i m) as [Q|Q].
    - rewrite (proj1 (Nth i Q)) in I. apply some_eq in I. rewrite I. rewrite px_P, py_P. pose proof (sin2_cos2 (blend Rlib s m i)) as U. unfold Rsqr in U.
      rewrite <- U. set (u := blend Rlib s m i). clearbody u. field. lra.
    - assert (Q' : (i - S m <= m)%nat) by lia. pose proof (proj2 (Nth _ Q')) as X. replace (S m + (i - S m))%nat with i in X by lia. rewrite X in I.
      apply some_eq in I. rewrite I. rewrite px_P, py_P. pose proof (sin2_cos2 (blend Rlib s m (i - S m))) as U. unfold Rsqr in U. rewrite <- U. set (u := blend Rlib s m (i - S m)). clearbody u. field. lra. }
  split.
  { intros i p Q I. rewrite (proj1 (Nth i Q)) in I. apply some_eq in I. rewrite I. rewrite px_P, py_P. split.
    - rewrite (proj2 (Nth i Q)). do 2 f_equal; ring.
    - rewrite (proj1 (Nth (m - i)%nat ltac:(lia))), (blend_mirror s m i M0 Q).
      replace (PI - blend Rlib s m i) with (PI + - blend Rlib s m i) by ring. f_equal. f_equal.
      + rewrite (Rplus_comm PI), neg_cos, cos_neg. ring.
      + rewrite (Rplus_comm PI), neg_sin, sin_neg. ring. }
  split.
  - rewrite (proj1 (Nth 0%nat ltac:(lia))), Bf, C0, <- Sy. do 2 f_equal. ring.
  - replace (2 * m + 1)%nat with (S m + m)%nat by lia. rewrite (proj2 (Nth m ltac:(lia))), Bm, <- C0, <- Sy.
    do 2 f_equal; replace (PI - a0) with (- a0 + PI) by ring; rewrite ?neg_cos, ?neg_sin, ?cos_neg, ?sin_neg; ring.
Qed.

(** The edges at the tips. *)
Corollary C83_tips (t : table RNum) fuel l : gen_ellipse Rlib fuel t = Ok (Some l) -> exists Rx Ry d m p q p' q',
  given t "Rx" Rx /\ given t "Ry" Ry /\ spaced t (ramanujan Rx Ry) d /\ List.length l = (2 * S m)%nat /\
  nth_error (points l) 0 = Some p /\ nth_error (points l) (2 * m + 1) = Some q /\ dist p q = d /\
  nth_error (points l) m = Some p' /\ nth_error (points l) (S m) = Some q' /\ dist p' q' = d.
Proof.
  intros E. destruct (C83_ellipse t fuel l E) as (Rx & Ry & d & m & Gx & Gy & B & D & W & M & L & _ & _ & Sym & F & La).
  set (u := Rx * sqrt (1 - d / (2 * Ry) * (d / (2 * Ry)))) in *.
  destruct (Sym 0%nat _ ltac:(lia) F) as [Q1 Q2]. rewrite Nat.add_0_r in Q1. rewrite Nat.sub_0_r in Q2. rewrite px_P, py_P in *.
  exists Rx, Ry, d, m, (P u (- (d / 2))), (P u (d / 2)), (P (- u) (- (d / 2))), (P (- u) (- - (d / 2))).
  do 4 (split; [assumption|]). split; [exact F|]. split; [exact La|]. split.
  - apply dist_sqr; [lra|]. rewrite !px_P, !py_P. field.
  - split; [exact Q2|]. split; [exact Q1|]. apply dist_sqr; [lra|]. rewrite !px_P, !py_P. field.
Qed.

(** A circle of radius 1 with dl = 1/2. *)
Definition disc : rtable := [(Name "dl", Some (1 / 2)); (Name "Rx", Some 1); (Name "Ry", Some 1)].
Example C83_ex : exists f l, forall fuel, (f <= fuel)%nat -> gen_ellipse Rlib fuel disc = Ok (Some l).
Proof.
  apply C83_ends. exists 0%nat, None. apply (ellipse_ok Rlib good_R). exists 0, (1 / 2), 0%Z, 1, 1.
  split; [right; split; [reflexivity|split; [apply real_range; [reflexivity|lra]|reflexivity]]|].
  split; [exact (good_0 _ good_R)|]. split; [apply real_range; [reflexivity|lra]|]. split.
  { split; [reflexivity|]. split; [reflexivity|]. cbn [nltb RNum Rlib dblmin]. split; apply Rltb_false; [|lra].
    apply Rle_trans with (bpow radix2 0); [apply bpow_le; lia|]. simpl. lra. }
  split; [in_table|]. split; [|reflexivity]. unfold ell_dl, spacing. change (@neqb RNum (1 / 2) _) with (Reqb (1 / 2) 0). unfold Reqb.
  destruct (Req_EM_T (1 / 2) 0) as [X|_]; [lra|]. apply Rltb_true. rn. lra.
Qed.

Print Assumptions C83_ends.
Print Assumptions C83_ellipse.
Print Assumptions C83_tips.

(** Length of the tangent, how far a corner goes per angle. *)
Definition tangent (a b t : R) : R := sqrt (a * sin t * (a * sin t) + b * cos t * (b * cos t)).
Lemma tangent_derived a b t : exists u v, derivable_pt_lim (fun s => a * cos s) t u /\ derivable_pt_lim (fun s => b * sin s) t v /\ tangent a b t = sqrt (u * u + v * v).
Proof.
  exists (a * - sin t), (b * cos t). split; [apply (derivable_pt_lim_scal cos), derivable_pt_lim_cos|]. split; [apply (derivable_pt_lim_scal sin), derivable_pt_lim_sin|].
  unfold tangent. f_equal. ring.
Qed.

(** Each angle before the two halves are blended is found with the mean of the
    speeds at the last angle and where that speed alone would lead. *)
Theorem C83_steps fuel (d a b stop t : R) s i p q : semiell Rlib fuel d a b stop t = Some s ->
  nth_error s i = Some p -> nth_error s (S i) = Some q ->
  p < stop /\ q - p = (d / tangent a b p + d / tangent a b (p + d / tangent a b p)) / 2.
Proof.
  revert t s i. induction fuel as [|fuel IH]; intros t s i E Hp Hq; [discriminate|]. cbn [semiell] in E. change (@nltb RNum) with Rltb in E.
  destruct (Rltb t stop) eqn:Lt; [|injection E as <-; destruct i; discriminate].
  destruct (semiell Rlib fuel d a b stop (ell_next Rlib d a b t)) as [r|] eqn:F; [|discriminate]. cbn [option_map] in E. injection E as <-.
  destruct i as [|i]; [|exact (IH _ _ _ F Hp Hq)]. cbn in Hp, Hq. injection Hp as ->. apply Rltb_true in Lt. split; [exact Lt|].
  destruct fuel as [|fuel]; [discriminate F|]. cbn [semiell] in F. destruct (nltb (ell_next Rlib d a b p) stop); [|injection F as <-; discriminate].
  destruct (semiell Rlib fuel d a b stop _) as [r'|]; [|discriminate]. cbn [option_map] in F. injection F as <-. cbn in Hq. injection Hq as <-.
  unfold ell_next, ell_da, Model.sqr. fold (tangent a b p). rn. change (@nsqrt RNum) with sqrt. cbn [Rlib lsin lcos]. fold (tangent a b p). fold (tangent a b (p + d / tangent a b p)). lra.
Qed.
Example C83_steps_ex : tangent 2 1 0 = 1 /\ tangent 2 1 (PI / 2) = 2.
Proof.
  unfold tangent. rewrite sin_0, cos_0, sin_PI2, cos_PI2. split; [replace (_ + _) with (1 * 1) by ring|replace (_ + _) with (2 * 2) by ring]; apply sqrt_square; lra.
Qed.
Print Assumptions C83_steps.
