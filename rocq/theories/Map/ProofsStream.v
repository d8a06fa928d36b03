(** The stream function is that of the flow. *)

From Coq Require Import List Reals ZArith Lra Psatz Bool Arith.
From Verif.Base Require Import Num.
From Verif.Body Require Import Model.
From Verif.Vortex Require Import Model.
From Verif.Map Require Import Model Spec ProofsAngle.
Import ListNotations.
Local Open Scope R_scope.

Notation V := (mkVec (K := RNum)).

(** [ring] also when a side is a variable of the model. *)
Ltac rring := match goal with |- ?a = ?b => apply (Rplus_eq_reg_l 0 a b) end; change (T RNum) with R; ring.
Ltac rfield := match goal with |- ?a = ?b => apply (Rplus_eq_reg_l 0 a b) end; change (T RNum) with R; field.

(** ** Sums *)

Lemma fold_total : forall {A} (f : A -> R) l s, fold_left (fun s a => s + f a) l s = s + total f l.
Proof. intros A f l. induction l as [| a l IH]; intro s; cbn; [ring | rewrite IH; ring]. Qed.
Lemma fold_pair : forall {A} (f g : A -> R) l (s : R * R),
  fold_left (fun s a => (fst s + f a, snd s + g a)) l s = (fst s + total f l, snd s + total g l).
Proof.
  intros A f g l. induction l as [| a l IH]; intros [s t]; cbn [fold_left total fst snd].
  - f_equal; ring.
  - rewrite IH. cbn [fst snd]. f_equal; ring.
Qed.
Lemma fold_first : forall {A} (f : A -> R) l (s : R * R),
  fold_left (fun s a => (fst s + f a, snd s)) l s = (fst s + total f l, snd s).
Proof.
  intros A f l. induction l as [| a l IH]; intros [s t]; cbn [fold_left total fst snd].
  - f_equal; ring.
  - rewrite IH. cbn [fst snd]. f_equal; ring.
Qed.
(** The same with the operations as the model has them. *)
Lemma model_total : forall {A} (f : A -> RNum) l (s : RNum),
  fold_left (fun (s : RNum) a => @nadd RNum s (f a)) l s = s + total f l.
Proof. exact @fold_total. Qed.
Lemma model_pair : forall {A} (f g : A -> RNum) l (s : RNum * RNum),
  fold_left (fun (s : RNum * RNum) a => (@nadd RNum (fst s) (f a), @nadd RNum (snd s) (g a))) l s = (fst s + total f l, snd s + total g l).
Proof. exact @fold_pair. Qed.
Lemma model_first : forall {A} (f : A -> RNum) l (s : RNum * RNum),
  fold_left (fun (s : RNum * RNum) a => (@nadd RNum (fst s) (f a), snd s)) l s = (fst s + total f l, snd s).
Proof. exact @fold_first. Qed.
Lemma total_ext : forall {A} (f g : A -> R) l, (forall a, In a l -> f a = g a) -> total f l = total g l.
Proof. intros A f g l H. induction l as [| a l IH]; cbn; [reflexivity |]. rewrite H, IH; [reflexivity | intros; apply H; right; assumption | left; reflexivity]. Qed.
Lemma total_scale : forall {A} (f : A -> R) c l, total (fun a => f a * c) l = total f l * c.
Proof. intros. induction l as [| a l IH]; cbn; [ring | rewrite IH; ring]. Qed.
Lemma total_plus : forall {A} (f g : A -> R) l, total (fun a => f a + g a) l = total f l + total g l.
Proof. intros. induction l as [| a l IH]; cbn; [ring | rewrite IH; ring]. Qed.
Lemma vtotal_x : forall {A} (f : A -> rvec) l, x (vtotal f l) = total (fun a => x (f a)) l.
Proof. intros. induction l as [| a l IH]; cbn; [reflexivity | rewrite <- IH; reflexivity]. Qed.
Lemma vtotal_y : forall {A} (f : A -> rvec) l, y (vtotal f l) = total (fun a => y (f a)) l.
Proof. intros. induction l as [| a l IH]; cbn; [reflexivity | rewrite <- IH; reflexivity]. Qed.

Lemma deriv_total : forall {A} (f : A -> R -> R) (f' : A -> R) t l,
  (forall a, In a l -> derivable_pt_lim (f a) t (f' a)) ->
  derivable_pt_lim (fun s => total (fun a => f a s) l) t (total f' l).
Proof.
  intros A f f' t l. induction l as [| a l IH]; intro H; cbn [total].
  - apply derivable_pt_lim_const.
  - apply (derivable_pt_lim_plus (f a) (fun s => total (fun a => f a s) l)); [apply H; left; reflexivity |].
    apply IH. intros b Hb. apply H. right. exact Hb.
Qed.

(** ** The pieces *)

Section S.
Variable f : R -> R -> R.
Hypothesis P : principal f.

Definition on (p d : rvec) (t : R) : rvec := V (x p + t * x d) (y p + t * y d).

Lemma path_x : forall (c p d : R), derivable_pt_lim (fun t => p + t * d - c) 0 d.
Proof.
  intros. cut (derivable_pt_lim (fun t => p + t * d - c) 0 (0 + (1 * d + 0 * 0) - 0)).
  { intro D. replace (0 + (1 * d + 0 * 0) - 0) with d in D by ring. exact D. }
  apply (derivable_pt_lim_minus (fun t => p + t * d) (fun _ => c)); [| apply derivable_pt_lim_const].
  apply (derivable_pt_lim_plus (fun _ => p) (fun t => t * d)); [apply derivable_pt_lim_const |].
  apply (derivable_pt_lim_mult (fun t => t) (fun _ => d)); [apply derivable_pt_lim_id | apply derivable_pt_lim_const].
Qed.
Lemma path_x' : forall (c p d : R), derivable_pt_lim (fun t => c - (p + t * d)) 0 (- d).
Proof.
  intros. apply (deriv_local (fun t => - (p + t * d - c))).
  - exists 1. split; [lra |]. intros; ring.
  - apply (derivable_pt_lim_opp (fun t => p + t * d - c)). apply path_x.
Qed.

Lemma deriv_psi_g : forall (a : rvec) (e g : R) (p d : rvec), 0 < sq p a + e ->
  derivable_pt_lim (fun t => psi_g (K := RNum) ln (vsub (on p d t) a) e g) 0
    (4 * PI * (x (vortex_flow a e g p) * y d - y (vortex_flow a e g p) * x d)).
Proof.
  intros a e g p d H. pose proof PI_RGT_0.
  set (X := fun t => x p + t * x d - x a). set (Y := fun t => y p + t * y d - y a).
  assert (X0 : X 0 = x p - x a) by (unfold X; ring). assert (Y0 : Y 0 = y p - y a) by (unfold Y; ring).
  assert (D : derivable_pt_lim (fun t => X t * X t + Y t * Y t + e) 0
                (x d * X 0 + X 0 * x d + (y d * Y 0 + Y 0 * y d) + 0)).
  { apply (derivable_pt_lim_plus (fun t => X t * X t + Y t * Y t) (fun _ => e)); [| apply derivable_pt_lim_const].
    apply (derivable_pt_lim_plus (fun t => X t * X t) (fun t => Y t * Y t)).
    - apply (derivable_pt_lim_mult X X); apply path_x.
    - apply (derivable_pt_lim_mult Y Y); apply path_x. }
  assert (Q : X 0 * X 0 + Y 0 * Y 0 + e = sq p a + e) by (rewrite X0, Y0; reflexivity).
  replace (4 * PI * (x (vortex_flow a e g p) * y d - y (vortex_flow a e g p) * x d))
    with (- g * (/ (X 0 * X 0 + Y 0 * Y 0 + e) * (x d * X 0 + X 0 * x d + (y d * Y 0 + Y 0 * y d) + 0))).
  - apply (derivable_pt_lim_scal (fun t => ln (X t * X t + Y t * Y t + e)) (- g)).
    apply (derivable_pt_lim_comp (fun t => X t * X t + Y t * Y t + e) ln); [exact D |].
    apply derivable_pt_lim_ln. rewrite Q. exact H.
  - rewrite Q, X0, Y0. unfold vortex_flow. cbn [x y]. change (T RNum) with R in *. field. repeat split; lra.
Qed.

Lemma deriv_angle : forall (a : rvec) (q : R) (p d : rvec), ~ (y p = y a /\ x p <= x a) ->
  derivable_pt_lim (fun t => psi_q (K := RNum) f (vsub (on p d t) a) q) 0
    (2 * PI * (x (source_flow a q p) * y d - y (source_flow a q p) * x d)).
Proof.
  intros a q p d H. pose proof PI_RGT_0.
  set (X := fun t => x p + t * x d - x a). set (Y := fun t => y p + t * y d - y a).
  assert (X0 : X 0 = x p - x a) by (unfold X; ring). assert (Y0 : Y 0 = y p - y a) by (unfold Y; ring).
  assert (C : 0 < X 0 \/ Y 0 <> 0).
  { rewrite X0, Y0. destruct (Req_dec (y p - y a) 0) as [E | E]; [| right; exact E]. left.
    change (T RNum) with R in *.
    destruct (Rle_dec (x p) (x a)); [exfalso; apply H; split; lra | lra]. }
  assert (N : 0 < sq p a).
  { unfold sq. rewrite <- X0, <- Y0. destruct C; nra. }
  replace (2 * PI * (x (source_flow a q p) * y d - y (source_flow a q p) * x d))
    with (q * ((X 0 * y d - Y 0 * x d) / (X 0 * X 0 + Y 0 * Y 0))).
  - apply (derivable_pt_lim_scal (fun t => f (Y t) (X t)) q).
    apply (angle_path f P X Y); [apply path_x | apply path_x | exact C].
  - replace (X 0 * X 0 + Y 0 * Y 0) with (sq p a) by (rewrite X0, Y0; reflexivity).
    rewrite X0, Y0. unfold source_flow. cbn [x y]. change (T RNum) with R in *. field. repeat split; lra.
Qed.

(** ** The pair of a wall and the middle of the body *)

Lemma off_between : forall a c p : rvec, ~ between a c p ->
  0 < (x a - x p) * (x c - x p) + (y a - y p) * (y c - y p) \/
  - (y a - y p) * (x c - x p) + (x a - x p) * (y c - y p) <> 0.
Proof.
  intros [ax ay] [cx cy] [px py] H. unfold between in H. cbn [x y] in *.
  set (u := ax - px). set (v := ay - py). set (s := cx - px). set (t := cy - py).
  destruct (Req_dec (- v * s + u * t) 0) as [E | E]; [| right; exact E]. left.
  destruct (Rlt_dec 0 (u * s + v * t)) as [L | L]; [exact L |]. exfalso. apply H.
  set (w := (s - u) * (s - u) + (t - v) * (t - v)).
  assert (W0 : 0 <= w) by (unfold w; nra).
  destruct (Req_dec w 0) as [Z | Z].
  - assert (s - u = 0 /\ t - v = 0) as [E1 E2].
    { apply Rplus_sqr_eq_0. exact Z. }
    assert (Q : u * s + v * t = u * u + v * v) by (replace s with u by lra; replace t with v by lra; reflexivity).
    assert (u = 0 /\ v = 0) as [U0 V0] by (apply Rplus_sqr_eq_0; unfold Rsqr; nra).
    exists 0. unfold u, v in *. change (T RNum) with R in *. split; [lra |]. split; lra.
  - assert (W : 0 < w) by lra.
    exists ((u * u + v * v - (u * s + v * t)) / w). split; [split |].
    + apply Rmult_le_reg_r with w; [exact W |]. unfold Rdiv. rewrite Rmult_assoc, Rinv_l, Rmult_1_r by lra. nra.
    + apply Rmult_le_reg_r with w; [exact W |]. unfold Rdiv. rewrite Rmult_assoc, Rinv_l, Rmult_1_r by lra. unfold w. nra.
    + assert (E1 : cx - ax = s - u) by (unfold s, u; ring). assert (E2 : cy - ay = t - v) by (unfold t, v; ring).
      change (T RNum) with R in *. rewrite E1, E2.
      assert (A1 : (u * u + v * v - (u * s + v * t)) * (s - u) = - u * w).
      { unfold w.
        replace ((u * u + v * v - (u * s + v * t)) * (s - u)) with (- u * ((s - u) * (s - u) + (t - v) * (t - v)) + (t - v) * (- v * s + u * t)) by ring.
        rewrite E. ring. }
      assert (A2 : (u * u + v * v - (u * s + v * t)) * (t - v) = - v * w).
      { unfold w.
        replace ((u * u + v * v - (u * s + v * t)) * (t - v)) with (- v * ((s - u) * (s - u) + (t - v) * (t - v)) - (s - u) * (- v * s + u * t)) by ring.
        rewrite E. ring. }
      split.
      * replace ((u * u + v * v - (u * s + v * t)) / w * (s - u)) with ((u * u + v * v - (u * s + v * t)) * (s - u) / w) by (field; lra).
        rewrite A1. unfold u. field. lra.
      * replace ((u * u + v * v - (u * s + v * t)) / w * (t - v)) with ((u * u + v * v - (u * s + v * t)) * (t - v) / w) by (field; lra).
        rewrite A2. unfold v. field. lra.
Qed.

Lemma nonzero_pair : forall u v s w, 0 < u * s + v * w \/ - v * s + u * w <> 0 -> 0 < u * u + v * v.
Proof.
  intros u v s w O. destruct (Req_dec u 0) as [-> | H]; [| nra]. destruct (Req_dec v 0) as [-> | H]; [| nra].
  exfalso. destruct O as [O | O]; [lra | apply O; ring].
Qed.

Lemma deriv_qatt : forall (a c : rvec) (q : R) (p d : rvec), ~ between a c p ->
  derivable_pt_lim (fun t => psi_qatt (K := RNum) f (on p d t) a c q) 0
    (2 * PI * (x (source_flow a q p) * y d - y (source_flow a q p) * x d)
     - 2 * PI * (x (source_flow c q p) * y d - y (source_flow c q p) * x d)).
Proof.
  intros a c q p d H. pose proof PI_RGT_0. pose proof (off_between a c p H) as O.
  set (X := fun t => (x a - (x p + t * x d)) * (x c - (x p + t * x d)) + (y a - (y p + t * y d)) * (y c - (y p + t * y d))).
  set (Y := fun t => - (y a - (y p + t * y d)) * (x c - (x p + t * x d)) + (x a - (x p + t * x d)) * (y c - (y p + t * y d))).
  set (u := x a - x p) in *. set (v := y a - y p) in *. set (s := x c - x p) in *. set (w := y c - y p) in *.
  assert (Eu : x a - (x p + 0 * x d) = u) by (unfold u; change (T RNum) with R; ring).
  assert (Ev : y a - (y p + 0 * y d) = v) by (unfold v; change (T RNum) with R; ring).
  assert (Es : x c - (x p + 0 * x d) = s) by (unfold s; change (T RNum) with R; ring).
  assert (Ew : y c - (y p + 0 * y d) = w) by (unfold w; change (T RNum) with R; ring).
  assert (DX : derivable_pt_lim X 0 (- x d * s + u * - x d + (- y d * w + v * - y d))).
  { rewrite <- Eu, <- Ev, <- Es, <- Ew. unfold X.
    apply (derivable_pt_lim_plus (fun t => (x a - (x p + t * x d)) * (x c - (x p + t * x d))) (fun t => (y a - (y p + t * y d)) * (y c - (y p + t * y d)))).
    - apply (derivable_pt_lim_mult (fun t => x a - (x p + t * x d)) (fun t => x c - (x p + t * x d))); apply path_x'.
    - apply (derivable_pt_lim_mult (fun t => y a - (y p + t * y d)) (fun t => y c - (y p + t * y d))); apply path_x'. }
  assert (DY : derivable_pt_lim Y 0 (- - y d * s + - v * - x d + (- x d * w + u * - y d))).
  { rewrite <- Eu, <- Ev, <- Es, <- Ew. unfold Y.
    apply (derivable_pt_lim_plus (fun t => - (y a - (y p + t * y d)) * (x c - (x p + t * x d))) (fun t => (x a - (x p + t * x d)) * (y c - (y p + t * y d)))).
    - apply (derivable_pt_lim_mult (fun t => - (y a - (y p + t * y d))) (fun t => x c - (x p + t * x d))); [| apply path_x'].
      apply (derivable_pt_lim_opp (fun t => y a - (y p + t * y d))). apply path_x'.
    - apply (derivable_pt_lim_mult (fun t => x a - (x p + t * x d)) (fun t => y c - (y p + t * y d))); apply path_x'. }
  assert (X0 : X 0 = u * s + v * w) by (unfold X; rewrite Eu, Ev, Es, Ew; reflexivity).
  assert (Y0 : Y 0 = - v * s + u * w) by (unfold Y; rewrite Eu, Ev, Es, Ew; reflexivity).
  assert (N1 : 0 < u * u + v * v) by (apply (nonzero_pair u v s w); exact O).
  assert (N2 : 0 < s * s + w * w).
  { apply (nonzero_pair s w u v). destruct O as [O | O]; [left; lra | right; intro E; apply O; lra]. }
  match goal with |- derivable_pt_lim _ _ ?l =>
    replace l with (- q * ((X 0 * (- - y d * s + - v * - x d + (- x d * w + u * - y d)) - Y 0 * (- x d * s + u * - x d + (- y d * w + v * - y d))) / (X 0 * X 0 + Y 0 * Y 0))) end.
  - apply (derivable_pt_lim_scal (fun t => f (Y t) (X t)) (- q)).
    apply (angle_path f P X Y); [exact DX | exact DY |]. rewrite X0, Y0. exact O.
  - rewrite X0, Y0.
    replace ((u * s + v * w) * (u * s + v * w) + (- v * s + u * w) * (- v * s + u * w)) with ((u * u + v * v) * (s * s + w * w)) by ring.
    unfold source_flow. cbn [x y].
    replace (sq p a) with (u * u + v * v) by (unfold sq, u, v; change (T RNum) with R; ring).
    replace (sq p c) with (s * s + w * w) by (unfold sq, s, w; change (T RNum) with R; ring).
    replace (x p - x a) with (- u) by (unfold u; change (T RNum) with R; ring).
    replace (y p - y a) with (- v) by (unfold v; change (T RNum) with R; ring).
    replace (x p - x c) with (- s) by (unfold s; change (T RNum) with R; ring).
    replace (y p - y c) with (- w) by (unfold w; change (T RNum) with R; ring).
    change (T RNum) with R in *. field. repeat split; lra.
Qed.

End S.
