(** The whole stream function, and the velocity. *)

From Coq Require Import List Reals ZArith Lra Psatz Bool Arith Lia.
From Verif.Base Require Import Num.
From Verif.Body Require Import Model.
From Verif.Vortex Require Import Model.
From Verif.Map Require Import Model Spec ProofsAngle ProofsStream.
Import ListNotations.
Local Open Scope R_scope.

Ltac pair_ring := apply (f_equal2 (@pair R R)); first [ring | symmetry; ring].

(** ** Closed bodies have no source in total *)

Definition head_corner (ws : list rwall) (e : rvec) : rvec := match ws with [] => e | w :: _ => corner (seg w) end.
Definition reach (w : rwall) (e : rvec) : Prop :=
  dl (seg w) = vminus e (corner (seg w)) /\
  r (seg w) = V ((x (corner (seg w)) + x e) / 2) ((y (corner (seg w)) + y e) / 2).
Fixpoint chain (ws : list rwall) (e : rvec) : Prop :=
  match ws with [] => True | w :: t => reach w (head_corner t e) /\ chain t e end.

Lemma chain_of : forall l2 l1, closed (l1 ++ l2) -> chain l2 (head_corner (l1 ++ l2) (V 0 0)).
Proof.
  induction l2 as [| w l2 IH]; intros l1 C; cbn [chain]; [exact I |].
  split.
  - assert (N : nth_error (l1 ++ w :: l2) (length l1) = Some w).
    { rewrite nth_error_app2, Nat.sub_diag by lia. reflexivity. }
    destruct l2 as [| v l2].
    + cbn [head_corner].
      assert (M : S (length l1) mod length (l1 ++ [w]) = 0%nat).
      { rewrite app_length. cbn [length]. rewrite Nat.add_1_r. apply Nat.mod_same. lia. }
      destruct (l1 ++ [w]) as [| v t] eqn:E; [destruct l1; discriminate |].
      specialize (C (length l1) w v N). rewrite M in C. exact (C eq_refl).
    + cbn [head_corner].
      assert (M : S (length l1) mod length (l1 ++ w :: v :: l2) = S (length l1)).
      { apply Nat.mod_small. rewrite app_length. cbn [length]. lia. }
      specialize (C (length l1) w v N). rewrite M in C. apply C.
      rewrite nth_error_app2 by lia. replace (S (length l1) - length l1)%nat with 1%nat by lia. reflexivity.
  - specialize (IH (l1 ++ [w])). rewrite <- app_assoc in IH. exact (IH C).
Qed.

Definition flux (b : rshape) (c : rvec) : R :=
  y (r3 (speed b)) * x c - x (r3 (speed b)) * y c
  + o3 (speed b) * ((x c * x c + y c * y c) / 2 - x (axis b) * x c - y (axis b) * y c).
Lemma wall_q_flux : forall b w e, reach w e -> wall_q b w = flux b e - flux b (corner (seg w)).
Proof.
  intros b w e [D M]. unfold wall_q, moves. rewrite D, M. unfold vminus, flux. cbn [x y]. change (T RNum) with R. field.
Qed.
Lemma chain_flux : forall b ws e, chain ws e -> total (wall_q b) ws = flux b e - flux b (head_corner ws e).
Proof.
  intros b ws e. induction ws as [| w ws IH]; intro C; cbn [total head_corner]; [ring |].
  destruct C as [C1 C2]. rewrite (IH C2), (wall_q_flux b w _ C1). ring.
Qed.
Lemma closed_flux : forall b, closed (walls b) -> total (wall_q b) (walls b) = 0.
Proof.
  intros b C. rewrite (chain_flux b (walls b) (head_corner (walls b) (V 0 0))).
  - destruct (walls b); cbn [head_corner]; ring.
  - apply (chain_of (walls b) []). exact C.
Qed.

(** ** Sums of the model *)

Section S.
Variable f : R -> R -> R.
Hypothesis P : principal f.
Variable tiny10 : R.
Notation still := (fun b : rshape => at_rest (K := RNum) tiny10 (speed b)).

Lemma strength_g_wall : forall b w, strength_g (K := RNum) (speed_at b (r (seg w))) (dl (seg w)) = wall_g b w.
Proof. intros. unfold strength_g, wall_g, speed_at, moves, opposite, dot, vadd, vscale, rotl, vsub. cbn. ring. Qed.
Lemma strength_q_wall : forall b w, strength_q (K := RNum) (speed_at b (r (seg w))) (dl (seg w)) = wall_q b w.
Proof. intros. unfold strength_q, wall_q, speed_at, moves, opposite, dot, vadd, vscale, rotl, vsub. cbn. ring. Qed.

Definition body_g (rd2 : R) (p : rvec) (b : rshape) : R :=
  total (fun w => psi_g (K := RNum) ln (vsub p (r (seg w))) rd2 (wg w)) (walls b)
  + (if still b then 0 else total (fun w => psi_g (K := RNum) ln (vsub p (r (seg w))) rd2 (wall_g b w)) (walls b)).
Definition body_q (p : rvec) (b : rshape) : R :=
  if still b then 0 else total (fun w => psi_qatt (K := RNum) f p (r (seg w)) (mid b) (wall_q b w)) (walls b).

Lemma psi_body_form : forall rd2 p s b,
  psi_body (K := RNum) ln f tiny10 rd2 p s b = (fst s + body_g rd2 p b, snd s + body_q p b).
Proof.
  intros rd2 p s b. unfold psi_body, body_g, body_q. cbv zeta.
  rewrite (model_first (fun w => psi_g (K := RNum) ln (vsub p (r (seg w))) rd2 (wg w)) (walls b) s).
  destruct (at_rest (K := RNum) tiny10 (speed b)).
  - pair_ring.
  - rewrite (model_pair (fun w => psi_g (K := RNum) ln (vsub p (r (seg w))) rd2 (strength_g (speed_at b (r (seg w))) (dl (seg w))))
      (fun w => psi_qatt (K := RNum) f p (r (seg w)) (mid b) (strength_q (speed_at b (r (seg w))) (dl (seg w)))) (walls b) _).
    cbn [fst snd]. f_equal.
    + rewrite Rplus_assoc. do 2 f_equal. apply total_ext. intros w _. rewrite strength_g_wall. reflexivity.
    + f_equal. apply total_ext. intros w _. rewrite strength_q_wall. reflexivity.
Qed.
Lemma psi_bodies_form : forall rd2 p bs s,
  fold_left (psi_body (K := RNum) ln f tiny10 rd2 p) bs s = (fst s + total (body_g rd2 p) bs, snd s + total (body_q p) bs).
Proof.
  intros rd2 p bs. induction bs as [| b bs IH]; intros [s t]; cbn [fold_left total].
  - cbn [fst snd]. pair_ring.
  - rewrite IH, psi_body_form. cbn [fst snd]. pair_ring.
Qed.

Lemma psi_form : forall i4 i2 S rd2 ref near far p,
  psi (K := RNum) ln f tiny10 i4 i2 S rd2 ref near far p =
    (total (body_g rd2 p) (bodies S)
     + total (fun o => psi_g (K := RNum) ln (vsub p (pr o)) rd2 (pg o)) far
     + total (fun o => psi_g (K := RNum) ln (vsub p (pr o)) (x (pv o)) (pg o)) near) * i4
    + (total (body_q p) (bodies S) + total (fun o => psi_q (K := RNum) f (vsub p (pr o)) (pg o)) (sources S)) * i2
    + (x p * - (y (flow S) - y ref) + y p * (x (flow S) - x ref)).
Proof.
  intros. unfold psi. cbv zeta. rewrite psi_bodies_form. cbn [fst snd].
  unfold psi_sources.
  rewrite (model_total (fun o => psi_q (K := RNum) f (vsub p (pr o)) (pg o)) (sources S) _).
  rewrite (model_total (fun o => psi_g (K := RNum) ln (vsub p (pr o)) rd2 (pg o)) far _).
  rewrite (model_total (fun o => psi_g (K := RNum) ln (vsub p (pr o)) (x (pv o)) (pg o)) near _).
  unfold dot, rotl, vsub. cbn [x y]. change (@nofZ RNum 0) with 0. cbn [nadd nmul nsub nopp RNum].
  change (T RNum) with R. rewrite !Rplus_0_l. reflexivity.
Qed.

(** ** Rates of change *)

Definition across (u d : rvec) : R := x u * y d - y u * x d.

Lemma across_total : forall {A} (g : A -> rvec) l d, across (vtotal g l) d = total (fun a => across (g a) d) l.
Proof.
  intros A g l d. unfold across. rewrite vtotal_x, vtotal_y. induction l as [| a l IH]; cbn [total]; [ring |].
  rewrite <- IH. ring.
Qed.
Lemma across_plus : forall u v d, across (vplus u v) d = across u d + across v d.
Proof. intros. unfold across, vplus. cbn. ring. Qed.

Definition body_rate (e : R) (p d : rvec) (b : rshape) : R := across (body_flow still e p b) d.
Definition walls_rate (e : R) (p d : rvec) (b : rshape) : R :=
  total (fun w => across (vortex_flow (r (seg w)) e (wg w) p) d) (walls b)
  + (if still b then 0 else total (fun w => across (vortex_flow (r (seg w)) e (wall_g b w) p) d) (walls b)).
Definition middle_rate (p d : rvec) (b : rshape) : R :=
  if still b then 0 else total (fun w => across (source_flow (r (seg w)) (wall_q b w) p) d) (walls b).

Lemma body_rate_split : forall e p d b, body_rate e p d b = walls_rate e p d b + middle_rate p d b.
Proof.
  intros. unfold body_rate, body_flow, walls_rate, middle_rate. rewrite across_plus, across_total.
  destruct (at_rest (K := RNum) tiny10 (speed b)).
  - unfold across. cbn. ring.
  - rewrite across_total.
    rewrite (total_ext (fun w => across (vplus (vortex_flow (r (seg w)) e (wall_g b w) p) (source_flow (r (seg w)) (wall_q b w) p)) d)
      (fun w => across (vortex_flow (r (seg w)) e (wall_g b w) p) d + across (source_flow (r (seg w)) (wall_q b w) p) d) (walls b))
      by (intros; apply across_plus).
    rewrite total_plus. ring.
Qed.

Lemma deriv_body_g : forall rd2 (p d : rvec) b,
  (forall w, In w (walls b) -> 0 < sq p (r (seg w)) + rd2) ->
  derivable_pt_lim (fun t => body_g rd2 (on p d t) b) 0 (4 * PI * walls_rate rd2 p d b).
Proof.
  intros rd2 p d b H. unfold body_g, walls_rate. rewrite Rmult_plus_distr_l.
  apply (derivable_pt_lim_plus (fun t => total (fun w => psi_g (K := RNum) ln (vsub (on p d t) (r (seg w))) rd2 (wg w)) (walls b))
          (fun t => if still b then 0 else total (fun w => psi_g (K := RNum) ln (vsub (on p d t) (r (seg w))) rd2 (wall_g b w)) (walls b))).
  - rewrite Rmult_comm, <- total_scale.
    apply (deriv_total (fun w t => psi_g (K := RNum) ln (vsub (on p d t) (r (seg w))) rd2 (wg w))).
    intros w Hw. rewrite Rmult_comm. apply deriv_psi_g. apply H. exact Hw.
  - destruct (at_rest (K := RNum) tiny10 (speed b)).
    + rewrite Rmult_0_r. apply derivable_pt_lim_const.
    + rewrite Rmult_comm, <- total_scale.
      apply (deriv_total (fun w t => psi_g (K := RNum) ln (vsub (on p d t) (r (seg w))) rd2 (wall_g b w))).
      intros w Hw. rewrite Rmult_comm. apply deriv_psi_g. apply H. exact Hw.
Qed.

Lemma source_linear : forall a (p d : rvec) q, across (source_flow a q p) d = q * across (source_flow a 1 p) d.
Proof. intros. unfold across, source_flow, Rdiv. cbn [x y]. change (T RNum) with R. ring. Qed.

Lemma deriv_body_q : forall (p d : rvec) b, closed (walls b) ->
  (still b = false -> forall w, In w (walls b) -> ~ between (r (seg w)) (mid b) p) ->
  derivable_pt_lim (fun t => body_q (on p d t) b) 0 (2 * PI * middle_rate p d b).
Proof.
  intros p d b C H. unfold body_q, middle_rate.
  destruct (at_rest (K := RNum) tiny10 (speed b)).
  - rewrite Rmult_0_r. apply derivable_pt_lim_const.
  - set (m := across (source_flow (mid b) 1 p) d).
    replace (2 * PI * total (fun w => across (source_flow (r (seg w)) (wall_q b w) p) d) (walls b))
      with (total (fun w => 2 * PI * across (source_flow (r (seg w)) (wall_q b w) p) d - 2 * PI * (wall_q b w * m)) (walls b)).
    + apply (deriv_total (fun w t => psi_qatt (K := RNum) f (on p d t) (r (seg w)) (mid b) (wall_q b w))).
      intros w Hw. unfold m. rewrite <- source_linear. apply deriv_qatt; [exact P |]. apply H; [reflexivity | exact Hw].
    + rewrite (total_ext _ (fun w => across (source_flow (r (seg w)) (wall_q b w) p) d * (2 * PI) + wall_q b w * (- (2 * PI * m)))) by (intros; ring).
      rewrite total_plus, !total_scale. rewrite (closed_flux b C). ring.
Qed.

Lemma stream : forall S e ref near far p,
  (forall b, In b (bodies S) -> closed (walls b)) ->
  smooth still S e near far p ->
  stream_of (psi (K := RNum) ln f tiny10 (/ (4 * PI)) (/ (2 * PI)) S e ref near far) p (flow_of still S e ref near far p).
Proof.
  intros S e ref near far p C [Hw [Hm [Hs [Hf Hn]]]] d. pose proof PI_RGT_0 as HPI.
  change (fun t => psi (K := RNum) ln f tiny10 (/ (4 * PI)) (/ (2 * PI)) S e ref near far (V (x p + t * x d) (y p + t * y d)))
    with (fun t => psi (K := RNum) ln f tiny10 (/ (4 * PI)) (/ (2 * PI)) S e ref near far (on p d t)).
  fold (across (flow_of still S e ref near far p) d).
  apply (deriv_local (fun t =>
    (total (body_g e (on p d t)) (bodies S)
     + total (fun o => psi_g (K := RNum) ln (vsub (on p d t) (pr o)) e (pg o)) far
     + total (fun o => psi_g (K := RNum) ln (vsub (on p d t) (pr o)) (x (pv o)) (pg o)) near) * / (4 * PI)
    + (total (body_q (on p d t)) (bodies S) + total (fun o => psi_q (K := RNum) f (vsub (on p d t) (pr o)) (pg o)) (sources S)) * / (2 * PI)
    + ((x p + t * x d - 0) * - (y (flow S) - y ref) + (y p + t * y d - 0) * (x (flow S) - x ref)))).
  { exists 1. split; [lra |]. intros s _. rewrite psi_form. unfold on. cbn [x y]. rewrite !Rminus_0_r. reflexivity. }
  set (A := total (walls_rate e p d) (bodies S)). set (B := total (middle_rate p d) (bodies S)).
  set (F := total (fun o => across (vortex_flow (pr o) e (pg o) p) d) far).
  set (G := total (fun o => across (vortex_flow (pr o) (x (pv o)) (pg o) p) d) near).
  set (Q := total (fun o => across (source_flow (pr o) (pg o) p) d) (sources S)).
  replace (across (flow_of still S e ref near far p) d)
    with ((4 * PI * A + 4 * PI * F + 4 * PI * G) * / (4 * PI) + (2 * PI * B + 2 * PI * Q) * / (2 * PI)
          + (x d * - (y (flow S) - y ref) + y d * (x (flow S) - x ref))).
  2:{ unfold flow_of. rewrite !across_plus, !across_total.
      rewrite (total_ext (fun a => across (body_flow still e p a) d) (fun b => walls_rate e p d b + middle_rate p d b) (bodies S))
        by (intros; apply body_rate_split).
      rewrite total_plus. fold A B F G Q. unfold across, vminus. cbn [x y]. change (T RNum) with R. field. lra. }
  assert (Sum : forall {X} (g : X -> R -> R) (g' : X -> R) c l, (forall a, In a l -> derivable_pt_lim (g a) 0 (c * g' a)) ->
            derivable_pt_lim (fun t => total (fun a => g a t) l) 0 (c * total g' l)).
  { intros X g g' c l H. rewrite Rmult_comm, <- total_scale. apply (deriv_total g). intros a Ha. rewrite Rmult_comm. apply H. exact Ha. }
  assert (Scal : forall g g' c, derivable_pt_lim g 0 g' -> derivable_pt_lim (fun t => g t * c) 0 (g' * c)).
  { intros g g' c D. apply (deriv_local (fun t => c * g t)).
    - exists 1. split; [lra |]. intros; ring.
    - rewrite (Rmult_comm g'). apply (derivable_pt_lim_scal g c). exact D. }
  apply (derivable_pt_lim_plus (fun t => _ * / (4 * PI) + _ * / (2 * PI)) (fun t => _ + _)).
  - apply (derivable_pt_lim_plus (fun t => _ * / (4 * PI)) (fun t => _ * / (2 * PI))).
    + apply (Scal (fun t => total (body_g e (on p d t)) (bodies S)
               + total (fun o => psi_g (K := RNum) ln (vsub (on p d t) (pr o)) e (pg o)) far
               + total (fun o => psi_g (K := RNum) ln (vsub (on p d t) (pr o)) (x (pv o)) (pg o)) near)).
      apply (derivable_pt_lim_plus (fun t => _ + _) (fun t => total _ near)).
      * apply (derivable_pt_lim_plus (fun t => total _ (bodies S)) (fun t => total _ far)).
        -- apply (Sum _ (fun b t => body_g e (on p d t) b) (walls_rate e p d)). intros b Hb. apply deriv_body_g. intros w Hin. apply (Hw b); assumption.
        -- apply (Sum _ (fun o t => psi_g (K := RNum) ln (vsub (on p d t) (pr o)) e (pg o)) (fun o => across (vortex_flow (pr o) e (pg o) p) d)).
           intros o Ho. apply deriv_psi_g. apply Hf. exact Ho.
      * apply (Sum _ (fun o t => psi_g (K := RNum) ln (vsub (on p d t) (pr o)) (x (pv o)) (pg o)) (fun o => across (vortex_flow (pr o) (x (pv o)) (pg o) p) d)).
        intros o Ho. apply deriv_psi_g. apply Hn. exact Ho.
    + apply (Scal (fun t => total (body_q (on p d t)) (bodies S) + total (fun o => psi_q (K := RNum) f (vsub (on p d t) (pr o)) (pg o)) (sources S))).
      apply (derivable_pt_lim_plus (fun t => total _ (bodies S)) (fun t => total _ (sources S))).
      * apply (Sum _ (fun b t => body_q (on p d t) b) (middle_rate p d)). intros b Hb. apply deriv_body_q; [apply C; exact Hb |].
        intros E w Hin. apply (Hm b); assumption.
      * apply (Sum _ (fun o t => psi_q (K := RNum) f (vsub (on p d t) (pr o)) (pg o)) (fun o => across (source_flow (pr o) (pg o) p) d)).
        intros o Ho. apply deriv_angle; [exact P |]. apply Hs. exact Ho.
  - apply (derivable_pt_lim_plus (fun t => (x p + t * x d - 0) * - (y (flow S) - y ref)) (fun t => (y p + t * y d - 0) * (x (flow S) - x ref))).
    + apply (Scal (fun t => x p + t * x d - 0)). apply path_x.
    + apply (Scal (fun t => y p + t * y d - 0)). apply path_x.
Qed.

End S.
