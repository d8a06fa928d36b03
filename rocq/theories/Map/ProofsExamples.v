(** Cases where the maps are wrong, and the cases used as examples. *)

From Coq Require Import List Reals ZArith Lra Psatz Bool Arith Lia Permutation.
From Verif.Base Require Import Num.
From Verif.Body Require Import Model.
From Verif.Vortex Require Import Model.
From Verif.Map Require Import Model Spec ProofsAngle ProofsStream ProofsFlow ProofsVelocity ProofsCut ProofsCell ProofsPressure.
Import ListNotations.
Local Open Scope R_scope.

Lemma square_closed : forall g1 g2 g3 g4 s1 s2 s3 s4, closed (square g1 g2 g3 g4 s1 s2 s3 s4).
Proof.
  intros g1 g2 g3 g4 s1 s2 s3 s4 i w v Hw Hv. unfold square in *. cbn [length] in Hv.
  destruct i as [| [| [| [| i]]]]; cbn [nth_error] in Hw; [.. | destruct i; discriminate];
    match type of Hv with nth_error _ ?n = _ => let k := eval vm_compute in n in change n with k in Hv end;
    cbn [nth_error] in Hv;
    (match type of Hw with Some ?a = _ => assert (w = a) by congruence end);
    (match type of Hv with Some ?a = _ => assert (v = a) by congruence end); subst w v;
    split; reflexivity.
Qed.

Lemma still_zero : forall tiny10, 0 < tiny10 -> at_rest (K := RNum) tiny10 (mkVec3 (K := RNum) (at_ 0 0) 0) = true.
Proof.
  intros t H. unfold at_rest. cbn [r3 o3 x y at_]. apply Rltb_true. cbn [nadd nabs RNum]. rewrite Rabs_R0. lra.
Qed.

(** A body at rest with circulation on a wall. *)
Definition wall_case : rspace := mkSpace (K := RNum) [body_with (square 1 0 0 0 0 0 0 0) (at_ 0 0)] [] [] (at_ 1 0) 1.

Lemma in_square : forall g1 g2 g3 g4 s1 s2 s3 s4 w, In w (square g1 g2 g3 g4 s1 s2 s3 s4) ->
  slip (seg w) = false /\ -1 <= x (r (seg w)) <= 1 /\ -1 <= y (r (seg w)) <= 1.
Proof.
  intros g1 g2 g3 g4 s1 s2 s3 s4 w H. unfold square in H. cbn [In] in H.
  destruct H as [<- | [<- | [<- | [<- | []]]]]; cbn; (split; [reflexivity | split; lra]).
Qed.

Lemma wall_smooth : forall tiny10, 0 < tiny10 ->
  smooth (fun b => at_rest (K := RNum) tiny10 (speed b)) wall_case 0 [] [] (at_ 3 0).
Proof.
  intros t H. unfold smooth, wall_case. cbn [bodies sources In].
  split; [| split; [| split; [| split]]]; try (intros; contradiction).
  - intros b w [<- | []] Hw. cbn [walls body_with] in Hw. apply in_square in Hw. destruct Hw as [_ [X Y]].
    unfold sq. cbn [x y at_]. change (T RNum) with R in *. nra.
  - intros b w [<- | []] E. cbn [speed body_with] in E. rewrite still_zero in E by exact H. discriminate.
Qed.
Lemma wall_flow : forall tiny10, 0 < tiny10 ->
  0 < y (flow_of (fun b => at_rest (K := RNum) tiny10 (speed b)) wall_case 0 (at_ 0 0) [] [] (at_ 3 0)).
Proof.
  intros t H. pose proof PI_RGT_0. unfold flow_of, wall_case. cbn [bodies sources flow vtotal]. unfold body_flow. cbn [speed body_with].
  rewrite still_zero by exact H. cbn [walls body_with square vtotal wall_between wg seg r]. unfold vplus, vminus, vortex_flow, sq. cbn [x y at_].
  match goal with |- 0 < ?e => replace e with (1 / (8 * PI)) by (field; lra) end.
  apply Rdiv_lt_0_compat; lra.
Qed.
Lemma wall_velocity : forall tiny10 ip ls, 0 < tiny10 ->
  velocity (K := RNum) tiny10 (/ (2 * PI)) ip ls wall_case (Some ([], [])) (at_ 3 0) = at_ 1 0.
Proof.
  intros t ip ls H. unfold velocity, wall_case. cbv zeta. cbn [bodies sources flow dt vortices]. rewrite body_still.
  - unfold near_influence, far_influence, sink_influence. cbn [fold_left].
    apply vec_eq; unfold vadd, vscale, vzero; cbn; rring.
  - intros b [<- | []]. cbn [speed body_with walls]. split; [apply still_zero; exact H |]. intros w Hw. apply in_square in Hw. tauto.
Qed.

(** A source and a time step. *)
Definition source_case : rspace := mkSpace (K := RNum) [] [] [mkPart (K := RNum) (at_ 0 0) 1 (at_ 0 0) 0] (at_ 0 0) 1.
Lemma source_smooth : forall still, smooth still source_case 0 [] [] (at_ 1 0).
Proof.
  intro still. unfold smooth, source_case. cbn [bodies sources In].
  split; [| split; [| split; [| split]]]; try (intros; contradiction).
  intros o [<- | []]. cbn. lra.
Qed.
Lemma source_flow_case : forall still, x (flow_of still source_case 0 (at_ 0 0) [] [] (at_ 1 0)) = / (2 * PI).
Proof.
  intro still. pose proof PI_RGT_0. unfold flow_of, source_case. cbn [bodies sources flow vtotal pr pg]. unfold vplus, vminus, source_flow, sq. cbn [x y at_]. rfield. lra.
Qed.
Lemma source_velocity : forall tiny10 ls,
  x (velocity (K := RNum) tiny10 (/ (2 * PI)) (/ PI) ls source_case (Some ([], [])) (at_ 1 0)) < / (2 * PI).
Proof.
  intros t ls. pose proof PI_RGT_0. unfold velocity, source_case. cbv zeta. cbn [bodies sources flow dt vortices].
  unfold near_influence, far_influence, sink_influence, body_influence. cbn [fold_left pr pg].
  unfold vadd, vscale, vzero, vsub, abs2. cbn [x y at_ nadd nsub nmul ndiv nabs RNum]. change (@nofZ RNum 0) with 0. rewrite Rabs_R1.
  match goal with |- ?e < _ => replace e with (/ (2 * PI) * (PI / (PI + 1))) by (field; lra) end.
  assert (PI / (PI + 1) < 1).
  { apply Rmult_lt_reg_r with (PI + 1); [lra |]. replace (PI / (PI + 1) * (PI + 1)) with PI by (field; lra). lra. }
  assert (0 < / (2 * PI)) by (apply Rinv_0_lt_compat; lra). nra.
Qed.

(** ** A source to the right of the picture *)

Definition right_case (a b : R) : rspace := mkSpace (K := RNum) [] [] [mkPart (K := RNum) (at_ a b) 1 (at_ 0 0) 0] (at_ 0 0) 1.
Lemma jump : forall f, principal f -> forall X Ya Yb, X < 0 -> Ya < 0 -> 0 < Yb -> PI < f Yb X - f Ya X.
Proof. intros f P X Ya Yb HX Ha Hb. pose proof (range_left_down f P Ya X HX Ha). pose proof (range_left_up f P Yb X HX (Rlt_le _ _ Hb)). lra. Qed.
Lemma psi_right : forall f tiny10 i4 a b p,
  psi (K := RNum) ln f tiny10 i4 (/ (2 * PI)) (right_case a b) 0 (at_ 0 0) [] [] p = f (y p - b) (x p - a) / (2 * PI).
Proof.
  intros. pose proof PI_RGT_0. rewrite psi_form. unfold right_case. cbn [bodies sources flow total pr pg]. unfold psi_q, vsub. cbn [x y at_ nmul nsub RNum].
  rfield. lra.
Qed.
Lemma psi_without : forall f tiny10 i4 a b p,
  psi (K := RNum) ln f tiny10 i4 (/ (2 * PI)) (without (right_case a b)) 0 (at_ 0 0) [] [] p = 0.
Proof.
  intros. rewrite psi_form. unfold right_case, without. cbn [bodies sources flow total x y at_]. change (T RNum) with R. rring.
Qed.

Lemma no_gaps_right : forall order (a b : R), (forall n, In n order -> (fst n <= 1)%nat) -> 2 < a ->
  gap_list (K := RNum) (sources (right_case a b)) (at_ 0 0) 1 order = [].
Proof.
  intros order a b B Ha. unfold gap_list. induction order as [| n order IH]; cbn [flat_map]; [reflexivity |].
  rewrite IH by (intros; apply B; right; assumption). rewrite app_nil_r, gap_total, node_point.
  unfold right_case. cbn [sources total pr pg].
  destruct (in_cell (K := RNum) (point (at_ 0 0) 1 (fst n) (snd n)) 1 (at_ a b)) eqn:E.
  - exfalso. apply in_cell_true in E. unfold point in E. cbn [x y at_] in E.
    assert (INR (fst n) <= INR 1) by (apply le_INR; apply B; left; reflexivity). cbn [INR] in H. change (T RNum) with R in *. lra.
  - rewrite Rplus_0_l. replace (@neqb RNum 0 (nofZ 0)) with true; [reflexivity |]. symmetry. apply Reqb_true. reflexivity.
Qed.

(** A source in a column whose number does not fit. *)
Lemma wide_gaps : forall order (b : R) g, In g (gap_list (K := RNum) (sources (right_case (65536 + / 2) b)) (at_ 0 0) 1 order) -> fst (fst g) = 0%Z.
Proof.
  intros order b g H. unfold gap_list in H. apply in_flat_map in H. destruct H as [[c d] [_ H]]. cbn [fst snd] in H.
  rewrite gap_total, node_point in H. unfold right_case in H. cbn [sources total pr pg] in H.
  destruct (in_cell (K := RNum) (point (at_ 0 0) 1 c d) 1 (at_ (65536 + / 2) b)) eqn:E.
  - apply in_cell_true in E. unfold point in E. cbn [x y at_] in E. destruct E as [[E1 E2] _].
    assert (C : Z.of_nat c = 65536%Z).
    { rewrite INR_IZR_INZ in E1, E2. 
      assert (IZR (Z.of_nat c) < IZR 65537) by (change (T RNum) with R in *; lra).
      assert (IZR 65535 < IZR (Z.of_nat c)) by (change (T RNum) with R in *; lra).
      apply lt_IZR in H0. apply lt_IZR in H1. lia. }
    destruct (neqb _ _) in H; [contradiction |]. destruct H as [<- | []]. cbn [fst]. unfold wrap16. rewrite C. reflexivity.
  - rewrite Rplus_0_l in H. replace (@neqb RNum 0 (nofZ 0)) with true in H; [contradiction |]. symmetry. apply Reqb_true. reflexivity.
Qed.
Lemma wide_shift : forall order b j v, shifted (K := RNum) (fun k => Z.leb (Z.of_nat 1) k)
  (gap_list (K := RNum) (sources (right_case (65536 + / 2) b)) (at_ 0 0) 1 order) j v = v.
Proof.
  intros order b j v. rewrite shifted_total. rewrite total_zero; [rring |].
  intros g Hg. pose proof (wide_gaps order b g Hg) as E. destruct g as [[gx gy] gv]. cbn [fst snd] in *. rewrite E.
  change (Z.of_nat 1 <=? 0)%Z with false. rewrite andb_false_r. reflexivity.
Qed.

(** ** Pressure *)

Definition sheet_case (ws : list rwall) : rspace := mkSpace (K := RNum) [body_with ws (at_ 0 0)] [] [] (at_ 0 0) 1.
Lemma sheet_first : forall i2, pressure (K := RNum) i2 (sheet_case (square 0 0 0 0 1 0 0 (-1))) (fun _ => at_ 0 0) None (at_ 3 0) = i2 * (3 / 10).
Proof.
  intro i2. rewrite pressure_form. unfold sheet_case. cbn [bodies vortices flow dt total]. unfold bodies_term, body_with. cbn [walls square total sheet_sum].
  unfold moving_term, sheet_term, wall_between, speed_at, strength_g, strength_q, opposite, kernel, abs2, dot, vadd, vsub, vdiv, vscale, rotl, vminus.
  cbn [seg r dl wgsum speed axis r3 o3 x y at_ nadd nsub nmul ndiv nopp RNum]. change (@nofZ RNum 1) with 1. change (@nofZ RNum 0) with 0. rfield.
Qed.
Lemma sheet_turned : forall i2, pressure (K := RNum) i2 (sheet_case (tl (square 0 0 0 0 1 0 0 (-1)) ++ firstn 1 (square 0 0 0 0 1 0 0 (-1)))) (fun _ => at_ 0 0) None (at_ 3 0) = i2 * (1 / 5).
Proof.
  intro i2. rewrite pressure_form. unfold sheet_case. cbn [bodies vortices flow dt total]. unfold bodies_term, body_with. cbn [walls square total tl firstn app sheet_sum].
  unfold moving_term, sheet_term, wall_between, speed_at, strength_g, strength_q, opposite, kernel, abs2, dot, vadd, vsub, vdiv, vscale, rotl, vminus.
  cbn [seg r dl wgsum speed axis r3 o3 x y at_ nadd nsub nmul ndiv nopp RNum]. change (@nofZ RNum 1) with 1. change (@nofZ RNum 0) with 0. rfield.
Qed.
Lemma sheet_wg : sheet 1 (at_ 3 0) wg 0 (square 1 0 0 0 0 0 0 0) = - / 10.
Proof. unfold square. cbn [sheet]. unfold wall_between, sq, vminus. cbn [seg r dl wg x y at_]. rfield. Qed.
