(** C125: a flow and its mirror image. *)

From Coq Require Import ZArith Bool List Lia Reals Lra.
From Verif.Base Require Import Num.
From Verif.Body Require Import Model Spec.
From Verif.Vortex Require Import Model ProofsKernel.
From Verif.Map Require Import Model ModelLinear SpecSimilar SpecMirror ProofsMirror ProofsMirrorDiff.
Import ListNotations.
Local Open Scope R_scope.

(** Velocity at a point that is not a corner of a body. *)
Theorem C125_velocity : forall (tiny ip ip1 : R) lnf at2 (S : @space RNum) near far p,
  log_like lnf -> angle_like at2 -> Forall (off_ends p) (bodies S) ->
  velocity (K:=RNum) tiny ip ip1 (linear_influence (K:=RNum) lnf at2) (space_mir S) (Some (near, map vort_mir far)) (mir p) =
  mir (velocity (K:=RNum) tiny ip ip1 (linear_influence (K:=RNum) lnf at2) S (Some (near, far)) p).
Proof. intros. apply velocity_mir; assumption. Qed.
Print Assumptions C125_velocity.
(** The two conditions hold for the logarithm and the angle of a point on the right. *)
Example C125_log : log_like ln /\ angle_like (fun b a => atan (b / a)).
Proof.
  split; [intros a A; apply ln_Rinv, A|]. intros c a b C. f_equal. unfold Rdiv. rewrite Rinv_mult.
  transitivity (c * / c * (a * / b)); [ring|]. rewrite Rinv_r by lra. ring.
Qed.

(** The series in the centre of a cell that stands for the far cells. *)
Theorem C125_series : forall (ip ip1 : R) o cm p,
  far_taylor (K:=RNum) ip ip1 (mir o) (map (fun m => (vort_mir (snd m), vort_mir (fst m))) cm) (mir p) =
  mir (far_taylor (K:=RNum) ip ip1 o cm p).
Proof. intros. apply far_taylor_mir. Qed.
Print Assumptions C125_series.

(** Diffusive velocities of vortices and heat particles, friction on the walls. *)
Theorem C125_diffusion : forall (expf : R -> R) (tenth eight pi_ two_pi tiny re prandtl : R) nb ws vs v,
  vort_velocity (K:=RNum) expf tenth eight pi_ two_pi tiny re nb (rev (map att_mir ws)) (map vort_mir vs) (vort_mir v) =
    mir (vort_velocity (K:=RNum) expf tenth eight pi_ two_pi tiny re nb ws vs v) /\
  heat_velocity (K:=RNum) expf tenth eight tiny prandtl re nb (rev (map att_mir ws)) (map part_mir vs) (part_mir v) =
    mir (heat_velocity (K:=RNum) expf tenth eight tiny prandtl re nb ws vs v).
Proof. intros. split; [apply (vort_velocity_mir (- (1))), mirror_vort|apply heat_velocity_mir]. Qed.
Print Assumptions C125_diffusion.
Theorem C125_friction : forall (expf : R -> R) (eight : R) vs w,
  friction (K:=RNum) expf eight (map vort_mir vs) (att_mir w) = - friction (K:=RNum) expf eight vs w.
Proof. intros. rewrite (friction_mir (- (1)) vort_mir mirror_vort). num_ring. Qed.
Print Assumptions C125_friction.

(** Core radii and merging, if the walls are passed in the same order in both. *)
Theorem C125_radii_partial : forall (big tiny third merge_c : R) bs m cells vs,
  let calc := calc_epsilon (K:=RNum) big third merge_c in
  calc (epsv (K:=RNum) big tiny) (map (map att_mir) bs) m (map cell_mir cells) (map vort_mir vs) =
    (let z := calc (epsv (K:=RNum) big tiny) bs m cells vs in (map vort_mir (fst z), snd z)) /\
  calc (epsh (K:=RNum) big tiny) (map (map att_mir) bs) m (map cell_mir cells) (map part_mir vs) =
    (let z := calc (epsh (K:=RNum) big tiny) bs m cells vs in (map part_mir (fst z), snd z)).
Proof.
  intros big tiny third merge_c bs m cells vs. cbv zeta. split.
  - etransitivity; [exact (calc_epsilon_mir (- (1)) vort_mir mirror_vort big third merge_c (epsv (K:=RNum) big tiny) bs m cells vs (epsv_mir _ _ mirror_vort _ _))|].
    destruct (calc_epsilon _ _ _ _ _ _ _ _). reflexivity.
  - etransitivity; [exact (calc_epsilon_mir 1 part_mir mirror_part big third merge_c (epsh (K:=RNum) big tiny) bs m cells vs (epsh_mir _ _ mirror_part _ _))|].
    destruct (calc_epsilon _ _ _ _ _ _ _ _). reflexivity.
Qed.
Print Assumptions C125_radii_partial.

(** But the walls of the mirror image come in the other order, and the search for
    the nearest one passes over some: three walls, one vortex. *)
Definition three : list (att RNum) :=
  let w a l := @mkAtt RNum (@mkVec RNum a 0) false (@mkVec RNum l 0) (@mkVec RNum a 0) 1 in [w 2 3; w 3 1; w 1 6].
Definition radii (bs : list (list (att RNum))) (o : part RNum) : list (part RNum) :=
  fst (calc_epsilon (K:=RNum) 100 (1 / 3) (1 / 4) (epsv (K:=RNum) 100 (1 / 100)) bs false [@mkCell RNum (@mkVec RNum 0 0) [0%nat] [0%nat] []] [o]).
Definition lone : part RNum := @mkPart RNum (@mkVec RNum 0 0) 1 (@mkVec RNum 0 0) 1.

Lemma radii_of bs g a l : g <> 0 -> 3 / 100 < l -> snd (fold_left (skim (K:=RNum) (@mkVec RNum 0 0) 0) bs (100, None)) = Some a -> vabs (dl a) = l ->
  map (fun o => pe o) (radii bs (@mkPart RNum (@mkVec RNum 0 0) g (@mkVec RNum 0 0) 1)) = [3 / l].
Proof.
  intros G L E V. unfold radii, calc_epsilon. cbn [fold_left]. unfold calc_cell. cbn [centre mine near]. unfold nearest. cbn [Vortex.Model.walls fold_left snd].
  match goal with |- context [snd (fold_left ?F bs ?z)] => change (snd (fold_left F bs z)) with (snd (fold_left (skim (K:=RNum) (@mkVec RNum 0 0) 0) bs (100, None))) end.
  rewrite E. unfold criterion, restriction. cbn [fold_left]. unfold calc_one. cbn [nth_error pg].
  change (@neqb RNum) with Reqb. change (@nofZ RNum 0) with 0. rewrite (proj2 (Reqb_false g 0) G).
  unfold epsv, scan. cbn [fold_left]. unfold look. cbn [nth_error Nat.eqb pg]. rewrite orb_true_r. cbn [lv1 radius nth_error set_nth fst map pe].
  change (Num.T RNum) with R in *. f_equal. unfold cmax. change (@nltb RNum) with Rltb. unr. rewrite V. change (Num.T RNum) with R in *.
  rewrite (proj2 (Rltb_true _ _)) by lra. field. lra.
Qed.

Theorem C125_order_refuted : ~ forall bs o,
  radii (map (fun ws => rev (map att_mir ws)) bs) (vort_mir o) = map vort_mir (radii bs o).
Proof.
  intros H. specialize (H [three] lone). apply (f_equal (map (fun o : part RNum => pe o))) in H. rewrite map_map in H. cbn [vort_mir pe] in H.
  assert (D : forall a l, dist2 (K:=RNum) (@mkVec RNum 0 0) (@mkVec RNum a l) = a * a + l * l).
  { intros a l. unfold dist2, abs2, vsub. cbn [x y]. unr. num_ring. }
  assert (V : forall a b, 0 <= a -> b = a * a -> forall v : pnt, abs2 v = b -> vabs v = a).
  { intros a b A B v E. change (vabs v) with (sqrt (abs2 v)). rewrite E, B. apply sqrt_square, A. }
  assert (B : map (fun o => pe o) (radii [three] lone) = [3 / 3]).
  { eapply (radii_of [three] 1); [lra|lra| |]. 
    - cbn [fold_left three skim]. cbn [r fst]. change (@nltb RNum) with Rltb. rewrite !D. rewrite (proj2 (Rltb_true (2 * 2 + 0 * 0) 100)) by lra. cbn [fst].
      rewrite (proj2 (Rltb_false (3 * 3 + 0 * 0) (2 * 2 + 0 * 0))) by lra. cbn [snd]. reflexivity.
    - apply (V 3 9); [lra|lra|]. unfold abs2. cbn [dl x y]. unr. num_ring. }
  assert (A : map (fun o => pe o) (radii (map (fun ws => rev (map att_mir ws)) [three]) (vort_mir lone)) = [3 / 6]).
  { replace (vort_mir lone) with (@mkPart RNum (@mkVec RNum 0 0) (- (1)) (@mkVec RNum 0 0) 1)
      by (unfold vort_mir, lone, mir; cbn [pr pg pv pe x y]; f_equal; vec_ring).
    eapply radii_of; [lra|lra| |].
    - cbn [map three rev app fold_left skim]. cbn [att_mir r x y fst]. unfold mir. cbn [x y]. change (@nltb RNum) with Rltb. rewrite !D. rewrite (proj2 (Rltb_true (1 * 1 + - 0 * - 0) 100)) by lra. cbn [fst].
      rewrite (proj2 (Rltb_false (3 * 3 + - 0 * - 0) (1 * 1 + - 0 * - 0))) by lra. cbn [snd]. reflexivity.
    - apply (V 6 36); [lra|lra|]. unfold abs2. cbn [att_mir dl x y]. unr. num_ring. }
  rewrite A, B in H. injection H. intros. lra.
Qed.
Print Assumptions C125_order_refuted.

(** ** A flow that is its own mirror image stays on its side of the axis *)

Lemma near_all ip l p : near_influence (K:=RNum) ip (seq 0 (length l)) l p =
  vscale (fold_left (fun s o => vadd s (if @neqb RNum (pg o) (@nofZ RNum 0) then vzero (K:=RNum) else biot_savart (K:=RNum) o p)) l (vzero (K:=RNum))) ip.
Proof.
  unfold near_influence. f_equal. change (@mkVec RNum (nofZ 0) (nofZ 0)) with (vzero (K:=RNum)).
  assert (G : forall t h z, fold_left (fun s j => match nth_error (h ++ t) j with None => s | Some o => if (pg o =? nofZ 0)%num then s else vadd s (biot_savart (K:=RNum) o p) end) (seq (length h) (length t)) z =
    fold_left (fun s o => vadd s (if @neqb RNum (pg o) (@nofZ RNum 0) then vzero (K:=RNum) else biot_savart (K:=RNum) o p)) t z).
  { induction t as [|o t IH]; intros h z; [reflexivity|]. cbn [length seq fold_left]. rewrite nth_error_app2, Nat.sub_diag by lia. cbn [nth_error].
    specialize (IH (h ++ [o])). rewrite app_length in IH. cbn [length] in IH. replace (length h + 1)%nat with (S (length h)) in IH by lia. rewrite <- app_assoc in IH. cbn [app] in IH. rewrite IH.
    f_equal. destruct (_ =? _)%num; [|reflexivity]. destruct z as [u v]. unfold vadd, vzero. cbn [x y]. unr. vec_ring. }
  exact (G l [] _).
Qed.
Lemma sum_comm {W} (f : W -> pnt) l m z : fold_left (fun s w => vadd s (f w)) (l ++ m) z = fold_left (fun s w => vadd s (f w)) (m ++ l) z.
Proof.
  revert z. induction l as [|w l IH]; intros z; [rewrite app_nil_r; reflexivity|]. cbn [app fold_left]. rewrite IH, !fold_left_app. cbn [fold_left].
  rewrite <- sum_out. f_equal.
Qed.
Lemma mir_mir q : mir (mir q) = q.
Proof. destruct q as [u v]. unfold mir. cbn [x y]. vec_ring. Qed.

Theorem C125_axis : forall (tiny ip ip1 h u s : R) lin vs ss,
  let n := (2 * length vs)%nat in
  let S := @mkSpace RNum [] (vs ++ map vort_mir vs) (ss ++ map part_mir ss) (@mkVec RNum u 0) h in
  y (velocity (K:=RNum) tiny ip ip1 lin S (Some (seq 0 n, [])) (@mkVec RNum s 0)) = 0.
Proof.
  intros tiny ip ip1 h u s lin vs ss. cbv zeta. set (p := @mkVec RNum s 0). set (A := vs ++ map vort_mir vs). set (B := ss ++ map part_mir ss).
  assert (P : mir p = p) by (unfold mir, p; cbn [x y]; vec_ring).
  assert (LA : (2 * length vs)%nat = length A) by (unfold A; rewrite app_length, map_length; lia). rewrite LA.
  set (v := velocity _ _ _ _ _ _ _).
  assert (E : v = mir v).
  { unfold v, velocity. cbn [bodies vortices sources flow dt]. rewrite <- !vadd_mir. rewrite mir_zero. f_equal; [f_equal; [f_equal; [f_equal; [f_equal|]|]|]|].
    - rewrite <- near_influence_mir, P. rewrite <- (map_length vort_mir A) at 2. rewrite !near_all. f_equal. unfold A. rewrite map_app, map_map.
      rewrite sum_comm. f_equal. f_equal. rewrite <- (map_id vs) at 1. apply map_ext. intros o. unfold vort_mir. cbn [pr pg pv pe]. rewrite !mir_mir. destruct o as [o1 o2 o3 o4]. cbn [pr pg pv pe]. f_equal. num_ring.
    - rewrite <- far_influence_mir. rewrite P. reflexivity.
    - rewrite <- sink_influence_mir, P. unfold sink_influence. cbv zeta. f_equal. unfold B. rewrite map_app, map_map.
      rewrite sum_comm. f_equal. f_equal. rewrite <- (map_id ss) at 1. apply map_ext. intros o. unfold part_mir. cbn [pr pg pv pe]. rewrite !mir_mir. destruct o. reflexivity.
    - unfold body_influence. cbn [fold_left]. rewrite <- vscale_mir, mir_zero. reflexivity.
    - unfold mir. cbn [x y]. vec_ring. }
  apply (f_equal (@y RNum)) in E. unfold mir in E. cbn [y] in E. change (Num.T RNum) with R in *. clearbody v. change (y v = 0). lra.
Qed.
Print Assumptions C125_axis.

(** A vortex of 10 at the origin in a stream, and a point beside it. *)
Example C125_velocity_ex :
  let S := @mkSpace RNum [] [@mkPart RNum (@mkVec RNum 0 1) 10 (@mkVec RNum 0 0) 1] [] (@mkVec RNum 5 3) 1 in
  let at_ S p := velocity (K:=RNum) (/1000) 1 1 (linear_influence (K:=RNum) ln (fun b a => atan (b / a))) S (Some ([0%nat], [])) p in
  at_ S (@mkVec RNum 2 1) = @mkVec RNum 5 7 /\ at_ (space_mir S) (@mkVec RNum 2 (- (1))) = @mkVec RNum 5 (- (7)).
Proof.
  cbv zeta. set (S := mkSpace _ _ _ _ _).
  assert (E : velocity (K:=RNum) (/1000) 1 1 (linear_influence (K:=RNum) ln (fun b a => atan (b / a))) S (Some ([0%nat], [])) (@mkVec RNum 2 1) = @mkVec RNum 5 7).
  { unfold velocity, S, near_influence, far_influence, sink_influence, body_influence, biot_savart, vadd, vscale, rotl, vsub, abs2.
    cbn [bodies vortices sources flow dt fold_left nth_error pg pr pe x y]. change (@neqb RNum) with Reqb. unr. change (Num.T RNum) with R in *.
    replace (Reqb 10 0) with false by (symmetry; apply Reqb_false; lra). cbn [x y vzero]; unfold vzero; cbn [x y]; unr; f_equal; eqR; field. }
  split; [exact E|].
  pose proof (C125_velocity (/1000) 1 1 ln (fun b a => atan (b / a)) S [0%nat] [] (@mkVec RNum 2 1) (proj1 C125_log) (proj2 C125_log) (Forall_nil _)) as X.
  exact (eq_trans X (f_equal mir E)).
Qed.

(** A pair of opposite vortices drives the fluid between them along the axis. *)
Example C125_axis_ex :
  let S := @mkSpace RNum [] [@mkPart RNum (@mkVec RNum 0 1) 10 (@mkVec RNum 0 0) 1; @mkPart RNum (@mkVec RNum 0 (- (1))) (- (10)) (@mkVec RNum 0 0) 1] [] (@mkVec RNum 5 0) 1 in
  velocity (K:=RNum) (/1000) 1 1 (fun p _ _ _ => p) S (Some ([0%nat; 1%nat], [])) (@mkVec RNum 0 0) = @mkVec RNum 15 0.
Proof.
  unfold velocity, near_influence, far_influence, sink_influence, body_influence, biot_savart, vadd, vscale, rotl, vsub, abs2.
  cbn [bodies vortices sources flow dt fold_left nth_error pg pr pe x y]. change (@neqb RNum) with Reqb. unr. change (Num.T RNum) with R in *.
  replace (Reqb 10 0) with false by (symmetry; apply Reqb_false; lra). replace (Reqb (- (10)) 0) with false by (symmetry; apply Reqb_false; lra).
  unfold vzero; cbn [x y]; unr; f_equal; eqR; field.
Qed.
(** A vortex drags a wall one way, its image the other way. *)
Example C125_friction_ex :
  let v := @mkPart RNum (@mkVec RNum 0 1) 10 (@mkVec RNum 0 0) 1 in
  let w := @mkAtt RNum (@mkVec RNum 0 0) false (@mkVec RNum 2 0) (@mkVec RNum 0 0) 1 in
  friction (K:=RNum) (fun _ => 1) 8 [v] w = 20 /\ friction (K:=RNum) (fun _ => 1) 8 [vort_mir v] (att_mir w) = - (20).
Proof.
  cbv zeta. match goal with |- ?a = _ /\ _ => assert (E : a = 20) end.
  - unfold friction, segment_influence. cbn [fold_left pg pr pe r dl]. change (@neqb RNum) with Reqb. change (@nltb RNum) with Rltb. unfold vabs, abs2, vsub, rotl. cbn [x y]. unr. change (Num.T RNum) with R in *.
    rewrite (proj2 (Reqb_false 10 0)) by lra. replace ((0 - 0) * (0 - 0) + (1 - 0) * (1 - 0)) with 1 by ring. rewrite sqrt_1.
    rewrite (proj2 (Rltb_false (- (1) * 1) (- (8)))) by lra. cbn [snd]. replace (- 0 * - 0 + 2 * 2) with (2 * 2) by ring. rewrite sqrt_square by lra. ring.
  - split; [exact E|]. etransitivity; [apply (C125_friction (fun _ => 1) 8 [_])|]. apply (f_equal Ropp E).
Qed.
