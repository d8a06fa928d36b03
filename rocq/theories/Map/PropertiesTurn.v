(** C122: turning the axes does not matter for velocities. *)

From Coq Require Import ZArith Bool List Lia Reals Lra.
From Verif.Base Require Import Num.
From Verif.Body Require Import Model Spec.
From Verif.Vortex Require Import Model ProofsKernel.
From Verif.Map Require Import Model ModelLinear SpecSimilar SpecTurn ProofsTurn ProofsTurnDiff.
Import ListNotations.
Local Open Scope R_scope.

(** Velocity at a point: of the near and far vortices, the sources, the bodies
    and the oncoming flow. *)
Theorem C122_velocity : forall (c s tiny ip ip1 : R) lnf at2 (S : @space RNum) near far p,
  c * c + s * s = 1 -> Forall (moving_both tiny c s) (bodies S) ->
  velocity (K:=RNum) tiny ip ip1 (linear_influence lnf at2) (space_rot c s S) (Some (near, map (part_rot c s) far)) (rot c s p) =
  rot c s (velocity (K:=RNum) tiny ip ip1 (linear_influence lnf at2) S (Some (near, far)) p).
Proof. intros. apply velocity_rot; assumption. Qed.
Print Assumptions C122_velocity.

(** The series in the centre of a cell that stands for the far cells. *)
Theorem C122_series : forall (c s ip : R) o cm p, c * c + s * s = 1 ->
  far_taylor (K:=RNum) ip (2 * ip) (rot c s o) (map (fun m => (part_rot c s (fst m), part_rot c s (snd m))) cm) (rot c s p) =
  rot c s (far_taylor (K:=RNum) ip (2 * ip) o cm p).
Proof. intros. apply far_taylor_rot; assumption. Qed.
Print Assumptions C122_series.

(** Diffusive velocities of vortices and heat particles, friction on the walls. *)
Theorem C122_diffusion : forall (expf : R -> R) (tenth eight pi_ two_pi tiny c s re prandtl : R) nb ws vs v,
  c * c + s * s = 1 -> apart_both tiny c s vs v ->
  vort_velocity (K:=RNum) expf tenth eight pi_ two_pi tiny re nb (map (att_rot c s) ws) (map (part_rot c s) vs) (part_rot c s v) =
    rot c s (vort_velocity (K:=RNum) expf tenth eight pi_ two_pi tiny re nb ws vs v) /\
  heat_velocity (K:=RNum) expf tenth eight tiny prandtl re nb (map (att_rot c s) ws) (map (part_rot c s) vs) (part_rot c s v) =
    rot c s (heat_velocity (K:=RNum) expf tenth eight tiny prandtl re nb ws vs v).
Proof. intros. split; [apply vort_velocity_rot|apply heat_velocity_rot]; assumption. Qed.
Print Assumptions C122_diffusion.
Theorem C122_friction : forall (expf : R -> R) (eight c s : R) vs w, c * c + s * s = 1 ->
  friction (K:=RNum) expf eight (map (part_rot c s) vs) (att_rot c s w) = friction (K:=RNum) expf eight vs w.
Proof. intros. apply friction_rot; assumption. Qed.
Print Assumptions C122_friction.

(** Core radii and merging of all particles: the same ones merge, in the turned
    place, and the radii are the same. *)
Theorem C122_radii : forall (big tiny third merge_c c s : R) bs m cells vs, c * c + s * s = 1 ->
  let turned (z : list (part RNum) * nat) := (map (part_rot c s) (fst z), snd z) in
  let calc := calc_epsilon (K:=RNum) big third merge_c in
  calc (epsv (K:=RNum) big tiny) (map (map (att_rot c s)) bs) m (map (cell_rot c s) cells) (map (part_rot c s) vs) =
    turned (calc (epsv (K:=RNum) big tiny) bs m cells vs) /\
  calc (epsh (K:=RNum) big tiny) (map (map (att_rot c s)) bs) m (map (cell_rot c s) cells) (map (part_rot c s) vs) =
    turned (calc (epsh (K:=RNum) big tiny) bs m cells vs).
Proof.
  intros * E. cbv zeta. split.
  - rewrite (calc_epsilon_rot c s E) by (apply epsv_rot, E). destruct (calc_epsilon _ _ _ _ _ _ _ _). reflexivity.
  - rewrite (calc_epsilon_rot c s E) by (apply epsh_rot, E). destruct (calc_epsilon _ _ _ _ _ _ _ _). reflexivity.
Qed.
Print Assumptions C122_radii.

(** With a quarter turn nothing has to be assumed about small numbers. *)
Lemma size1_quarter (q : pnt) : size1 (rot 0 1 q) = size1 q.
Proof.
  unfold size1, rot. cbn [x y]. change (Num.T RNum) with R in *. replace (0 * x q - 1 * y q) with (- y q) by (eqR; ring). replace (1 * x q + 0 * y q) with (x q) by (eqR; lra).
  rewrite Rabs_Ropp. eqR; ring.
Qed.
Theorem C122_quarter : forall (tiny ip ip1 : R) lnf at2 (S : @space RNum) near far p
    (expf : R -> R) (tenth eight pi_ two_pi re : R) nb ws vs v,
  velocity (K:=RNum) tiny ip ip1 (linear_influence lnf at2) (space_rot 0 1 S) (Some (near, map (part_rot 0 1) far)) (rot 0 1 p) =
    rot 0 1 (velocity (K:=RNum) tiny ip ip1 (linear_influence lnf at2) S (Some (near, far)) p) /\
  vort_velocity (K:=RNum) expf tenth eight pi_ two_pi tiny re nb (map (att_rot 0 1) ws) (map (part_rot 0 1) vs) (part_rot 0 1 v) =
    rot 0 1 (vort_velocity (K:=RNum) expf tenth eight pi_ two_pi tiny re nb ws vs v).
Proof.
  intros. assert (Q : 0 * 0 + 1 * 1 = 1) by ring. split.
  - apply C122_velocity; [exact Q|]. apply Forall_forall. intros b _. unfold moving_both. cbv zeta. rewrite size1_quarter. reflexivity.
  - apply (C122_diffusion expf tenth eight pi_ two_pi tiny 0 1 re 1); [exact Q|]. intros w _. unfold clear_both. rewrite size1_quarter. reflexivity.
Qed.
Print Assumptions C122_quarter.

(** Two vortices so close that one pair of axes sees one place and another pair
    sees two. *)
Definition tiny10 : R := / 10000000000.
Definition pair_ : list (part RNum) :=
  let o a := @mkPart RNum (@mkVec RNum a 0) 1 (@mkVec RNum 0 0) 1 in [o 0; o (- (9 / 10 * tiny10))].
Definition drift (c s : R) : pnt :=
  vort_velocity (K:=RNum) (fun _ => 1) (1 / 10) 8 3 6 tiny10 1 [1%nat] [] (map (part_rot c s) pair_) (part_rot c s (hd (emptied (K:=RNum) (@mkPart RNum (@mkVec RNum 0 0) 0 (@mkVec RNum 0 0) 0)) pair_)).

Lemma drift_of c s : c * c + s * s = 1 ->
  drift c s = if Rltb (9 / 10 * tiny10 * (Rabs c + Rabs s)) tiny10 then @mkVec RNum 0 0 else @mkVec RNum c s.
Proof.
  intros E. assert (T : 0 < tiny10) by (unfold tiny10; lra). assert (T8 : tiny10 < 8) by (unfold tiny10; lra).
  unfold drift, vort_velocity, sums, pair_. cbn [map hd fold_left nth_error part_rot pg].
  change (@neqb RNum) with Reqb. change (@nofZ RNum 0) with 0. rewrite (proj2 (Reqb_false 1 0)) by lra.
  unfold vortex_influence. cbn [part_rot pr pg pe pv]. rewrite Z.eqb_refl. cbn [negb]. rewrite vsub_rot, (vabs_rot c s E).
  set (d := 9 / 10 * tiny10) in *.
  assert (D : vsub (K:=RNum) (@mkVec RNum 0 0) (@mkVec RNum (- d) 0) = @mkVec RNum d 0) by (unfold vsub; cbn [x y]; unr; f_equal; eqR; ring).
  rewrite D.
  assert (N : vabs (K:=RNum) (@mkVec RNum d 0) = d).
  { unfold vabs, abs2. cbn [x y]. unr. change (Num.T RNum) with R in *. replace (d * d + 0 * 0) with (d * d) by ring. apply sqrt_square. unfold d. lra. }
  rewrite N.
  assert (V : vzero_ (K:=RNum) tiny10 (rot c s (@mkVec RNum d 0)) = Rltb (d * (Rabs c + Rabs s)) tiny10).
  { unfold vzero_, rot. cbn [x y]. unr. change (@nltb RNum) with Rltb. change (Num.T RNum) with R in *. f_equal.
    replace (c * d - s * 0) with (c * d) by ring. replace (s * d + c * 0) with (s * d) by ring. rewrite !Rabs_mult, (Rabs_pos_eq d) by (unfold d; lra). ring. }
  rewrite V. destruct (Rltb (d * (Rabs c + Rabs s)) tiny10).
  - unfold vadd, vscale, rot. cbn [x y]. unr. f_equal; eqR; ring.
  - cbv zeta. change (@nltb RNum) with Rltb. unr. rewrite (proj2 (Rltb_false (- d * 1) (- (8)))) by (unfold d; lra). cbn [fst snd].
    assert (G : guard (K:=RNum) (1 / 10) (0 + 1 * 1) 1 = 1).
    { unfold guard, sign. change (@nltb RNum) with Rltb. unr. replace (0 + 1 * 1) with 1 by ring. rewrite (proj2 (Rltb_true 0 1)) by lra. cbn [Z.eqb Pos.eqb negb orb].
      rewrite !Rabs_pos_eq by lra. rewrite (proj2 (Rltb_false _ _)) by lra. reflexivity. }
    rewrite G. generalize (1 * 1 / (1 * (6 - cap (K:=RNum) 3 0))). intros z. unfold vadd, vscale, rot. cbn [x y]. unr. f_equal; eqR; field; unfold d; lra.
Qed.

(** So the claim about diffusion needs its hypothesis. *)
Theorem C122_tiny_refuted : ~ forall c s, c * c + s * s = 1 -> drift c s = rot c s (drift 1 0).
Proof.
  intros H. specialize (H (3 / 5) (4 / 5) ltac:(lra)). rewrite !drift_of in H by lra.
  assert (T : 0 < tiny10) by (unfold tiny10; lra).
  rewrite Rabs_R0, Rabs_R1, (Rabs_pos_eq (3 / 5)), (Rabs_pos_eq (4 / 5)) in H by lra.
  rewrite (proj2 (Rltb_true (9 / 10 * tiny10 * (1 + 0)) tiny10)) in H by lra.
  rewrite (proj2 (Rltb_false (9 / 10 * tiny10 * (3 / 5 + 4 / 5)) tiny10)) in H by lra.
  apply (f_equal (@x RNum)) in H. unfold rot in H. cbn [x y] in H. change (Num.T RNum) with R in *. lra.
Qed.
Print Assumptions C122_tiny_refuted.

(** A vortex and a stream along x; turned, the stream comes from another side. *)
Example C122_velocity_ex :
  let S := @mkSpace RNum [] [@mkPart RNum (@mkVec RNum 0 0) 10 (@mkVec RNum 0 0) 1] [] (@mkVec RNum 5 0) 1 in
  let p := @mkVec RNum 2 0 in
  velocity (K:=RNum) (/1000) 1 1 (linear_influence (K:=RNum) ln (fun _ _ => 0)) S (Some ([0%nat], [])) p = @mkVec RNum 5 4 /\
  velocity (K:=RNum) (/1000) 1 1 (linear_influence (K:=RNum) ln (fun _ _ => 0)) (space_rot (3 / 5) (4 / 5) S) (Some ([0%nat], [])) (@mkVec RNum (6 / 5) (8 / 5)) =
    @mkVec RNum (- / 5) (32 / 5).
Proof.
  cbv zeta. set (S := mkSpace _ _ _ _ _).
  assert (E : velocity (K:=RNum) (/1000) 1 1 (linear_influence (K:=RNum) ln (fun _ _ => 0)) S (Some ([0%nat], [])) (@mkVec RNum 2 0) = @mkVec RNum 5 4).
  { unfold velocity, S, near_influence, far_influence, sink_influence, body_influence, biot_savart, vadd, vscale, rotl, vsub, abs2.
    cbn [bodies vortices sources flow dt fold_left nth_error pg pr pe x y]. change (@neqb RNum) with Reqb. unr. change (Num.T RNum) with R in *.
    replace (Reqb 10 0) with false by (symmetry; apply Reqb_false; lra). cbn [x y vzero]; unfold vzero; cbn [x y]; unr; f_equal; eqR; field. }
  split; [exact E|].
  pose proof (C122_velocity (3 / 5) (4 / 5) (/1000) 1 1 ln (fun _ _ => 0) S [0%nat] [] (@mkVec RNum 2 0) ltac:(lra) (Forall_nil _)) as X.
  rewrite E in X. replace (@mkVec RNum (6 / 5) (8 / 5)) with (rot (3 / 5) (4 / 5) (@mkVec RNum 2 0)) by (unfold rot; cbn [x y]; f_equal; eqR; field).
  etransitivity; [exact X|]. unfold rot. cbn [x y]. f_equal; eqR; field.
Qed.
