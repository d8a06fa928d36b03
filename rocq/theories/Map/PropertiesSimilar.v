(** C120: the units of length and speed do not matter. *)

From Coq Require Import ZArith Bool List Lia Reals Lra.
From Verif.Base Require Import Num.
From Verif.Body Require Import Model Spec.
From Verif.Vortex Require Import Model ModelFar ProofsKernel.
From Verif.Map Require Import Model ModelLinear SpecSimilar ProofsSimilar ProofsSimilarDiff.
Import ListNotations.
Local Open Scope R_scope.

(** Velocity at a point: of the near and far vortices, the sources, the bodies
    and the oncoming flow. *)
Theorem C120_velocity : forall (k s tiny ip ip1 : R) lnf at2 (S : @space RNum) near far p,
  0 < k -> 0 < s -> 0 < tiny -> Forall (moving tiny k s) (bodies S) ->
  velocity (K:=RNum) tiny ip ip1 (linear_influence lnf at2) (space_sc k s S) (Some (near, map (part_sc k s (k * s)) far)) (sc k p) =
  sc s (velocity (K:=RNum) tiny ip ip1 (linear_influence lnf at2) S (Some (near, far)) p).
Proof. intros. apply velocity_sc; assumption. Qed.
Print Assumptions C120_velocity.

(** The series in the centre of a cell that stands for the far cells. *)
Theorem C120_series : forall (k s ip ip1 : R) c cm p, 0 < k ->
  far_taylor (K:=RNum) ip ip1 (sc k c) (map (fun m => (part_sc k s (k * s) (fst m), part_sc k s (k * s) (snd m))) cm) (sc k p) =
  sc s (far_taylor (K:=RNum) ip ip1 c cm p).
Proof. intros. apply far_taylor_sc; assumption. Qed.
Print Assumptions C120_series.

(** Diffusive velocities with the same Reynolds number: [re] is one over the
    viscosity, a length times a speed. *)
Theorem C120_diffusion : forall (expf : R -> R) (tenth eight pi_ two_pi tiny k s re prandtl : R) nb ws vs v,
  0 < k -> 0 < s -> 0 < tiny -> apart tiny k vs v ->
  vort_velocity (K:=RNum) expf tenth eight pi_ two_pi tiny (re / (k * s)) nb (map (att_sc k) ws) (map (part_sc k s (k * s)) vs) (part_sc k s (k * s) v) =
    sc s (vort_velocity (K:=RNum) expf tenth eight pi_ two_pi tiny re nb ws vs v) /\
  heat_velocity (K:=RNum) expf tenth eight tiny prandtl (re / (k * s)) nb (map (att_sc k) ws) (map (part_sc k s (k * k)) vs) (part_sc k s (k * k) v) =
    sc s (heat_velocity (K:=RNum) expf tenth eight tiny prandtl re nb ws vs v).
Proof. intros. split; [apply vort_velocity_sc|apply heat_velocity_sc]; assumption. Qed.
Print Assumptions C120_diffusion.

(** Core radii without merging. *)
Theorem C120_radius : forall (big tiny0 k s : R) nb vs i, 0 < k -> 0 < s ->
  (forall a b, In a vs -> In b vs -> dist2 (K:=RNum) (pr a) (pr b) < big /\ k * k * dist2 (K:=RNum) (pr a) (pr b) < big) ->
  lv1 (scan (K:=RNum) big nb vs i) <> None ->
  fst (fst (epsv (K:=RNum) big tiny0 nb (map (part_sc k s (k * s)) vs) i None)) = k * fst (fst (epsv (K:=RNum) big tiny0 nb vs i None)).
Proof. intros * Hk Hs B N. rewrite epsv_sc by assumption. reflexivity. Qed.
Print Assumptions C120_radius.

(** The bound from the wall scales, the bound for merging does not: a length is
    added to the number one. *)
Theorem C120_bounds : forall (third c k : R) w p, 0 < k ->
  restriction (K:=RNum) third (option_map (att_sc k) w) = k * restriction (K:=RNum) third w /\
  (criterion (K:=RNum) c true (option_map (att_sc k) w) (sc k p) = option_map (fun q => k * k * q) (criterion (K:=RNum) c true w p) <->
   k = 1 \/ match w with None => True | Some a => c = 0 \/ (x (dl a) = 0 /\ y (dl a) = 0) \/ (x p = x (r a) /\ y p = y (r a)) end).
Proof.
  intros * Hk. split.
  - destruct w as [a|]; cbn [option_map restriction]; [|unr; eqR; ring]. change (dl (att_sc k a)) with (sc k (dl a)).
    rewrite vabs_sc by lra. unr. eqR. ring.
  - unfold criterion. change (@nnan RNum) with (fun _ : R => false). destruct w as [a|]; cbn [option_map]; cbv iota beta.
    2: { split; [intros _; right; exact I|intros _; unr; f_equal; eqR; ring]. }
    change (dl (att_sc k a)) with (sc k (dl a)). change (r (att_sc k a)) with (sc k (r a)).
    rewrite vsub_sc, vabs_sc, abs2_sc by lra.
    assert (A0 : forall q : pnt, abs2 q = 0 <-> x q = 0 /\ y q = 0).
    { intros q. unfold abs2. unr. change (Num.T RNum) with R in *. split; [|intros [-> ->]; ring]. intros H.
      pose proof (Rle_0_sqr (x q)) as P1. pose proof (Rle_0_sqr (y q)) as P2. unfold Rsqr in *. split; nra. }
    assert (V0 : vabs (vsub p (r a)) = 0 <-> x p = x (r a) /\ y p = y (r a)).
    { unfold vabs. change (@nsqrt RNum) with sqrt.
      assert (P : 0 <= abs2 (vsub p (r a))) by (unfold abs2; unr; change (Num.T RNum) with R in *; pose proof (Rle_0_sqr (x (vsub p (r a)))); pose proof (Rle_0_sqr (y (vsub p (r a)))); unfold Rsqr in *; lra).
      pose proof (A0 (vsub p (r a))) as Q. unfold vsub in Q. cbn [x y] in Q. change (@nsub RNum) with Rminus in Q.
      split.
      - intros H. apply (sqrt_eq_0 _ P) in H. apply Q in H. change (Num.T RNum) with R in *. lra.
      - intros H. assert (Z : abs2 (vsub p (r a)) = 0) by (apply Q; change (Num.T RNum) with R in *; lra). transitivity (sqrt 0); [exact (f_equal sqrt Z)|apply sqrt_0]. }
    specialize (A0 (dl a)). set (d := vabs _) in *. set (b := abs2 _) in *. unr. change (Num.T RNum) with R in *. split.
    + intros H. injection H as H.
      assert (Z : k * k * (c * b * (d * (k - 1))) = 0) by lra.
      apply Rmult_integral in Z. destruct Z as [Z|Z]; [apply Rmult_integral in Z; lra|].
      apply Rmult_integral in Z. destruct Z as [Z|Z].
      * right. apply Rmult_integral in Z. destruct Z as [Z|Z]; [left; exact Z|right; left; apply A0; exact Z].
      * apply Rmult_integral in Z. destruct Z as [Z|Z]; [right; right; right; apply V0; exact Z|left; lra].
    + intros H. f_equal. destruct H as [->|[->|[H|H]]]; [ring|ring| |].
      * apply A0 in H. rewrite H. ring.
      * apply V0 in H. rewrite H. ring.
Qed.
Print Assumptions C120_bounds.

(** Three vortices before a wall. *)
Definition three : list (part RNum) :=
  let o a := @mkPart RNum (@mkVec RNum a 0) 1 (@mkVec RNum 0 0) 1 in [o 0; o (3 / 5); o 2].
Definition wall1 : att RNum := @mkAtt RNum (@mkVec RNum 0 0) true (@mkVec RNum 1 0) (@mkVec RNum 0 0) 1.
Definition merges (k s : R) : nat :=
  snd (epsv (K:=RNum) 1000000 (/1000) [0; 1; 2]%nat (map (part_sc k s (k * s)) three) 0
    (criterion (K:=RNum) (4 / 25) true (Some (att_sc k wall1)) (sc k (@mkVec RNum 1 0)))).

Lemma crit_of k : 0 < k -> criterion (K:=RNum) (4 / 25) true (Some (att_sc k wall1)) (sc k (@mkVec RNum 1 0)) = Some (4 / 25 * (k * k) * (1 + k)).
Proof.
  intros Hk. unfold criterion. change (@nnan RNum) with (fun _ : R => false). cbv iota beta.
  change (dl (att_sc k wall1)) with (sc k (@mkVec RNum 1 0)). change (r (att_sc k wall1)) with (sc k (@mkVec RNum 0 0)).
  rewrite vsub_sc, vabs_sc, abs2_sc by lra. unfold vabs, abs2, vsub. cbn [x y]. unr. change (@nsqrt RNum) with sqrt. change (Num.T RNum) with R in *.
  replace ((1 - 0) * (1 - 0) + (0 - 0) * (0 - 0)) with 1 by ring. rewrite sqrt_1. f_equal. ring.
Qed.

Lemma merges_line k : 0 < k -> k * k * 4 < 1000000 ->
  merges k 1 = if Rltb (k * k * (9 / 25)) (4 / 25 * (k * k) * (1 + k)) then 1%nat else 0%nat.
Proof.
  intros Hk Hb. unfold merges. rewrite crit_of by assumption.
  assert (M : map (part_sc k 1 (k * 1)) three = [@mkPart RNum (@mkVec RNum 0 0) k (@mkVec RNum 0 0) (1 / k);
    @mkPart RNum (@mkVec RNum (k * (3 / 5)) 0) k (@mkVec RNum 0 0) (1 / k); @mkPart RNum (@mkVec RNum (k * 2) 0) k (@mkVec RNum 0 0) (1 / k)]).
  { unfold three, part_sc, sc. cbn [map pr pg pv pe x y]. repeat f_equal; eqR; ring. }
  rewrite M. clear M. set (vs := [@mkPart RNum _ _ _ _; _; _]).
  assert (C : scan (K:=RNum) 1000000 [0; 1; 2]%nat vs 0 = @mkBest RNum (k * k * (9 / 25)) (Some 1%nat) (k * 2 * (k * 2)) (Some 2%nat)).
  { assert (G : Reqb k 0 = false) by (apply Reqb_false; lra).
    unfold scan. cbn [fold_left]. unfold look. cbn [vs nth_error pg pr Nat.eqb]. change (@neqb RNum) with Reqb. change (@nltb RNum) with Rltb. change (@nofZ RNum 0) with 0. rewrite G. cbn [orb].
    assert (D : forall q, dist2 (K:=RNum) (@mkVec RNum 0 0) (@mkVec RNum q 0) = q * q) by (intros q; unfold dist2, vsub, abs2; cbn [x y]; unr; eqR; ring).
    rewrite !D. cbn [res1]. replace (k * (3 / 5) * (k * (3 / 5))) with (k * k * (9 / 25)) by field. replace (k * 2 * (k * 2)) with (k * k * 4) by ring.
    assert (0 < k * k) by (apply Rmult_lt_0_compat; assumption).
    rewrite (proj2 (Rltb_true (k * k * (9 / 25)) 1000000)) by lra. cbn [res1 res2 lv1 lv2].
    rewrite (proj2 (Rltb_false (k * k * 4) (k * k * (9 / 25)))) by lra. rewrite (proj2 (Rltb_true (k * k * 4) 1000000)) by lra. reflexivity. }
  unfold epsv. rewrite C. cbn [lv1 lv2 res1]. cbn [vs nth_error pg]. rewrite Z.eqb_refl. cbn [negb andb]. rewrite orb_false_r. change (@nltb RNum) with Rltb.
  match goal with |- context [if ?b then _ else _] => destruct b end; reflexivity.
Qed.
Lemma merges_1 : merges 1 1 = 0%nat.
Proof. rewrite merges_line by lra. rewrite (proj2 (Rltb_false _ _)) by lra. reflexivity. Qed.
Lemma merges_10 : merges 10 1 = 1%nat.
Proof. rewrite merges_line by lra. rewrite (proj2 (Rltb_true _ _)) by lra. reflexivity. Qed.

(** So the same vortices merge in millimetres and do not in centimetres. *)
Theorem C120_merging_refuted : ~ forall (k s : R), 0 < k -> 0 < s -> merges k s = merges 1 1.
Proof. intros H. specialize (H 10 1 ltac:(lra) ltac:(lra)). rewrite merges_1, merges_10 in H. discriminate H. Qed.
Print Assumptions C120_merging_refuted.

(** A vortex and a stream, lengths doubled and speeds tripled. *)
Example C120_velocity_ex :
  let S := @mkSpace RNum [] [@mkPart RNum (@mkVec RNum 0 0) 10 (@mkVec RNum 0 0) 1] [] (@mkVec RNum 1 0) 1 in
  let p := @mkVec RNum 2 0 in
  velocity (K:=RNum) (/1000) 1 1 (linear_influence (K:=RNum) ln (fun _ _ => 0)) S (Some ([0%nat], [])) p = @mkVec RNum 1 4 /\
  velocity (K:=RNum) (/1000) 1 1 (linear_influence (K:=RNum) ln (fun _ _ => 0)) (space_sc 2 3 S) (Some ([0%nat], [])) (sc 2 p) = @mkVec RNum 3 12.
Proof.
  cbv zeta. set (S := mkSpace _ _ _ _ _).
  assert (E : velocity (K:=RNum) (/1000) 1 1 (linear_influence (K:=RNum) ln (fun _ _ => 0)) S (Some ([0%nat], [])) (@mkVec RNum 2 0) = @mkVec RNum 1 4).
  { unfold velocity, S, near_influence, far_influence, sink_influence, body_influence, biot_savart, vadd, vscale, rotl, vsub, abs2.
    cbn [bodies vortices sources flow dt fold_left nth_error pg pr pe x y]. change (@neqb RNum) with Reqb. unr. change (Num.T RNum) with R in *.
    replace (Reqb 10 0) with false by (symmetry; apply Reqb_false; lra). cbn [x y vzero]; unfold vzero; cbn [x y]; unr; f_equal; eqR; field. }
  split; [exact E|].
  pose proof (C120_velocity 2 3 (/1000) 1 1 ln (fun _ _ => 0) S [0%nat] [] (@mkVec RNum 2 0) ltac:(lra) ltac:(lra) ltac:(lra) (Forall_nil _)) as X.
  rewrite E in X. etransitivity; [exact X|]. unfold sc. cbn [x y]. f_equal; eqR; ring.
Qed.
