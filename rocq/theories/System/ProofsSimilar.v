(** The linear system in other units. *)

From Coq Require Import ZArith Bool List Reals Lra Lia Permutation FunctionalExtensionality.
From Verif.Base Require Import Num.
From Verif.Matrix Require Import Model.
From Verif.Body Require Import Model Spec.
From Verif.Flow Require Import Model.
From Verif.System Require Import Model Spec Proofs ProofsCollision ProofsWrite ProofsPhysics ProofsSolve ProofsXi ProofsLaws SpecSimilar.
From Verif.Vortex Require Import ProofsKernel.
From Verif.Map Require Import SpecSimilar ProofsSimilar.
Import ListNotations.
Local Open Scope R_scope.

Section Units.
Variables k s : R.
Hypothesis (Hk : 0 < k) (Hs : 0 < s).
Let k0 : k <> 0 := Rgt_not_eq _ _ Hk.
Let s0 : s <> 0 := Rgt_not_eq _ _ Hs.
Let kk : 0 < k * k := Rmult_lt_0_compat _ _ Hk Hk.
Let kk0 : k * k <> 0 := Rgt_not_eq _ _ kk.
Variable at2 : R -> R -> R.
Hypothesis Hat : angle at2.

Notation xi_g := (Model.xi_g (K:=RNum) ln).
Notation core_exit := (Model.core_exit (K:=RNum)).

Lemma ln_ratio a b : ln (k * k * a / (k * k * b)) = ln (a / b).
Proof. rewrite div_sc by exact kk0. reflexivity. Qed.

Lemma xi_g_near_sc p pc d rd : xi_g_near (K:=RNum) (sc k p) (sc k pc) (sc k d) (k * rd) = xi_g_near (K:=RNum) p pc d rd.
Proof.
  unfold xi_g_near, sqr. rewrite vsub_sc, dot_sc. unr. replace (k * rd * (k * rd)) with (k * k * (rd * rd)) by ring. apply div_sc, kk0.
Qed.
Lemma xi_q_near_sc p pc d rd : xi_q_near (K:=RNum) (sc k p) (sc k pc) (sc k d) (k * rd) = xi_q_near (K:=RNum) p pc d rd.
Proof.
  unfold xi_q_near, sqr. rewrite rotl_sc, vsub_sc, dot_sc. unr. replace (k * rd * (k * rd)) with (k * k * (rd * rd)) by ring. apply div_sc, kk0.
Qed.
Lemma xi_g_dist_sc p q q' : xi_g_dist (K:=RNum) ln (sc k p) (sc k q) (sc k q') = xi_g_dist (K:=RNum) ln p q q'.
Proof. unfold xi_g_dist. rewrite !vsub_sc, !abs2_sc. unr. rewrite ln_ratio. reflexivity. Qed.
Lemma xi_q_dist_sc p q q' : xi_q_dist (K:=RNum) at2 (sc k p) (sc k q) (sc k q') = xi_q_dist (K:=RNum) at2 p q q'.
Proof. unfold xi_q_dist. cbv zeta. rewrite !vsub_sc, rotl_sc, !dot_sc. apply Hat, kk. Qed.

Lemma core_exit_sc p a rd : core_exit (sc k p) (att_sc k a) (k * rd) = sc k (core_exit p a rd).
Proof.
  unfold Model.core_exit. cbn [att_sc dl r]. rewrite vsub_sc, !abs2_sc, dot_sc. cbv zeta. unr.
  set (a0 := abs2 (dl a)). set (b0 := dot _ (dl a)). set (q := abs2 _). change (Num.T RNum) with R in *.
  replace (k * k * b0 * (k * k * b0) - k * k * a0 * (k * k * q - k * rd * (k * rd))) with (k * k * (k * k) * (b0 * b0 - a0 * (q - rd * rd))) by ring.
  rewrite sqrt_sc by lra. set (d := sqrt _). change (Num.T RNum) with R in *.
  replace (k * k * b0 + k * k * d) with (k * k * (b0 + d)) by ring. replace (k * k * b0 - k * k * d) with (k * k * (b0 - d)) by ring.
  rewrite !div_sc by exact kk0. rewrite vscale_sc1, vadd_sc. reflexivity.
Qed.

Lemma xi_g_sc p a rd : xi_g (sc k p) (att_sc k a) (k * rd) = xi_g p a rd.
Proof.
  unfold Model.xi_g. cbv zeta. change (corner (att_sc k a)) with (sc k (corner a)). change (dl (att_sc k a)) with (sc k (dl a)). change (r (att_sc k a)) with (sc k (r a)).
  rewrite core_exit_sc, !vadd_sc, !vsub_sc, !abs2_sc, !vscale_sc1, !xi_g_near_sc, !xi_g_dist_sc.
  replace (sqr (K:=RNum) (k * rd)) with (k * k * sqr (K:=RNum) rd) by (unfold sqr; unr; eqR; ring).
  change (@nleb RNum) with Rleb. change (@nltb RNum) with Rltb. rewrite !leb_sc, !ltb_sc by exact kk. unr. rewrite ln_ratio. reflexivity.
Qed.

Lemma xi_at_sc p a rd : xi_at (K:=RNum) ln at2 (sc k p) (att_sc k a) (k * rd) = xi_at (K:=RNum) ln at2 p a rd.
Proof.
  unfold Model.xi_at. cbv zeta. change (corner (att_sc k a)) with (sc k (corner a)). change (dl (att_sc k a)) with (sc k (dl a)). change (r (att_sc k a)) with (sc k (r a)).
  rewrite core_exit_sc, !vadd_sc, !vsub_sc, !rotl_sc, !abs2_sc, !dot_sc, !vscale_sc1, !xi_g_near_sc, !xi_g_dist_sc, !xi_q_near_sc, !xi_q_dist_sc.
  replace (sqr (K:=RNum) (k * rd)) with (k * k * sqr (K:=RNum) rd) by (unfold sqr; unr; eqR; ring).
  change (@nleb RNum) with Rleb. change (@nltb RNum) with Rltb. rewrite !leb_sc, !ltb_sc by exact kk. unr. rewrite ln_ratio, Hat by exact kk.
  set (A := @dot RNum _ (dl a)). set (B := @dot RNum _ (rotl (dl a))).
  replace (vdiv (@mkVec RNum (k * k * A) (k * k * B)) (k * k * sqr (K:=RNum) rd)) with (vdiv (@mkVec RNum A B) (sqr (K:=RNum) rd)).
  - reflexivity.
  - change (@mkVec RNum (k * k * A) (k * k * B)) with (sc (k * k) (@mkVec RNum A B)). rewrite vdiv_sc by exact kk0.
    replace (k * k / (k * k)) with 1 by (field; exact k0). rewrite sc_one. reflexivity.
Qed.

(** ** Parts of the equations *)

Lemma rigid_sc c q : 0 < c -> isrigid (K:=RNum) (c * q) = isrigid (K:=RNum) q.
Proof.
  intros C. unfold isrigid. change (@nleb RNum) with Rleb. change (@nofZ RNum 0) with 0. change (@nfinite RNum) with (fun _ : R => true).
  pose proof (leb_sc c 0 q C) as X. rewrite Rmult_0_r in X. rewrite X. reflexivity.
Qed.
Lemma rigid_spring c v : isrigid (K:=RNum) (get c (spring_sc k s v)) = isrigid (K:=RNum) (get c v).
Proof.
  assert (S2 : 0 < s * s) by (apply Rmult_lt_0_compat; assumption).
  destruct c; unfold spring_sc, both, sc; cbn [get r3 o3 x y]; apply rigid_sc; [exact S2..|]. apply Rmult_lt_0_compat; assumption.
Qed.

Lemma shapes_sc S : shapes_of (system_sc k s S) = shapes_of S.
Proof.
  unfold shapes_of. cbn [sbodies system_sc late]. rewrite map_map. apply map_ext. intros b. unfold shape_of, g_of.
  cbn [sbody_sc fb fb_sc geo geo_sc alist special_ kutta_ Flow.Model.kspring]. rewrite map_length. f_equal.
  apply functional_extensionality. intros c. rewrite rigid_spring. reflexivity.
Qed.

Lemma axis_sc g : get_axis (geo_sc k s g) = sc k (get_axis g).
Proof. unfold get_axis. cbn [geo_sc holder dpos place_sc both r3]. apply vadd_sc. Qed.
Lemma arm_sc g : vsub (cofm (geo_sc k s g)) (get_axis (geo_sc k s g)) = sc k (vsub (cofm g) (get_axis g)).
Proof. rewrite axis_sc. cbn [geo_sc cofm]. apply vsub_sc. Qed.
Lemma moi_sc g : moi_axis (geo_sc k s g) = k * k * (k * k) * moi_axis g.
Proof. unfold moi_axis. rewrite axis_sc. cbn [geo_sc cofm moi area]. rewrite vsub_sc, abs2_sc. unr. eqR. ring. Qed.

Lemma xi_sc same p a rd : xi (K:=RNum) ln at2 (/1000) same (sc k p) (att_sc k a) (k * rd) = xi (K:=RNum) ln at2 (/1000) same p a rd.
Proof.
  unfold xi. change (dl (att_sc k a)) with (sc k (dl a)). rewrite rotl_sc, vscale_sc1, vadd_sc. destruct same; apply xi_at_sc.
Qed.

Lemma core_sc (l : att RNum) : nmul (n:=RNum) (vabs (dl (att_sc k l))) (/4) = k * nmul (n:=RNum) (vabs (dl l)) (/4).
Proof. change (dl (att_sc k l)) with (sc k (dl l)). rewrite vabs_sc by lra. unr. eqR. ring. Qed.

Lemma fold_sc {A} (c : R) (f g : R -> A -> R) (h : A -> A) l : (forall z e, g (c * z) (h e) = c * f z e) ->
  forall z, fold_left g (map h l) (c * z) = c * fold_left f l z.
Proof. intros H. induction l as [|e l IH]; intros z; [reflexivity|]. cbn [map fold_left]. rewrite H. apply IH. Qed.

Lemma a3_sc a same n b : a3 (K:=RNum) ln at2 (/4) (/1000) (att_sc k a) same n (sbody_sc k s b) = k * k * a3 (K:=RNum) ln at2 (/4) (/1000) a same n b.
Proof.
  unfold a3. cbn [sbody_sc fb fb_sc Flow.Model.kspring own root]. rewrite (rigid_spring CO (Flow.Model.kspring (fb b)) : isrigid (o3 _) = isrigid (o3 _)).
  cbn [turning_sc both o3]. change (@neqb RNum) with Reqb. change (@nofZ RNum 0) with 0.
  assert (P : s / k <> 0) by (apply Rmult_integral_contrapositive; split; [exact s0|apply Rinv_neq_0_compat, k0]).
  rewrite eqb_sc by exact P. destruct (_ && _ && _); [eqR; ring|].
  cbn [g_of geo fb sbody_sc fb_sc]. rewrite axis_sc. cbn [geo_sc alist]. rewrite indexed_map.
  rewrite <- (Rmult_0_r (k * k)) at 1. apply fold_sc. intros z [j l]. cbn [fst snd].
  rewrite core_sc. change (r (att_sc k l)) with (sc k (r l)). change (dl (att_sc k l)) with (sc k (dl l)). rewrite xi_sc, vsub_sc, rotl_sc, dot_sc.
  set (X := xi _ _ _ _ _ _ _). set (q := vsub (r l) _). unfold dot, sc. cbn [x y]. unr. eqR. ring.
Qed.

Definition row_sc (q q' : eqn RNum) : Prop := exists f, 0 < f /\ rhs q' = f * rhs q /\
  Forall2 (fun t t' : unk * R => fst t' = fst t /\ snd t' * unit_of k s (fst t) = f * snd t) (coefs q) (coefs q') /\ NoDup (map fst (coefs q)).

Lemma row_lin q q' v : row_sc q q' -> NoDup (map fst (coefs q')) /\
  (lin (unknowns_sc k s v) (coefs q') = rhs q' <-> lin v (coefs q) = rhs q).
Proof.
  intros (f & F & R & H & N). split.
  - replace (map fst (coefs q')) with (map fst (coefs q)); [exact N|]. clear - H. induction H as [|t t' l l' [E _] H IH]; [reflexivity|]. cbn [map]. f_equal; [exact (eq_sym E)|exact IH].
  - assert (L : lin (unknowns_sc k s v) (coefs q') = f * lin v (coefs q)).
    { clear - H. induction H as [|[u a] [u' a'] l l' [E C] H IH]; [unfold lin; cbn; ring|]. cbn [fst snd] in *. subst u'.
      rewrite !lin_cons, IH. unfold unknowns_sc. rewrite <- Rmult_assoc, C. ring. }
    rewrite L, R. split; intros X; [apply (Rmult_eq_reg_l f); lra|rewrite X; reflexivity].
Qed.

Lemma forall2_flat {A} (P : unk * R -> unk * R -> Prop) (f g : A -> list (unk * R)) (h : A -> A) l :
  (forall a, Forall2 P (f a) (g (h a))) -> Forall2 P (flat_map f l) (flat_map g (map h l)).
Proof. intros H. induction l as [|a l IH]; [constructor|]. cbn [map flat_map]. apply Forall2_app; [apply H|exact IH]. Qed.
Lemma forall2_map {A} (P : unk * R -> unk * R -> Prop) (f g : A -> unk * R) (h : A -> A) l :
  (forall a, P (f a) (g (h a))) -> Forall2 P (map f l) (map g (map h l)).
Proof. intros H. induction l as [|a l IH]; [constructor|]. cbn [map]. constructor; [apply H|exact IH]. Qed.

Section Rows.
Variables (tp ip : R) (sk sk' : pt -> pt) (ff ff' : att RNum -> R) (S : sspace RNum).
Hypothesis (Hsk : sinks_sc k s sk sk') (Hff : flux_sc k s ff ff') (NSR : no_self_root S).
Notation S' := (system_sc k s S).
Let ks : 0 < k * s := Rmult_lt_0_compat _ _ Hk Hs.
Let kss : 0 < k * (s * s).
Proof. apply Rmult_lt_0_compat; [|apply Rmult_lt_0_compat]; assumption. Qed.
Let kkss : 0 < k * k * (s * s).
Proof. apply Rmult_lt_0_compat; [exact kk|apply Rmult_lt_0_compat; assumption]. Qed.

Lemma bodies_sc : bodies_i S' = map (fun e => (fst e, sbody_sc k s (snd e))) (bodies_i S).
Proof. unfold bodies_i. cbn [sbodies system_sc]. apply indexed_map. Qed.
Lemma alist_sc b : indexed (alist (g_of (sbody_sc k s b))) = map (fun e => (fst e, att_sc k (snd e))) (indexed (alist (g_of b))).
Proof. unfold g_of. cbn [sbody_sc fb fb_sc geo geo_sc alist]. apply indexed_map. Qed.

Lemma children_sc i : children S' i = map (fun e => (fst e, sbody_sc k s (snd e))) (children S i).
Proof.
  unfold children. rewrite bodies_sc. induction (bodies_i S) as [|[j b] t IH]; [reflexivity|].
  cbn [map filter fst snd]. change (root (fb (sbody_sc k s b))) with (root (fb b)).
  destruct (root (fb b)) as [m|]; [destruct (Nat.eqb m i)|]; cbn [map fst snd]; rewrite IH; reflexivity.
Qed.
Lemma roots_sc : roots_listed S' <-> roots_listed S.
Proof.
  unfold roots_listed. cbn [sbodies system_sc]. rewrite map_length. split; intros H b j Hb Hr.
  - apply (H (sbody_sc k s b) j); [apply in_map, Hb|exact Hr].
  - apply in_map_iff in Hb. destruct Hb as (b0 & <- & Hb). exact (H b0 j Hb Hr).
Qed.

Ltac one := split; [reflexivity|]; cbn [fst snd unit_of].
Ltac each := repeat match goal with |- Forall2 _ (_ :: _) (_ :: _) => apply Forall2_cons; [one|] | |- Forall2 _ [] [] => apply Forall2_nil end.

Lemma slip_row_sc i n a : row_sc (slip_eq (K:=RNum) ln at2 tp ip (/4) (/1000) S sk ff i n a) (slip_eq (K:=RNum) ln at2 tp ip (/4) (/1000) S' sk' ff' i n (att_sc k a)).
Proof.
  exists (k * s). split; [exact ks|]. split; [|split; [|apply slip_nodup]].
  - unfold slip_eq. cbn [rhs system_sc inf_speed]. rewrite Hff. change (r (att_sc k a)) with (sc k (r a)). change (dl (att_sc k a)) with (sc k (dl a)).
    rewrite Hsk, !rotl_sc, !dot_sc. unr. eqR. ring.
  - unfold slip_eq. cbn [coefs]. rewrite bodies_sc. apply forall2_flat. intros [j b]. cbn [fst snd]. apply Forall2_app.
    + rewrite alist_sc. apply forall2_map. intros [m l]. cbn [fst snd]. one. rewrite core_sc.
      change (corner (att_sc k l)) with (sc k (corner l)). rewrite xi_g_sc. unr. eqR. ring.
    + rewrite a3_sc. change (dl (att_sc k a)) with (sc k (dl a)). each; unfold sc; cbn [x y]; unr;
        try (destruct (Nat.eqb i j); eqR; ring). unfold Rdiv. eqR. field. exact k0.
Qed.

Lemma ones_sc j b : Forall2 (fun t t' : unk * R => fst t' = fst t /\ snd t' * unit_of k s (fst t) = k * s * snd t) (ones (K:=RNum) j b) (ones (K:=RNum) j (sbody_sc k s b)).
Proof.
  unfold ones, g_of. cbn [sbody_sc fb fb_sc geo geo_sc alist area]. rewrite map_length. apply Forall2_app.
  - induction (seq 0 (length (alist (geo (fb b))))) as [|n l IH]; [constructor|]. cbn [map]. constructor; [|exact IH]. one. unr. eqR. ring.
  - each. unr. eqR. field. exact k0.
Qed.

Lemma zero_row_sc i n : row_sc (zero_eq (K:=RNum) i n) (zero_eq (K:=RNum) i n).
Proof.
  exists (k * s). split; [exact ks|]. split; [|split].
  - unfold zero_eq. cbn [rhs]. unr. eqR. ring.
  - unfold zero_eq. cbn [coefs]. each. unr. eqR. ring.
  - cbn. repeat constructor. simpl. tauto.
Qed.
Lemma inf_row_sc : row_sc (inf_eq (K:=RNum) S) (inf_eq (K:=RNum) S').
Proof.
  exists (k * s). split; [exact ks|]. split; [|split; [|apply inf_nodup]].
  - unfold inf_eq. cbn [rhs system_sc gfree inf_g]. unr. eqR. ring.
  - unfold inf_eq. cbn [coefs]. rewrite bodies_sc. apply forall2_flat. intros [j b]. apply ones_sc.
Qed.
Lemma steady_row_sc i b : row_sc (steady_eq (K:=RNum) i b) (steady_eq (K:=RNum) i (sbody_sc k s b)).
Proof.
  exists (k * s). split; [exact ks|]. split; [|split; [|apply ones_nodup]].
  - unfold steady_eq, g_of. cbn [rhs sbody_sc fb fb_sc geo geo_sc area g_dead speed_slae_prev turning_sc both o3]. unr. eqR. field. exact k0.
  - apply ones_sc.
Qed.
Lemma stop_row_sc c i : row_sc (stop_eq (K:=RNum) c i) (stop_eq (K:=RNum) c i).
Proof.
  assert (P : 0 < unit_of k s (UV i c)) by (destruct c; cbn [unit_of]; [exact Hs..|apply Rdiv_lt_0_compat; assumption]).
  exists (unit_of k s (UV i c)). split; [exact P|]. split; [|split].
  - unfold stop_eq. cbn [rhs]. unr. eqR. ring.
  - unfold stop_eq. cbn [coefs]. each. destruct c; unr; eqR; ring.
  - cbn. repeat constructor. simpl. tauto.
Qed.
Lemma speed_row_sc c i b : nth_error (sbodies S) i = Some b -> row_sc (speed_eq (K:=RNum) S c i b) (speed_eq (K:=RNum) S' c i (sbody_sc k s b)).
Proof.
  intros Hb. pose proof (NSR i b Hb) as NR.
  assert (P : 0 < unit_of k s (UV i c)) by (destruct c; cbn [unit_of]; [exact Hs..|apply Rdiv_lt_0_compat; assumption]).
  exists (unit_of k s (UV i c)). split; [exact P|]. split; [|split].
  - unfold speed_eq. cbn [rhs]. cbn [sbody_sc fb fb_sc own]. destruct c; cbn [get turning_sc both unit_of r3 o3 sc x y]; reflexivity.
  - unfold speed_eq. cbn [coefs]. constructor; [one; destruct c; unr; eqR; ring|].
    change (root (fb (sbody_sc k s b))) with (root (fb b)). destruct (root (fb b)) as [j|]; [|constructor].
    cbn [sbodies system_sc]. rewrite nth_error_map.
    assert (A : match option_map (sbody_sc k s) (nth_error (sbodies S) j) with Some rt => get_axis (g_of rt) | None => vzero end =
      sc k (match nth_error (sbodies S) j with Some rt => get_axis (g_of rt) | None => vzero end)).
    { destruct (nth_error (sbodies S) j) as [rt|]; cbn [option_map]; [apply axis_sc|symmetry; apply sc_zero]. }
    rewrite A. set (ax := match nth_error (sbodies S) j with Some rt => get_axis (g_of rt) | None => vzero end).
    change (r3 (holder (g_of (sbody_sc k s b)))) with (sc k (r3 (holder (g_of b)))).
    change (get_axis (g_of (sbody_sc k s b))) with (get_axis (geo_sc k s (g_of b))). rewrite axis_sc, !vsub_sc.
    destruct c; each; unfold sc; cbn [x y]; unr; eqR; field; exact k0.
  - unfold speed_eq. cbn [coefs]. destruct (root (fb b)) as [j|] eqn:E; [|cbn [map fst]; repeat constructor; simpl; tauto].
    assert (i <> j) by congruence. destruct c; cbn [map fst]; repeat constructor; simpl; intuition congruence.
Qed.
Lemma hooke_row_sc c u i b : row_sc (hooke_eq (K:=RNum) c u i b) (hooke_eq (K:=RNum) c u i (sbody_sc k s b)).
Proof.
  assert (P : 0 < unit_of k s (UF i c)) by (destruct c; cbn [unit_of]; assumption).
  exists (unit_of k s (UF i c)). split; [exact P|]. split; [|split].
  - unfold hooke_eq, g_of. cbn [rhs sbody_sc fb fb_sc Flow.Model.kspring geo geo_sc dpos torque bounce force_holder].
    destruct c, u; unfold spring_sc, place_sc, force_sc, both, sc; cbn [get r3 o3 x y unit_of]; unr; eqR; ring.
  - unfold hooke_eq. cbn [coefs sbody_sc damping]. each; destruct c; unfold damping_sc, both, sc; cbn [get r3 o3 x y]; unr; eqR; field; exact k0.
  - unfold hooke_eq. cbn [coefs map fst]. repeat constructor; simpl; intuition discriminate.
Qed.

Lemma step_sc (c : R) : c / (k / s * dt S) = s / k * (c / dt S).
Proof.
  change (Num.T RNum) with R in *. unfold Rdiv. assert (N : k * / s <> 0) by (apply Rmult_integral_contrapositive; split; [exact k0|apply Rinv_neq_0_compat, s0]).
  rewrite (inv_sc (k * / s) (dt S) N). rewrite (inv_sc k (/ s) k0), Rinv_inv. ring.
Qed.

Lemma hydro_row_sc c i b : row_sc (hydro_eq (K:=RNum) S c i b) (hydro_eq (K:=RNum) S' c i (sbody_sc k s b)).
Proof.
  assert (P : 0 < unit_of k s (UH i c)) by (destruct c; cbn [unit_of]; assumption).
  exists (unit_of k s (UH i c)). split; [exact P|]. split; [|split; [|apply hydro_nodup]].
  - destruct c; unfold hydro_eq; cbn [rhs]; unfold g_of; cbn [sbody_sc fb fb_sc geo system_sc dt friction_prev fdt_dead]; rewrite ?arm_sc, ?moi_sc;
      cbn [geo_sc cofm area speed_slae_prev turning_sc force_sc impulse_sc both r3 o3];
      change (@ndiv RNum) with Rdiv; rewrite !step_sc; set (rc := vsub (K:=RNum) (cofm _) _); try set (m := moi_axis (K:=RNum) _);
      set (h1 := _ / dt S); try set (h2 := _ / dt S); unfold dot, rotl, vadd, vscale, sqr, sc; cbn [x y unit_of]; unr; unfold Rdiv; eqR; field; exact k0.
  - destruct c; unfold hydro_eq; cbn [coefs]; rewrite alist_sc; apply Forall2_app.
    1, 3, 5: apply forall2_map; intros [m l]; cbn [fst snd system_sc dt]; one; change (@ndiv RNum) with Rdiv; rewrite step_sc;
      change (corner (att_sc k l)) with (sc k (corner l)).
    3: change (get_axis (g_of (sbody_sc k s b))) with (get_axis (geo_sc k s (g_of b))); rewrite axis_sc, vsub_sc, abs2_sc; set (X := abs2 _).
    1, 2, 3: set (h1 := _ / dt S); unfold sc; cbn [x y]; unr; unfold Rdiv; eqR; field; exact k0.
    all: unfold g_of; cbn [sbody_sc fb fb_sc geo system_sc dt]; rewrite ?arm_sc, ?moi_sc; cbn [geo_sc cofm area];
      change (@ndiv RNum) with Rdiv; rewrite ?step_sc; set (rc := vsub (K:=RNum) (cofm _) _); try set (m := moi_axis (K:=RNum) _); set (h1 := _ / dt S);
      each; unfold sc; cbn [x y]; unr; unfold Rdiv; eqR; field; exact k0.
Qed.

Lemma newton_row_sc c i b : nth_error (sbodies S) i = Some b -> row_sc (newton_eq (K:=RNum) S c i b) (newton_eq (K:=RNum) S' c i (sbody_sc k s b)).
Proof.
  intros Hb. assert (P : 0 < unit_of k s (UF i c)) by (destruct c; cbn [unit_of]; assumption).
  exists (unit_of k s (UF i c)). split; [exact P|]. split; [|split; [|apply newton_nodup; assumption]].
  - destruct c; unfold newton_eq; cbn [rhs]; unfold g_of; cbn [sbody_sc fb fb_sc geo system_sc dt density gravity]; rewrite ?arm_sc, ?moi_sc;
      cbn [geo_sc cofm area speed_slae_prev turning_sc both r3 o3];
      change (@ndiv RNum) with Rdiv; rewrite !step_sc; set (rc := vsub (K:=RNum) (cofm _) _); try set (m := moi_axis (K:=RNum) _);
      set (h1 := _ / dt S); unfold dot, rotl, sqr, sc; cbn [x y unit_of]; unr; unfold Rdiv; eqR; field; exact k0.
  - destruct c; unfold newton_eq; cbn [coefs]; rewrite children_sc; apply Forall2_app.
    1, 3, 5: unfold g_of; cbn [sbody_sc fb fb_sc geo system_sc dt density]; rewrite ?arm_sc, ?moi_sc; cbn [geo_sc cofm area];
      change (@ndiv RNum) with Rdiv; rewrite ?step_sc; set (rc := vsub (K:=RNum) (cofm _) _); try set (m := moi_axis (K:=RNum) _); set (h1 := _ / dt S);
      each; unfold sc; cbn [x y]; unr; unfold Rdiv; eqR; field; exact k0.
    1, 2: apply forall2_map; intros [j d]; cbn [fst snd]; one; unr; eqR; ring.
    apply forall2_flat. intros [j d]. cbn [fst snd].
    change (get_axis (g_of (sbody_sc k s d))) with (get_axis (geo_sc k s (g_of d))). change (get_axis (g_of (sbody_sc k s b))) with (get_axis (geo_sc k s (g_of b))).
    rewrite !axis_sc, vsub_sc. set (A := vsub _ _). each; unfold sc; cbn [x y]; unr; eqR; ring.
Qed.

Lemma eqn_sc e :
  match eqn_of (K:=RNum) ln at2 tp ip (/4) (/1000) S sk ff e, eqn_of (K:=RNum) ln at2 tp ip (/4) (/1000) S' sk' ff' e with
  | Some q, Some q' => row_sc q q'
  | None, None => True
  | _, _ => False
  end.
Proof.
  unfold eqn_of. cbn [sbodies system_sc]. rewrite nth_error_map.
  destruct (nth_error (sbodies S) (ebody e)) as [b|] eqn:Hb; cbn [option_map]; [|exact I].
  destruct (ekind e) as [| | | |c|c|c b0|c|c].
  - change (alist (g_of (sbody_sc k s b))) with (map (att_sc k) (alist (g_of b))). rewrite nth_error_map.
    destruct (nth_error (alist (g_of b)) (eseg e)) as [a|]; cbn [option_map]; [|exact I]. apply slip_row_sc.
  - apply zero_row_sc.
  - apply inf_row_sc.
  - apply steady_row_sc.
  - apply speed_row_sc. exact Hb.
  - apply stop_row_sc.
  - apply hooke_row_sc.
  - apply hydro_row_sc.
  - apply newton_row_sc. exact Hb.
Qed.

Lemma solution_sc p v : solution_with at2 tp ip sk ff S p v <-> solution_with at2 tp ip sk' ff' S' p (unknowns_sc k s v).
Proof.
  split.
  - intros (addr & es & q & order & sl & M & M' & Hp & HP & HR & HL & HF & Hsol).
    apply (holds_with at2 tp ip S' sk' ff' p es q); [rewrite shapes_sc; exact Hp|apply roots_sc; exact HL|].
    intros e qn He Eq. pose proof (eqn_sc e) as X. rewrite Eq in X.
    destruct (eqn_of _ _ _ _ _ _ S sk ff e) as [q0|] eqn:E0; [|destruct X].
    destruct (row_lin _ _ v X) as [N L]. split; [exact N|]. apply L. destruct X as (f & _ & _ & _ & Hn).
    exact (row_holds at2 tp ip S sk ff addr p es q order sl M M' v e q0 Hp HP HR HL HF Hsol He E0 Hn).
  - intros (addr & es & q & order & sl & M & M' & Hp & HP & HR & HL & HF & Hsol).
    assert (Hp0 : plan (shapes_of S) p = Some (es, q)) by (rewrite <- Hp, shapes_sc; reflexivity).
    apply (holds_with at2 tp ip S sk ff p es q v Hp0); [apply roots_sc, HL|].
    intros e q0 He Eq. pose proof (eqn_sc e) as X. rewrite Eq in X.
    destruct (eqn_of _ _ _ _ _ _ S' sk' ff' e) as [qn|] eqn:E0; [|destruct X].
    destruct (row_lin _ _ v X) as [N L]. destruct X as (f & _ & _ & _ & Hn). split; [exact Hn|]. apply L.
    exact (row_holds at2 tp ip S' sk' ff' addr p es q order sl M M' (unknowns_sc k s v) e qn Hp HP HR HL HF Hsol He E0 N).
Qed.
End Rows.
End Units.
