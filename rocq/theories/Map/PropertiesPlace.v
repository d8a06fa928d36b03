(** C118: the place of the flow does not matter. *)

From Coq Require Import ZArith Bool List Lia Reals Lra.
From Flocq Require Import IEEE754.BinarySingleNaN.
From Verif.Base Require Import Num F64.
From Verif.Body Require Import Model Spec.
From Verif.Vortex Require Import Model ModelFar ProofsKernel.
From Verif.Map Require Import Model ModelLinear ModelPlace SpecPlace ProofsPlace ProofsPlaceCore.
From Verif.Tree Require Import Model.
Import ListNotations.
Local Open Scope R_scope.

(** The search tree of the moved flow is the moved tree: the same objects in the
    same leaves in the same order. *)
Theorem C118_tree : forall (d : vec RNum) (big minSize maxSize : R) fuel b v h s,
  0 < big -> 0 <= minSize -> 0 < maxSize -> b ++ v ++ h ++ s <> [] ->
  in_range big (b ++ v ++ h ++ s) -> in_range big (map (obj_at d) (b ++ v ++ h ++ s)) ->
  build (K:=RNum) big minSize maxSize fuel (map (obj_at d) b) (map (obj_at d) v) (map (obj_at d) h) (map (obj_at d) s) =
  option_map (tree_at d) (build (K:=RNum) big minSize maxSize fuel b v h s).
Proof. intros * B Mi Ma N R1 R2. apply build_at; auto. split; assumption. Qed.

Section Velocities.
Variables (lnf : R -> R) (atan2f : R -> R -> R) (inf tiny10 inv_2pi inv_pi criteria : R).
Notation velocity_at := (velocity_at (K:=RNum) lnf atan2f inf tiny10 inv_2pi inv_pi criteria).
Notation particle_velocity := (particle_velocity (K:=RNum) lnf atan2f inf tiny10 inv_2pi inv_pi criteria).

Lemma velocity_moved d (S : @space RNum) t p : velocity_at (space_at d S) (tree_at d t) (at_ d p) = velocity_at S t p.
Proof.
  unfold ModelPlace.velocity_at. cbv zeta. rewrite find_node_at, nears_at, fars_at, summary_list_at, map_length.
  unfold velocity. cbn [with_vortices bodies vortices sources flow dt space_at].
  rewrite near_influence_at, far_influence_at, sink_influence_at, body_influence_at. reflexivity.
Qed.

(** Velocity at any point: bodies, vortices, sources and point moved together
    give the same velocity. *)
Theorem C118_velocity : forall (d : vec RNum) (big minSize maxSize : R) fuel b v h s t (S : @space RNum),
  0 < big -> 0 <= minSize -> 0 < maxSize -> 0 <= criteria ->
  in_range big (b ++ v ++ h ++ s) -> in_range big (map (obj_at d) (b ++ v ++ h ++ s)) ->
  build (K:=RNum) big minSize maxSize fuel b v h s = Some t ->
  exists t', build (K:=RNum) big minSize maxSize fuel (map (obj_at d) b) (map (obj_at d) v) (map (obj_at d) h) (map (obj_at d) s) = Some t' /\
  forall p, velocity_at (space_at d S) t' (at_ d p) = velocity_at S t p.
Proof.
  intros * B Mi Ma Cr R1 R2 E.
  assert (D : b ++ v ++ h ++ s = [] \/ b ++ v ++ h ++ s <> []) by (destruct (b ++ v ++ h ++ s); [left; reflexivity|right; discriminate]).
  destruct D as [D|D].
  - apply app_eq_nil in D. destruct D as [-> D]. apply app_eq_nil in D. destruct D as [-> D]. apply app_eq_nil in D. destruct D as [-> ->].
    cbn [map]. exists t. split; [exact E|]. intros p. unfold build in E.
    assert (L : t = Leaf (stretch (K:=RNum) big [] [] [] []) [] [] [] []).
    { assert (Q : is_bottom (K:=RNum) minSize maxSize (stretch (K:=RNum) big [] [] [] []) [] [] [] [] = true).
      { unfold is_bottom, stretch. cbn [app fold_left nh nw]. unr. unfold Tree.Model.cmax, Tree.Model.cmin.
        change (@nltb RNum) with Rltb. change (@nleb RNum) with Rleb.
        set (q := - big - big). assert (q < 0) by (unfold q; lra).
        destruct (Rltb q q); (replace (Rltb q maxSize) with true by (symmetry; apply Rltb_true; lra));
        (replace (Rleb q minSize) with true by (symmetry; apply Rleb_true; lra)); reflexivity. }
      destruct fuel; cbn [divide] in E; rewrite Q in E; injection E as <-; reflexivity. }
    subst t. unfold ModelPlace.velocity_at. cbv zeta. cbn [find_node].
    set (u := Leaf _ _ _ _ _).
    assert (F : find_near (far (K:=RNum) criteria (node_of u)) [] u = ([[]], [])).
    { unfold u at 2. cbn [find_near node_of]. replace (far (K:=RNum) criteria _ _) with false; [reflexivity|].
      symmetry. unfold far. change (@nltb RNum) with Rltb. apply Rltb_false. unr. change (Num.T RNum) with R in *.
      set (n := stretch (K:=RNum) big [] [] [] []). cbn [u node_of]. fold n. change (Num.T RNum) with R in *.
      set (q := nh n + nw n + nh n + nw n). assert (0 <= q * q) by (apply Rle_0_sqr). assert (0 <= criteria * (q * q)) by (apply Rmult_le_pos; lra).
      replace (nx n - nx n) with 0 by lra. replace (ny n - ny n) with 0 by lra. lra. }
    unfold nears, fars. rewrite F. cbn [fst snd nodes flat_map subtree u below_nodes leaves leaf_v map app length seq summary_list].
    unfold velocity. cbn [with_vortices bodies vortices sources flow dt space_at].
    rewrite sink_influence_at, body_influence_at.
    rewrite <- (near_influence_at d inv_2pi [] [] p), <- (far_influence_at d inv_2pi [] p). reflexivity.
  - exists (tree_at d t). split; [rewrite C118_tree by assumption; rewrite E; reflexivity|]. intros p. apply velocity_moved.
Qed.

(** What the particles of every leaf get. *)
Theorem C118_particle : forall (d : vec RNum) (S : @space RNum) t u o, In u (leaves t) ->
  In (tree_at d u) (leaves (tree_at d t)) /\
  particle_velocity (space_at d S) (tree_at d t) (tree_at d u) (obj_at d o) = particle_velocity S t u o.
Proof.
  intros * Hu. split; [rewrite leaves_at; apply in_map, Hu|].
  unfold ModelPlace.particle_velocity. rewrite nears_at, fars_at, summaries_at, map_length, node_of_at.
  change (centre_of (node_at d (node_of u))) with (at_ d (centre_of (node_of u))).
  change (particle (obj_at d o)) with (part_at d (particle o)).
  unfold advected. cbv zeta. cbn [pv pr part_at space_at flow dt sources bodies].
  rewrite taylor_at, near_influence_at, sink_influence_at, body_influence_at, vsub_at. reflexivity.
Qed.
End Velocities.

(** Radii, merging and the number of merges. *)
Theorem C118_radii : forall (d : vec RNum) (big tiny third merge_c : R) eps bodies merging cells vs,
  eps = epsv (K:=RNum) big tiny \/ eps = epsh (K:=RNum) big tiny ->
  let run := calc_epsilon (K:=RNum) big third merge_c eps in
  run (map (map (att_at d)) bodies) merging (map (cell_at d) cells) (map (part_at d) vs) =
  (map (part_at d) (fst (run bodies merging cells vs)), snd (run bodies merging cells vs)).
Proof.
  intros * H. cbv zeta. apply calc_epsilon_at. destruct H as [-> | ->]; [apply epsv_at|apply epsh_at].
Qed.

(** Diffusive velocities of vortices and heat, and the friction on a segment. *)
Theorem C118_diffusion : forall (d : vec RNum) (expf : R -> R) (tenth eight pi_ two_pi tiny10 re pr_ : R) nb walls vs v w,
  let mp := part_at d in let ma := att_at d in
  vort_velocity (K:=RNum) expf tenth eight pi_ two_pi tiny10 re nb (map ma walls) (map mp vs) (mp v) =
    vort_velocity (K:=RNum) expf tenth eight pi_ two_pi tiny10 re nb walls vs v /\
  heat_velocity (K:=RNum) expf tenth eight tiny10 pr_ re nb (map ma walls) (map mp vs) (mp v) =
    heat_velocity (K:=RNum) expf tenth eight tiny10 pr_ re nb walls vs v /\
  friction (K:=RNum) expf eight (map mp vs) (ma w) = friction (K:=RNum) expf eight vs w.
Proof. intros. split; [apply vort_velocity_at|split; [apply heat_velocity_at|apply friction_at]]. Qed.
Print Assumptions C118_tree.
Print Assumptions C118_velocity.
Print Assumptions C118_particle.
Print Assumptions C118_radii.
Print Assumptions C118_diffusion.

(** Two vortices at (0,0) and (1,0): the velocity at (3,0) is that at (8,7) with
    the vortices at (5,7) and (6,7). *)
Definition two : list (obj RNum) := [@mkObj RNum 0 0 1 0 0 1; @mkObj RNum 1 0 1 0 0 1].
Definition wind : @space RNum := mkSpace [] [] [] (@mkVec RNum 1 0) 1.
Definition pair_tree : tree RNum := Leaf (@mkNode RNum (1/2) 0 0 1) [] two [] [].

Lemma pair_built : build (K:=RNum) 100 1 20 3 [] two [] [] = Some pair_tree.
Proof.
  assert (T : forall a b : R, a < b -> Rltb a b = true) by (intros; apply Rltb_true; assumption).
  assert (F : forall a b : R, b <= a -> Rltb a b = false) by (intros; apply Rltb_false; assumption).
  assert (N : stretch (K:=RNum) 100 [] two [] [] = @mkNode RNum (1/2) 0 0 1).
  { unfold stretch, two, Tree.Model.cmax, Tree.Model.cmin. cbn [app fold_left rx ry]. change (@nltb RNum) with Rltb. unr.
    assert (Hh : @half RNum = 1 / 2) by (unfold half; unr; reflexivity). rewrite Hh.
    rewrite (T (-(100)) 0) by lra. rewrite (T 0 1), (T 0 100) by lra. rewrite (F 1 0) by lra. rewrite (F 0 0) by lra.
    f_equal; lra. }
  unfold build. rewrite N. cbn [divide]. unfold is_bottom, Tree.Model.cmax, Tree.Model.cmin. cbn [nh nw]. change (@nltb RNum) with Rltb.
  rewrite (T 0 1), (T 1 20) by lra. rewrite (F 1 0) by lra. change (@nleb RNum) with Rleb.
  replace (Rleb 0 1) with true by (symmetry; apply Rleb_true; lra). reflexivity.
Qed.

Definition pair_speed := velocity_at (K:=RNum) (fun a => a) (fun a _ => a) 1 0 1 1 8.
Example C118_ex : let d := @mkVec RNum 5 7 in
  build (K:=RNum) 100 1 20 3 [] two [] [] = Some pair_tree /\
  in_range 100 two /\ in_range 100 (map (obj_at d) two) /\
  pair_speed wind pair_tree (@mkVec RNum 3 0) = @mkVec RNum 1 (7/10) /\
  build (K:=RNum) 100 1 20 3 [] (map (obj_at d) two) [] [] = Some (tree_at d pair_tree) /\
  pair_speed (space_at d wind) (tree_at d pair_tree) (@mkVec RNum 8 7) = @mkVec RNum 1 (7/10).
Proof.
  cbv zeta.
  assert (R1 : in_range 100 two).
  { intros o [<-|[<-|[]]]; cbn [rx ry]; split; unfold Rabs; destruct (Rcase_abs _); lra. }
  assert (R2 : in_range 100 (map (obj_at (@mkVec RNum 5 7)) two)).
  { intros o [<-|[<-|[]]]; cbn [rx ry obj_at x y]; split; unfold Rabs; destruct (Rcase_abs _); lra. }
  assert (V : pair_speed wind pair_tree (@mkVec RNum 3 0) = @mkVec RNum 1 (7/10)).
  { unfold pair_speed, ModelPlace.velocity_at. cbv zeta. unfold pair_tree. cbn [find_node].
    set (u := Leaf _ _ _ _ _).
    assert (F : find_near (far (K:=RNum) 8 (node_of u)) [] u = ([[]], [])).
    { unfold u at 2. cbn [find_near node_of]. replace (far (K:=RNum) 8 _ _) with false; [reflexivity|].
      symmetry. unfold far. cbn [u node_of nx ny nh nw]. change (@nltb RNum) with Rltb. apply Rltb_false. unr. lra. }
    unfold nears, fars. rewrite F. cbn [fst snd nodes flat_map subtree u below_nodes leaves leaf_v map app length seq summary_list two].
    unfold velocity, wind. cbn [with_vortices bodies vortices sources flow dt].
    unfold near_influence, far_influence, sink_influence, body_influence. cbn [fold_left nth_error particle g rx ry vx vy Tree.Model.eps1 pg].
    assert (Z : @neqb RNum 1 (nofZ 0) = false).
    { destruct (@neqb RNum 1 (nofZ 0)) eqn:Z; [|reflexivity]. apply eqb_zero in Z. lra. }
    rewrite !Z. unfold biot_savart, vadd, vsub, vscale, rotl, abs2, vzero, particle. cbn [pr pg pe x y rx ry g vx vy Tree.Model.eps1].
    unr. f_equal; lra. }
  split; [exact pair_built|]. split; [exact R1|]. split; [exact R2|]. split; [exact V|]. split.
  - pose proof (C118_tree (@mkVec RNum 5 7) 100 1 20 3 [] two [] [] ltac:(lra) ltac:(lra) ltac:(lra) ltac:(discriminate) R1 R2) as E.
    rewrite pair_built in E. exact E.
  - replace (@mkVec RNum 8 7) with (at_ (@mkVec RNum 5 7) (@mkVec RNum 3 0)) by (unfold at_; cbn [x y]; f_equal; lra).
    etransitivity; [apply (velocity_moved (fun a => a) (fun a _ => a) 1 0 1 1 8)|exact V].
Qed.

(** In binary64 a flow far away is another one: a vortex and a point beside it
    moved by 2^60 come to lie on each other, and the speed is lost. *)
Definition f64_at (d : vec F64) (o : part F64) : part F64 := mkPart (vadd (pr o) d) (pg o) (pv o) (pe o).
Theorem C118_rounding_refuted : ~ forall (c : f64) (d p : vec F64) (o : part F64),
  near_influence (K:=F64) c [0]%nat [f64_at d o] (vadd p d) = near_influence (K:=F64) c [0]%nat [o] p.
Proof.
  intros H.
  specialize (H (f64_ofZ 1) (@mkVec F64 (f64_ofZ (2^60)) (f64_ofZ 0)) (@mkVec F64 (f64_ofZ 1) (f64_ofZ 0))
                (@mkPart F64 (@mkVec F64 (f64_ofZ 0) (f64_ofZ 0)) (f64_ofZ 1) (@mkVec F64 (f64_ofZ 0) (f64_ofZ 0)) (f64_ofZ 1))).
  apply (f_equal (fun v => @neqb F64 (y v) (f64_ofZ 0))) in H. vm_compute in H. discriminate.
Qed.
Print Assumptions C118_rounding_refuted.
