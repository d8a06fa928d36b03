(** Error of the far field against the vortices of the far nodes. *)

From Coq Require Import ZArith Bool List Lia Permutation Reals Lra Psatz.
From Verif.Base Require Import Num.
From Verif.Tree Require Import Model ModelRange Spec Proofs ProofsNum.
From Verif.Body Require Import Model Spec.
From Verif.Vortex Require Import Model Spec Proofs ProofsMerge ProofsKernel ModelFar SpecFar.
From Verif.Tree Require Import Model.
Import ListNotations.
Local Open Scope R_scope.

(** ** Boxes *)

Definition objects (t : tree RNum) : list (obj RNum) :=
  flat_map (fun u => leaf_b u ++ leaf_v u ++ leaf_h u ++ leaf_s u) (leaves t).

Definition holds (n : node RNum) (o : obj RNum) : Prop :=
  Rabs (rx o - nx n) <= nw n / 2 /\ Rabs (ry o - ny n) <= nh n / 2.

Lemma stretch_holds (big : R) b v h s : (forall o, In o (b ++ v ++ h ++ s) -> in_box big o) ->
  forall o, In o (b ++ v ++ h ++ s) -> holds (stretch (K:=RNum) big b v h s) o.
Proof.
  intros B o Ho. unfold stretch. set (l := b ++ v ++ h ++ s) in *.
  assert (N : l <> []) by (intros E; rewrite E in Ho; destruct Ho).
  assert (side : forall f : obj RNum -> R, (forall o, In o l -> Rabs (f o) <= big) ->
    fold_left (fun a o => @Tree.Model.cmin RNum a (f o)) l big <= f o <= fold_left (fun a o => @Tree.Model.cmax RNum a (f o)) l (- big)).
  { intros f H.
    destruct (@fold_max_attained RNum (fun x => x) (fun _ => True) rltb_val _ f big (-big) I eq_refl l N) as (_ & M & _); [intros; split; auto|].
    destruct (@fold_min_attained RNum (fun x => x) (fun _ => True) rltb_val _ f big big I eq_refl l N) as (_ & M' & _); [intros; split; auto|].
    cbv zeta in *. split; [apply M'|apply M]; exact Ho. }
  pose proof (side (fun o => rx o) (fun o Q => proj1 (B o Q))) as X. pose proof (side (fun o => ry o) (fun o Q => proj2 (B o Q))) as Y.
  unfold holds. cbn [nx ny nw nh]. cbv beta zeta in *.
  assert (Hh : @half RNum = 1 / 2) by (unfold half; unr; reflexivity). rewrite Hh. unr.
  change (@Num.T RNum) with R in *.
  set (mx := fold_left (fun a (o : obj RNum) => Tree.Model.cmax a (rx o)) l (- big)) in *. set (mix := fold_left (fun a (o : obj RNum) => Tree.Model.cmin a (rx o)) l big) in *.
  set (my := fold_left (fun a (o : obj RNum) => Tree.Model.cmax a (ry o)) l (- big)) in *. set (miy := fold_left (fun a (o : obj RNum) => Tree.Model.cmin a (ry o)) l big) in *.
  clearbody mx mix my miy. split; apply Rabs_le; lra.
Qed.

Definition good (t : tree RNum) : Prop :=
  forall p u, subtree t p = Some u -> forall o, In o (objects u) -> holds (node_of u) o.

Lemma divide_good (big minSize maxSize : R) fuel : forall b v h s t,
  (forall o, In o (b ++ v ++ h ++ s) -> in_box big o) ->
  divide (K:=RNum) big minSize maxSize fuel (stretch (K:=RNum) big b v h s) b v h s = Some t ->
  node_of t = stretch (K:=RNum) big b v h s /\ (forall o, In o (objects t) -> In o (b ++ v ++ h ++ s)) /\ good t.
Proof.
  induction fuel as [|k IH]; intros b v h s t B E; cbn [divide] in E;
    destruct (is_bottom _ _ (stretch (K:=RNum) big b v h s) b v h s) eqn:BOT; [| discriminate | |].
  1,2: injection E as <-; cbn [node_of]; split; [reflexivity|];
    assert (O : objects (Leaf (stretch (K:=RNum) big b v h s) b v h s) = b ++ v ++ h ++ s)
      by (unfold objects; cbn [leaves flat_map leaf_b leaf_v leaf_h leaf_s]; apply app_nil_r);
    split; [intros o Ho; rewrite O in Ho; exact Ho|];
    intros p u S o Ho; (destruct p as [|[] p]; cbn in S; [|discriminate|discriminate]); injection S as <-;
    rewrite O in Ho; cbn [node_of]; apply stretch_holds; assumption.
  set (n := stretch (K:=RNum) big b v h s) in *.
  destruct (distribute (below n) (above n) v) as [v1 v2] eqn:Ev.
  destruct (distribute (below n) (above n) h) as [h1 h2] eqn:Eh.
  destruct (distribute (below n) (above n) s) as [s1 s2] eqn:Es.
  destruct (distribute_list (below n) b) as [b1 b2] eqn:Eb.
  destruct (divide (K:=RNum) big minSize maxSize k (stretch (K:=RNum) big b1 v1 h1 s1) b1 v1 h1 s1) as [t1|] eqn:T1; [|discriminate].
  destruct (divide (K:=RNum) big minSize maxSize k (stretch (K:=RNum) big b2 v2 h2 s2) b2 v2 h2 s2) as [t2|] eqn:T2; [|discriminate].
  injection E as <-. cbn [node_of].
  apply distribute_perm in Ev. apply distribute_perm in Eh. apply distribute_perm in Es.
  unfold distribute_list in Eb.
  pose proof (distribute_list_ok (below n) b b1 b2 Eb) as (Pb & _).
  assert (I1 : forall o, In o (b1 ++ v1 ++ h1 ++ s1) -> In o (b ++ v ++ h ++ s)).
  { intros o Ho. rewrite !in_app_iff in *.
    rewrite Ev, Eh, Es, Pb, !in_app_iff. tauto. }
  assert (I2 : forall o, In o (b2 ++ v2 ++ h2 ++ s2) -> In o (b ++ v ++ h ++ s)).
  { intros o Ho. rewrite !in_app_iff in *.
    rewrite Ev, Eh, Es, Pb, !in_app_iff. tauto. }
  apply IH in T1; [|intros o Ho; apply B, I1, Ho]. apply IH in T2; [|intros o Ho; apply B, I2, Ho].
  destruct T1 as (_ & A1 & G1). destruct T2 as (_ & A2 & G2).
  assert (O : forall o, In o (objects (Split n t1 t2)) -> In o (b ++ v ++ h ++ s)).
  { intros o Ho. unfold objects in Ho. cbn [leaves] in Ho. rewrite flat_map_app in Ho. apply in_app_or in Ho.
    destruct Ho as [Ho|Ho]; [apply I1, A1, Ho|apply I2, A2, Ho]. }
  split; [reflexivity|]. split; [exact O|].
  intros p u S o Ho. destruct p as [|[] p]; cbn [subtree] in S.
  - injection S as <-. cbn [node_of]. apply stretch_holds; [exact B|apply O, Ho].
  - eapply G2; eassumption.
  - eapply G1; eassumption.
Qed.

(** ** Norms *)

Lemma norm_pos (v : p2) : 0 <= norm v.
Proof. apply sqrt_pos. Qed.
Lemma norm_sq (v : p2) : norm v * norm v = x v * x v + y v * y v.
Proof. unfold norm. apply sqrt_sqrt. apply sumsq. Qed.
Lemma norm_l1 (v : p2) a b : Rabs (x v) <= a -> Rabs (y v) <= b -> norm v <= a + b.
Proof.
  intros H1 H2. pose proof (Rabs_pos (x v)). pose proof (Rabs_pos (y v)).
  apply Rsqr_incr_0_var; [|lra]. unfold Rsqr. rewrite norm_sq.
  pose proof (Rsqr_abs (x v)) as Q1. pose proof (Rsqr_abs (y v)) as Q2. unfold Rsqr in *. rewrite Q1, Q2. nra.
Qed.
Lemma norm_opp (u v : p2) : norm (vsub u v) = norm (vsub v u).
Proof. unfold norm, vsub. cbn [x y]. unr. f_equal. eqR. ring. Qed.
Lemma norm_tri (a b c : p2) : norm (vsub a c) <= norm (vsub a b) + norm (vsub b c).
Proof.
  replace (vsub a c) with (vadd (vsub a b) (vsub b c)); [apply norm_add|].
  unfold vadd, vsub. cbn [x y]. unr. f_equal; eqR; ring.
Qed.

(** ** One node *)

Section Node.
(** [c] is the centre of the leaf, [q] that of the far node, both with half
    perimeter over two: [a] and [b]. *)
Variables (c q p : p2) (a b D : R).
Hypothesis Hp : norm (vsub p c) <= a.
Hypothesis HD : norm (vsub q c) = D.
Hypothesis L0 : 0 < D - (a + b).

Definition close (r0 : p2) : Prop := norm (vsub r0 q) <= b.

Lemma away_p r0 : close r0 -> D - (a + b) <= norm (vsub p r0).
Proof.
  intros H. unfold close in H. pose proof (norm_tri q r0 c). pose proof (norm_tri r0 p c).
  rewrite (norm_opp q r0) in *. rewrite (norm_opp r0 p) in *. lra.
Qed.
Lemma away_c r0 : close r0 -> D - (a + b) <= norm (vsub c r0).
Proof.
  intros H. unfold close in H. pose proof (norm_tri q r0 c). pose proof (norm_pos (vsub p c)).
  rewrite (norm_opp q r0) in *. rewrite (norm_opp r0 c) in *. lra.
Qed.

Lemma norm0 (v : p2) : norm (vsub v v) = 0.
Proof. unfold norm, vsub. cbn [x y]. unr. transitivity (sqrt 0); [f_equal; eqR; ring|apply sqrt_0]. Qed.
Lemma differs (u r0 : p2) : 0 < norm (vsub u r0) -> r0 <> u.
Proof. intros H ->. rewrite norm0 in H. lra. Qed.

(** A quotient with the three distances replaced by the smallest. *)
Lemma three (e d1 d2 d3 L : R) : 0 <= e -> 0 < L -> L <= d1 -> L <= d2 -> L <= d3 -> e / (d1 * d2 * d3) <= e / (L * L * L).
Proof.
  intros He HL H1 H2 H3. apply Rmult_le_compat_l; [exact He|]. apply Rinv_le_contravar.
  - repeat apply Rmult_lt_0_compat; assumption.
  - apply Rmult_le_compat; [nra|lra| |exact H3]. apply Rmult_le_compat; lra.
Qed.

(** The expansion at the centre of the leaf. *)
Lemma expansion (o : part RNum) : close (pr o) ->
  norm (vsub (point_vortex (pr o) (pg o) p) (linear o c (vsub p c))) <= Rabs (pg o) * (a * a) / ((D - (a + b)) * (D - (a + b)) * (D - (a + b))).
Proof.
  intros H. pose proof (away_p _ H) as A1. pose proof (away_c _ H) as A2.
  assert (E : p = vadd c (vsub p c)) by apply vadd_vsub.
  assert (N1 : pr o <> c) by (apply differs; lra). assert (N2 : pr o <> vadd c (vsub p c)) by (rewrite <- E; apply differs; lra).
  pose proof (linear_error o c (vsub p c) N1 N2) as Q. rewrite <- E in Q. rewrite Q.
  pose proof (norm_pos (vsub p c)). pose proof (Rabs_pos (pg o)).
  eapply Rle_trans; [apply (three _ _ _ _ (D - (a + b)))|].
  - apply Rmult_le_pos; [apply Rabs_pos|nra].
  - exact L0.
  - exact A2.
  - exact A2.
  - exact A1.
  - apply Rmult_le_compat_r; [apply Rlt_le, Rinv_0_lt_compat; repeat apply Rmult_lt_0_compat; exact L0|].
    apply Rmult_le_compat_l; [apply Rabs_pos|]. apply Rmult_le_compat; lra.
Qed.

(** Moving a vortex from its place to [m]: the same as moving the point. *)
Definition shifted (m : p2) (o : part RNum) : part RNum := @mkPart RNum m (pg o) (pv o) (pe o).
Lemma shift_point (m : p2) (o : part RNum) :
  point_vortex (pr o) (pg o) p = point_vortex m (pg o) (vadd p (vsub m (pr o))).
Proof.
  destruct o as [[ox oy] g0 v0 e0]. destruct m as [m1 m2]. destruct p as [p1 p2']. unfold point_vortex, vadd, vsub. cbn [x y pr pg]. unr. cbv zeta.
  replace (p1 + (m1 - ox) - m1) with (p1 - ox) by (eqR; ring). replace (p2' + (m2 - oy) - m2) with (p2' - oy) by (eqR; ring). reflexivity.
Qed.
Lemma shift_error (m : p2) (o : part RNum) : close m -> close (pr o) ->
  norm (vsub (point_vortex (pr o) (pg o) p) (linear (shifted m o) p (vsub m (pr o)))) <=
  Rabs (pg o) * (norm (vsub m (pr o)) * norm (vsub m (pr o))) / ((D - (a + b)) * (D - (a + b)) * (D - (a + b))).
Proof.
  intros Hm Ho. pose proof (away_p _ Hm) as A1. pose proof (away_p _ Ho) as A2.
  rewrite (shift_point m o).
  assert (F : norm (vsub (vadd p (vsub m (pr o))) m) = norm (vsub p (pr o))).
  { f_equal. unfold vadd, vsub. cbn [x y]. unr. f_equal; eqR; ring. }
  assert (N1 : pr (shifted m o) <> p) by (apply differs; cbn [pr shifted]; lra).
  assert (N2 : pr (shifted m o) <> vadd p (vsub m (pr o))) by (apply differs; cbn [pr shifted]; rewrite F; lra).
  pose proof (linear_error (shifted m o) p (vsub m (pr o)) N1 N2) as Q. cbn [pr pg shifted] in Q. rewrite Q. unfold dist_to. cbn [pr shifted]. rewrite F.
  apply three; try lra. apply Rmult_le_pos; [apply Rabs_pos|]. pose proof (norm_pos (vsub m (pr o))). nra.
Qed.

(** *** The first moment about the summary vanishes *)

Variable l : list (part RNum).
Variable m : part RNum.
Hypothesis Hl : forall o, In o l -> close (pr o).
Hypothesis G0 : pg m = total (fun o : part RNum => pg o) l.
Hypothesis G1 : x (pr m) * pg m = total (fun o : part RNum => x (pr o) * pg o) l.
Hypothesis G2 : y (pr m) * pg m = total (fun o : part RNum => y (pr o) * pg o) l.
Hypothesis sgn : (forall o : part RNum, In o l -> 0 <= pg o) \/ (forall o : part RNum, In o l -> pg o <= 0).

Lemma total_split {A} (f g h : A -> R) k1 k2 l' : (forall o, In o l' -> f o = k1 * g o + k2 * h o) -> total f l' = k1 * total g l' + k2 * total h l'.
Proof. intros H. rewrite (total_ext' _ _ _ H), total_add', !total_scal'. reflexivity. Qed.

Lemma moment_x0 : total (fun o : part RNum => pg o * x (vsub (pr m) (pr o))) l = 0.
Proof.
  rewrite (total_split _ (fun o : part RNum => pg o) (fun o : part RNum => x (pr o) * pg o) (x (pr m)) (-1)).
  - rewrite <- G0, <- G1. change (Num.T RNum) with R in *. lra.
  - intros o _. unfold vsub. cbn [x]. unr. ring.
Qed.
Lemma moment_y0 : total (fun o : part RNum => pg o * y (vsub (pr m) (pr o))) l = 0.
Proof.
  rewrite (total_split _ (fun o : part RNum => pg o) (fun o : part RNum => y (pr o) * pg o) (y (pr m)) (-1)).
  - rewrite <- G0, <- G2. change (Num.T RNum) with R in *. lra.
  - intros o _. unfold vsub. cbn [y]. unr. ring.
Qed.

Lemma abs_total : Rabs (pg m) = total (fun o : part RNum => Rabs (pg o)) l.
Proof.
  rewrite G0. destruct sgn as [S|S].
  - rewrite (total_ext' (fun o : part RNum => Rabs (pg o)) (fun o : part RNum => pg o)) by (intros o Ho; apply Rabs_right, Rle_ge, S, Ho).
    apply Rabs_right. apply Rle_ge. rewrite <- (total_const0 l). apply total_le. exact S.
  - rewrite (total_ext' (fun o : part RNum => Rabs (pg o)) (fun o : part RNum => - pg o)) by (intros o Ho; apply Rabs_left1, S, Ho).
    rewrite total_opp. apply Rabs_left1. rewrite <- (total_const0 l). apply total_le. exact S.
Qed.

(** Spread about the summary is no larger than about the centre of the box. *)
Lemma spread : total (fun o : part RNum => Rabs (pg o) * (norm (vsub (pr m) (pr o)) * norm (vsub (pr m) (pr o)))) l <= Rabs (pg m) * (b * b).
Proof.
  assert (E : exists s, (s = 1 \/ s = -1) /\ (forall o : part RNum, In o l -> Rabs (pg o) = s * pg o)).
  { destruct sgn as [S|S]; [exists 1|exists (-1)]; (split; [tauto|]); intros o Ho.
    - rewrite Rabs_right by (apply Rle_ge, S, Ho). change (Num.T RNum) with R in *. lra.
    - rewrite Rabs_left1 by (apply S, Ho). change (Num.T RNum) with R in *. lra. }
  destruct E as (s & Hs & E).
  rewrite abs_total.
  assert (V : total (fun o : part RNum => Rabs (pg o) * (norm (vsub (pr m) (pr o)) * norm (vsub (pr m) (pr o)))) l =
              total (fun o : part RNum => Rabs (pg o) * (norm (vsub (pr o) q) * norm (vsub (pr o) q))) l
              - total (fun o : part RNum => Rabs (pg o)) l * (norm (vsub (pr m) q) * norm (vsub (pr m) q))).
  { rewrite norm_sq.
    transitivity (total (fun o : part RNum => Rabs (pg o) * (norm (vsub (pr o) q) * norm (vsub (pr o) q))
       + ((- (x (vsub (pr m) q) * x (vsub (pr m) q) + y (vsub (pr m) q) * y (vsub (pr m) q))) * Rabs (pg o)
       + (2 * s * x (vsub (pr m) q)) * (pg o * x (vsub (pr m) (pr o)))
       + (2 * s * y (vsub (pr m) q)) * (pg o * y (vsub (pr m) (pr o))))) l).
    - apply total_ext'. intros o Ho. rewrite !norm_sq. rewrite (E o Ho). unfold vsub. cbn [x y]. unr. eqR. ring.
    - rewrite !total_add', !total_scal', moment_x0, moment_y0. ring. }
  rewrite V.
  assert (U : total (fun o : part RNum => Rabs (pg o) * (norm (vsub (pr o) q) * norm (vsub (pr o) q))) l <= total (fun o : part RNum => Rabs (pg o)) l * (b * b)).
  { rewrite <- (Rmult_comm (b * b)), <- total_scal'. apply total_le. intros o Ho. rewrite (Rmult_comm (b * b)).
    apply Rmult_le_compat_l; [apply Rabs_pos|]. pose proof (Hl o Ho) as C. unfold close in C. pose proof (norm_pos (vsub (pr o) q)). apply Rmult_le_compat; lra. }
  pose proof abs_total as T. pose proof (Rabs_pos (pg m)). rewrite T in *. pose proof (norm_pos (vsub (pr m) q)).
  set (W := total (fun o : part RNum => Rabs (pg o)) l) in *. assert (0 <= W * (norm (vsub (pr m) q) * norm (vsub (pr m) q))) by (apply Rmult_le_pos; [lra|nra]). lra.
Qed.

(** The summary is in the box: its distance is bounded by that of the vortices. *)
Lemma summary_close : pg m <> 0 -> close (pr m).
Proof.
  intros NZ. unfold close.
  pose proof spread as S. rewrite abs_total in S.
  (* spread = sum about q - |G| |m-q|^2, so |G||m-q|^2 <= |G| b^2 *)
  assert (E : exists s, (s = 1 \/ s = -1) /\ (forall o : part RNum, In o l -> Rabs (pg o) = s * pg o)).
  { destruct sgn as [S'|S']; [exists 1|exists (-1)]; (split; [tauto|]); intros o Ho.
    - rewrite Rabs_right by (apply Rle_ge, S', Ho). change (Num.T RNum) with R in *. lra.
    - rewrite Rabs_left1 by (apply S', Ho). change (Num.T RNum) with R in *. lra. }
  destruct E as (s & Hs & E).
  assert (b0 : 0 <= b).
  { destruct l as [|o l'] eqn:El; [unfold total in G0; cbn in G0; contradiction|]. pose proof (Hl o (or_introl eq_refl)) as C. unfold close in C.
    pose proof (norm_pos (vsub (pr o) q)). lra. }
  assert (V : 0 <= total (fun o : part RNum => Rabs (pg o) * (norm (vsub (pr m) (pr o)) * norm (vsub (pr m) (pr o)))) l).
  { rewrite <- (total_const0 l). apply total_le. intros o _. apply Rmult_le_pos; [apply Rabs_pos|]. pose proof (norm_pos (vsub (pr m) (pr o))). nra. }
  assert (W : total (fun o : part RNum => Rabs (pg o) * (norm (vsub (pr m) (pr o)) * norm (vsub (pr m) (pr o)))) l =
              total (fun o : part RNum => Rabs (pg o) * (norm (vsub (pr o) q) * norm (vsub (pr o) q))) l
              - total (fun o : part RNum => Rabs (pg o)) l * (norm (vsub (pr m) q) * norm (vsub (pr m) q))).
  { rewrite norm_sq.
    transitivity (total (fun o : part RNum => Rabs (pg o) * (norm (vsub (pr o) q) * norm (vsub (pr o) q))
       + ((- (x (vsub (pr m) q) * x (vsub (pr m) q) + y (vsub (pr m) q) * y (vsub (pr m) q))) * Rabs (pg o)
       + (2 * s * x (vsub (pr m) q)) * (pg o * x (vsub (pr m) (pr o)))
       + (2 * s * y (vsub (pr m) q)) * (pg o * y (vsub (pr m) (pr o))))) l).
    - apply total_ext'. intros o Ho. rewrite !norm_sq. rewrite (E o Ho). unfold vsub. cbn [x y]. unr. eqR. ring.
    - rewrite !total_add', !total_scal', moment_x0, moment_y0. ring. }
  assert (U : total (fun o : part RNum => Rabs (pg o) * (norm (vsub (pr o) q) * norm (vsub (pr o) q))) l <= total (fun o : part RNum => Rabs (pg o)) l * (b * b)).
  { rewrite <- (Rmult_comm (b * b)), <- total_scal'. apply total_le. intros o Ho. rewrite (Rmult_comm (b * b)).
    apply Rmult_le_compat_l; [apply Rabs_pos|]. pose proof (Hl o Ho) as C. unfold close in C. pose proof (norm_pos (vsub (pr o) q)). apply Rmult_le_compat; lra. }
  rewrite <- abs_total in *. assert (P0 : 0 < Rabs (pg m)) by (apply Rabs_pos_lt, NZ).
  assert (Q : norm (vsub (pr m) q) * norm (vsub (pr m) q) <= b * b) by (apply Rmult_le_reg_l with (Rabs (pg m)); lra).
  apply Rsqr_incr_0_var; [exact Q|exact b0].
Qed.

Lemma vsum_linear : vsum (map (fun o => linear (shifted (pr m) o) p (vsub (pr m) (pr o))) l) = point_vortex (pr m) (pg m) p.
Proof.
  unfold vsum, point_vortex. cbv zeta.
  set (X := x p - x (pr m)). set (Y := y p - y (pr m)). set (qq := X * X + Y * Y).
  assert (M : forall (F : p2 -> R), total F (map (fun o => linear (shifted (pr m) o) p (vsub (pr m) (pr o))) l) = total (fun o => F (linear (shifted (pr m) o) p (vsub (pr m) (pr o)))) l).
  { intros F. clear. induction l as [|o l' IH]; [reflexivity|]. unfold total in *. cbn [map fold_right]. rewrite IH. reflexivity. }
  f_equal; eqR; rewrite M.
  - transitivity (total (fun o : part RNum => (- Y / qq) * pg o + (2 * Y * X / (qq * qq)) * (pg o * x (vsub (pr m) (pr o))) + ((Y * Y - X * X) / (qq * qq)) * (pg o * y (vsub (pr m) (pr o)))) l).
    + apply total_ext'. intros o _. unfold linear, shifted. cbn [x y pr pg]. cbv zeta. fold X Y. fold qq. unfold Rdiv. eqR. ring.
    + rewrite !total_add', !total_scal', moment_x0, moment_y0. change (total (@pg RNum) l) with (total (fun o : part RNum => pg o) l). rewrite <- G0. unfold Rdiv. eqR. ring.
  - transitivity (total (fun o : part RNum => (X / qq) * pg o + ((Y * Y - X * X) / (qq * qq)) * (pg o * x (vsub (pr m) (pr o))) + (- 2 * Y * X / (qq * qq)) * (pg o * y (vsub (pr m) (pr o)))) l).
    + apply total_ext'. intros o _. unfold linear, shifted. cbn [x y pr pg]. cbv zeta. fold X Y. fold qq. unfold Rdiv. eqR. ring.
    + rewrite !total_add', !total_scal', moment_x0, moment_y0. change (total (@pg RNum) l) with (total (fun o : part RNum => pg o) l). rewrite <- G0. unfold Rdiv. eqR. ring.
Qed.

Lemma vsum_sub {A} (f g : A -> p2) (k : list A) : vsub (vsum (map f k)) (vsum (map g k)) = vsum (map (fun o => vsub (f o) (g o)) k).
Proof.
  unfold vsub at 1, vsum. cbn [x y]. unr. f_equal; eqR.
  - induction k as [|o k IH]; [unfold total; cbn; lra|]. unfold total in *. cbn [map fold_right x y vsub] in *. unr. change (Num.T RNum) with R in *. lra.
  - induction k as [|o k IH]; [unfold total; cbn; lra|]. unfold total in *. cbn [map fold_right x y vsub] in *. unr. change (Num.T RNum) with R in *. lra.
Qed.
Lemma total_map {A B} (f : B -> R) (h : A -> B) k : total f (map h k) = total (fun o => f (h o)) k.
Proof. induction k as [|o k IH]; [reflexivity|]. unfold total in *. cbn [map fold_right]. rewrite IH. reflexivity. Qed.

Definition exact_sum : p2 := vsum (map (fun o => point_vortex (pr o) (pg o) p) l).

Lemma summary_error : pg m <> 0 ->
  norm (vsub exact_sum (point_vortex (pr m) (pg m) p)) <= Rabs (pg m) * (b * b) / ((D - (a + b)) * (D - (a + b)) * (D - (a + b))).
Proof.
  intros NZ. pose proof (summary_close NZ) as C. rewrite <- vsum_linear. unfold exact_sum. rewrite vsum_sub.
  eapply Rle_trans; [apply norm_sum|]. rewrite total_map.
  apply Rle_trans with (total (fun o : part RNum => / ((D - (a + b)) * (D - (a + b)) * (D - (a + b))) * (Rabs (pg o) * (norm (vsub (pr m) (pr o)) * norm (vsub (pr m) (pr o))))) l).
  - apply total_le. intros o Ho. eapply Rle_trans; [apply shift_error; [exact C|apply Hl, Ho]|]. unfold Rdiv. lra.
  - rewrite total_scal'. unfold Rdiv. rewrite Rmult_comm. apply Rmult_le_compat_r; [|apply spread].
    apply Rlt_le, Rinv_0_lt_compat. repeat apply Rmult_lt_0_compat; exact L0.
Qed.

(** All of them weightless. *)
Lemma weightless : pg m = 0 -> (forall o : part RNum, In o l -> pg o = 0) .
Proof.
  intros Z o Ho. pose proof abs_total as T. rewrite Z, Rabs_R0 in T.
  assert (N : forall k : list (part RNum), total (fun o : part RNum => Rabs (pg o)) k = 0 -> forall o, In o k -> pg o = 0).
  { clear. induction k as [|o' k IH]; intros T o []; unfold total in *; cbn [fold_right] in T.
    - subst. assert (P : 0 <= total (fun o : part RNum => Rabs (pg o)) k) by (rewrite <- (total_const0 k); apply total_le; intros; apply Rabs_pos).
      unfold total in P. pose proof (Rabs_pos (pg o)) as Q. destruct (Req_dec (pg o) 0) as [E|E]; [exact E|]. apply Rabs_pos_lt in E. change (Num.T RNum) with R in *. lra.
    - apply IH; [|assumption]. assert (P : 0 <= total (fun o : part RNum => Rabs (pg o)) k) by (rewrite <- (total_const0 k); apply total_le; intros; apply Rabs_pos).
      unfold total in P. pose proof (Rabs_pos (pg o')). change (Num.T RNum) with R in *. lra. }
  apply (N l); [symmetry; exact T|exact Ho].
Qed.

Lemma zero_vec : norm (@mkVec RNum 0 0) = 0.
Proof. unfold norm. cbn [x y]. replace (0 * 0 + 0 * 0) with 0 by ring. apply sqrt_0. Qed.

Lemma sum_weightless : pg m = 0 -> exact_sum = @mkVec RNum 0 0.
Proof.
  intros Z. pose proof (weightless Z) as W. unfold exact_sum, vsum. rewrite !total_map.
  f_equal; eqR; (rewrite (total_ext' _ (fun _ => 0)); [apply total_const0|]); intros o Ho; unfold point_vortex; cbn [x y]; cbv zeta; rewrite (W o Ho); unfold Rdiv; eqR; ring.
Qed.

(** Both steps of the code, and the first alone. *)
Lemma node_error :
  norm (vsub exact_sum (linear m c (vsub p c))) <= Rabs (pg m) * (a * a + b * b) / ((D - (a + b)) * (D - (a + b)) * (D - (a + b))).
Proof.
  destruct (Req_dec (pg m) 0) as [Z|NZ].
  - rewrite (sum_weightless Z). unfold linear. rewrite Z. cbv zeta.
    match goal with |- norm ?v <= _ => replace v with (@mkVec RNum 0 0) by (unfold vsub; cbn [x y]; unr; unfold Rdiv; f_equal; eqR; ring) end.
    rewrite zero_vec, Rabs_R0. unfold Rdiv. rewrite !Rmult_0_l. apply Rle_refl.
  - eapply Rle_trans; [apply (norm_tri _ (point_vortex (pr m) (pg m) p))|].
    pose proof (summary_error NZ). pose proof (expansion m (summary_close NZ)). unfold Rdiv in *. lra.
Qed.
Lemma node_error_at :
  norm (vsub exact_sum (point_vortex (pr m) (pg m) p)) <= Rabs (pg m) * (b * b) / ((D - (a + b)) * (D - (a + b)) * (D - (a + b))).
Proof.
  destruct (Req_dec (pg m) 0) as [Z|NZ]; [|apply summary_error, NZ].
  rewrite (sum_weightless Z). unfold point_vortex. rewrite Z. cbv zeta.
  match goal with |- norm ?v <= _ => replace v with (@mkVec RNum 0 0) by (unfold vsub; cbn [x y]; unr; unfold Rdiv; f_equal; eqR; ring) end.
  rewrite zero_vec, Rabs_R0. unfold Rdiv. rewrite !Rmult_0_l. apply Rle_refl.
Qed.
End Node.

(** ** The vortices of one node of the tree *)

Notation vortices := Tree.Spec.vortices.

Lemma vsum_app k1 k2 : vsum (k1 ++ k2) = vadd (vsum k1) (vsum k2).
Proof.
  unfold vsum, vadd. cbn [x y]. unr. f_equal; eqR;
  (induction k1 as [|v k1 IH]; unfold total in *; cbn [app fold_right]; [lra|rewrite IH; lra]).
Qed.
Lemma total_app' {A} (f : A -> R) k1 k2 : total f (k1 ++ k2) = total f k1 + total f k2.
Proof. induction k1 as [|v k1 IH]; unfold total in *; cbn [app fold_right]; [lra|rewrite IH; lra]. Qed.

Lemma total_filter {A} (t : A -> bool) (f : A -> R) k :
  total f k = total f (filter t k) + total f (filter (fun o => negb (t o)) k).
Proof. induction k as [|o k IH]; unfold total in *; cbn [filter fold_right]; [lra|]. destruct (t o); cbn [negb fold_right]; rewrite IH; lra. Qed.

Lemma sumR_total (f : obj RNum -> R) k : sumR f k = total f k.
Proof. reflexivity. Qed.

Definition pv_at (p : p2) (o : part RNum) : p2 := point_vortex (pr o) (pg o) p.

Lemma exact_split p (k : list (obj RNum)) :
  vsum (map (pv_at p) (map particle k)) = vadd (exact_sum p (map particle (plus k))) (exact_sum p (map particle (minus k))).
Proof.
  unfold exact_sum, vsum, vadd. cbn [x y]. unr. rewrite !total_map. f_equal; eqR;
  (rewrite (total_filter positive); unfold plus, minus; reflexivity).
Qed.

Lemma linear_zero (o : part RNum) c d : pg o = 0 -> linear o c d = @mkVec RNum 0 0.
Proof. intros Z. unfold linear. rewrite Z. cbv zeta. unfold Rdiv. f_equal; eqR; ring. Qed.
Lemma point_zero (o : part RNum) p : pg o = 0 -> pv_at p o = @mkVec RNum 0 0.
Proof. intros Z. unfold pv_at, point_vortex. rewrite Z. cbv zeta. unfold Rdiv. f_equal; eqR; ring. Qed.

Section TreeNode.
Variables (inf k : R) (n : node RNum) (u : tree RNum) (p : p2).
Hypothesis k1 : 1 <= k.
Hypothesis boxed : forall o, In o (vortices u) -> holds (node_of u) o.
Hypothesis ins : inside n p.
Hypothesis isfar : far (K:=RNum) k n (node_of u) = true.

Let mp := summed (K:=RNum) inf (fst (masses u)).
Let mm := summed (K:=RNum) inf (snd (masses u)).
Definition all_here : p2 := vsum (map (pv_at p) (map particle (vortices u))).
Definition weight : R := strength (map particle (vortices u)).
Definition reach : R := gap n (node_of u) - sizes n (node_of u) / 2.

Lemma far_gap : k * (sizes n (node_of u) * sizes n (node_of u)) < gap n (node_of u) * gap n (node_of u).
Proof.
  unfold far in isfar. apply Rltb_true in isfar. unr. unfold gap, sizes.
  rewrite sqrt_sqrt by apply sumsq.
  eapply Rle_lt_trans; [|eapply Rlt_le_trans; [exact isfar|]]; right; eqR; ring.
Qed.

Lemma weight_split : weight = Rabs (pg mp) + Rabs (pg mm) /\ (vortices u = [] -> pg mp = 0 /\ pg mm = 0) /\
  (vortices u <> [] -> 0 < reach /\ forall (q := @mkVec RNum (nx (node_of u)) (ny (node_of u))) (c := @mkVec RNum (nx n) (ny n)),
     norm (vsub p c) <= (nh n + nw n) / 2 /\ norm (vsub q c) = gap n (node_of u) /\
     (forall o, In o (map particle (vortices u)) -> close q ((nh (node_of u) + nw (node_of u)) / 2) (pr o)) /\
     sizes n (node_of u) = 2 * ((nh n + nw n) / 2 + (nh (node_of u) + nw (node_of u)) / 2)).
Proof.
  destruct (masses_ok u) as [(P1 & _ & _) (M1 & _ & _)].
  assert (A1 : Rabs (pg mp) = total (fun o : obj RNum => Rabs (g o)) (plus (vortices u))).
  { unfold mp, summed. cbn [pg]. rewrite P1. pose proof (plus_nonneg (vortices u)) as N. rewrite Rabs_right by (apply Rle_ge, N). rewrite sumR_total.
    apply total_ext'. intros o Ho. unfold plus in Ho. apply filter_In in Ho. destruct Ho as [_ Ho]. unfold positive in Ho. apply Rltb_true in Ho. symmetry. apply Rabs_right. change (Num.T RNum) with R in *. lra. }
  assert (A2 : Rabs (pg mm) = total (fun o : obj RNum => Rabs (g o)) (minus (vortices u))).
  { unfold mm, summed. cbn [pg]. rewrite M1. pose proof (minus_nonpos (vortices u)) as N. rewrite Rabs_left1 by exact N. rewrite sumR_total, <- total_opp.
    apply total_ext'. intros o Ho. unfold minus in Ho. apply filter_In in Ho. destruct Ho as [_ Ho]. unfold positive in Ho. apply negb_true_iff, Rltb_false in Ho. symmetry. apply Rabs_left1. change (Num.T RNum) with R in *. lra. }
  split; [|split].
  - unfold weight, strength. rewrite total_map. cbn [particle pg]. rewrite A1, A2. apply (total_filter positive).
  - intros E. unfold mp, mm, summed. cbn [pg]. rewrite P1, M1. fold (vortices u). rewrite E. split; reflexivity.
  - intros E. destruct (vortices u) as [|o0 rest] eqn:Ev; [congruence|]. rewrite <- Ev in *.
    assert (I0 : In o0 (vortices u)) by (rewrite Ev; left; reflexivity).
    destruct (boxed o0 I0) as [B1 B2]. destruct ins as [B3 B4].
    pose proof (Rabs_pos (rx o0 - nx (node_of u))) as R1. pose proof (Rabs_pos (ry o0 - ny (node_of u))) as R2.
    pose proof (Rabs_pos (x p - nx n)) as R3. pose proof (Rabs_pos (y p - ny n)) as R4.
    pose proof far_gap as FG. pose proof (sqrt_pos ((nx n - nx (node_of u)) * (nx n - nx (node_of u)) + (ny n - ny (node_of u)) * (ny n - ny (node_of u)))) as GP. fold (gap n (node_of u)) in GP.
    assert (S0 : 0 <= sizes n (node_of u)) by (unfold sizes; change (Num.T RNum) with R in *; lra).
    split.
    + unfold reach. set (S := sizes n (node_of u)) in *. set (G := gap n (node_of u)) in *. clearbody S G.
      assert (S * S <= k * (S * S)) by nra. nra.
    + cbv zeta. split; [|split; [|split]].
      * replace ((nh n + nw n) / 2) with (nw n / 2 + nh n / 2) by lra. apply norm_l1; assumption.
      * unfold norm, gap, vsub. cbn [x y]. unr. f_equal. eqR. ring.
      * intros o Ho. apply in_map_iff in Ho. destruct Ho as (o' & <- & Ho). destruct (boxed o' Ho) as [C1 C2]. unfold close.
        replace ((nh (node_of u) + nw (node_of u)) / 2) with (nw (node_of u) / 2 + nh (node_of u) / 2) by lra. apply norm_l1; assumption.
      * unfold sizes. change (Num.T RNum) with R in *. lra.
Qed.

Lemma cube_pos : vortices u <> [] -> 0 < reach * reach * reach.
Proof. intros H. destruct weight_split as (_ & _ & S). destruct (S H) as [L _]. repeat apply Rmult_lt_0_compat; exact L. Qed.

Lemma parts_ok (sel : list (obj RNum) -> list (obj RNum)) (mu : mass RNum) :
  sel = plus \/ sel = minus -> summary (sel (vortices u)) mu ->
  let l := map particle (sel (vortices u)) in let m := summed (K:=RNum) inf mu in
  pg m = total (fun o : part RNum => pg o) l /\
  x (pr m) * pg m = total (fun o : part RNum => x (pr o) * pg o) l /\
  y (pr m) * pg m = total (fun o : part RNum => y (pr o) * pg o) l /\
  ((forall o : part RNum, In o l -> 0 <= pg o) \/ (forall o : part RNum, In o l -> pg o <= 0)) /\
  (forall o, In o l -> In o (map particle (vortices u))).
Proof.
  intros Hs (S1 & S2 & S3). cbv zeta. rewrite !total_map. cbn [summed particle pr pg x y].
  split; [exact S1|]. split; [exact S2|]. split; [exact S3|]. split.
  - destruct Hs as [-> | ->]; [left|right]; intros o Ho; apply in_map_iff in Ho; destruct Ho as (o' & <- & Ho); apply filter_In in Ho; destruct Ho as [_ Ho]; cbn [particle pg].
    + unfold positive in Ho. apply Rltb_true in Ho. change (Num.T RNum) with R in *. lra.
    + unfold positive in Ho. apply negb_true_iff, Rltb_false in Ho. change (Num.T RNum) with R in *. lra.
  - intros o Ho. apply in_map_iff in Ho. destruct Ho as (o' & <- & Ho). apply in_map.
    destruct Hs as [-> | ->]; apply filter_In in Ho; apply Ho.
Qed.

(** A node in the sums of [process_all_lists], and in those of [velocity]. *)
Lemma tree_node_error :
  norm (vsub all_here (vadd (linear mp (centre_of n) (vsub p (centre_of n))) (linear mm (centre_of n) (vsub p (centre_of n)))))
    <= weight * (sizes n (node_of u) * sizes n (node_of u) / 4 / (reach * reach * reach)) /\
  norm (vsub all_here (vadd (pv_at p mp) (pv_at p mm)))
    <= weight * (sizes n (node_of u) * sizes n (node_of u) / 4 / (reach * reach * reach)).
Proof.
  destruct weight_split as (W & W0 & W1).
  assert (D : vortices u = [] \/ vortices u <> []) by (destruct (vortices u); [left; reflexivity|right; discriminate]).
  destruct D as [E|E].
  - destruct (W0 E) as [Z1 Z2]. rewrite !linear_zero, !point_zero by assumption. rewrite W, Z1, Z2, Rabs_R0.
    unfold all_here. rewrite E. cbn [map].
    replace (vsub (vsum []) _) with (@mkVec RNum 0 0) by (unfold vsum, vsub, vadd, total; cbn [fold_right x y]; unr; f_equal; eqR; ring).
    rewrite zero_vec. rewrite Rplus_0_l, Rmult_0_l. split; apply Rle_refl.
  - destruct (W1 E) as (L0 & H). pose proof (cube_pos E) as C0. cbv zeta in H. destruct H as (Hp & HD & Hl & HS).
    set (c := @mkVec RNum (nx n) (ny n)) in *. set (q := @mkVec RNum (nx (node_of u)) (ny (node_of u))) in *.
    change (centre_of n) with c.
    set (a := (nh n + nw n) / 2) in *. set (b := (nh (node_of u) + nw (node_of u)) / 2) in *.
    assert (EL : reach = gap n (node_of u) - (a + b)) by (unfold reach; rewrite HS; lra).
    set (Dd := gap n (node_of u)) in *.
    rewrite EL in L0.
    destruct (masses_ok u) as [SP SM].
    destruct (parts_ok plus (fst (masses u)) (or_introl eq_refl) SP) as (P0 & P1 & P2 & PS & PI).
    destruct (parts_ok minus (snd (masses u)) (or_intror eq_refl) SM) as (M0 & M1 & M2 & MS & MI).
    cbv zeta in *. fold mp in P0, P1, P2. fold mm in M0, M1, M2.
    pose proof (node_error c q p a b Dd Hp HD L0 (map particle (plus (vortices u))) mp (fun o Ho => Hl o (PI o Ho)) P0 P1 P2 PS) as E1.
    pose proof (node_error c q p a b Dd Hp HD L0 (map particle (minus (vortices u))) mm (fun o Ho => Hl o (MI o Ho)) M0 M1 M2 MS) as E2.
    pose proof (node_error_at c q p a b Dd Hp HD L0 (map particle (plus (vortices u))) mp (fun o Ho => Hl o (PI o Ho)) P0 P1 P2 PS) as E3.
    pose proof (node_error_at c q p a b Dd Hp HD L0 (map particle (minus (vortices u))) mm (fun o Ho => Hl o (MI o Ho)) M0 M1 M2 MS) as E4.
    assert (a0 : 0 <= a) by (pose proof (norm_pos (vsub p c)); lra).
    assert (b0 : 0 <= b).
    { destruct (vortices u) as [|o0 rest]; [congruence|]. pose proof (Hl (particle o0) (or_introl eq_refl)) as Cl. unfold close in Cl. pose proof (norm_pos (vsub (pr (particle o0)) q)). lra. }
    rewrite <- EL in *.
    assert (B : forall e e', 0 <= e' -> e' <= sizes n (node_of u) * sizes n (node_of u) / 4 ->
              Rabs e * e' / (reach * reach * reach) <= Rabs e * (sizes n (node_of u) * sizes n (node_of u) / 4 / (reach * reach * reach))).
    { intros e e' _ H. unfold Rdiv. rewrite Rmult_assoc. apply Rmult_le_compat_l; [apply Rabs_pos|].
      apply Rmult_le_compat_r; [apply Rlt_le, Rinv_0_lt_compat, C0|exact H]. }
    assert (H1 : a * a + b * b <= sizes n (node_of u) * sizes n (node_of u) / 4) by (rewrite HS; nra).
    assert (H2 : b * b <= sizes n (node_of u) * sizes n (node_of u) / 4) by (rewrite HS; nra).
    assert (Q1 : 0 <= a * a + b * b) by nra. assert (Q2 : 0 <= b * b) by nra.
    rewrite W, Rmult_plus_distr_r.
    assert (T : forall v1 v2 w1 w2 : p2, norm (vsub (vadd v1 v2) (vadd w1 w2)) <= norm (vsub v1 w1) + norm (vsub v2 w2)).
    { intros v1 v2 w1 w2. replace (vsub (vadd v1 v2) (vadd w1 w2)) with (vadd (vsub v1 w1) (vsub v2 w2)); [apply norm_add|].
      unfold vadd, vsub. cbn [x y]. unr. f_equal; eqR; ring. }
    unfold all_here. rewrite exact_split. split; (eapply Rle_trans; [apply T|]); apply Rplus_le_compat.
    + eapply Rle_trans; [exact E1|]. apply B; assumption.
    + eapply Rle_trans; [exact E2|]. apply B; assumption.
    + eapply Rle_trans; [exact E3|]. apply B; assumption.
    + eapply Rle_trans; [exact E4|]. apply B; assumption.
Qed.
End TreeNode.

(** ** All far nodes *)

Definition node_bound (n : node RNum) (u : tree RNum) : R :=
  weight u * (sizes n (node_of u) * sizes n (node_of u) / 4 / (reach n u * reach n u * reach n u)).

Section FarNodes.
Variables (inf k : R) (n : node RNum) (p : p2) (us : list (tree RNum)).
Hypothesis k1 : 1 <= k.
Hypothesis boxed : forall u, In u us -> forall o, In o (vortices u) -> holds (node_of u) o.
Hypothesis ins : inside n p.
Hypothesis isfar : forall u, In u us -> far (K:=RNum) k n (node_of u) = true.

Definition scaled (v : p2) : p2 := @mkVec RNum (/ (2 * PI) * x v) (/ (2 * PI) * y v).

Lemma induced_sum (l : list (part RNum)) : induced l p = scaled (vsum (map (pv_at p) l)).
Proof.
  unfold induced, scaled, vsum. cbn [x y]. rewrite !total_map. unfold pv_at, point_vortex. cbn [x y]. cbv zeta.
  unfold Rdiv. f_equal; eqR; apply Rmult_comm.
Qed.

Lemma below_sum : vsum (map (pv_at p) (below_nodes us)) = vsum (map (fun u => all_here u p) us).
Proof.
  unfold below_nodes. clear boxed isfar. induction us as [|u l IH]; [reflexivity|]. cbn [flat_map map].
  rewrite !map_app, vsum_app, IH. reflexivity.
Qed.

Lemma pairs_sum (f : part RNum -> p2) : vsum (map f (summary_list (K:=RNum) inf us)) =
  vsum (map (fun u => vadd (f (summed (K:=RNum) inf (fst (masses u)))) (f (summed (K:=RNum) inf (snd (masses u))))) us).
Proof.
  unfold summary_list. clear boxed isfar. induction us as [|u l IH]; [reflexivity|]. cbn [flat_map map app].
  unfold vsum, total in *. cbn [fold_right x y vadd] in *. unr.
  apply (f_equal (fun v : p2 => x v)) in IH as I1. apply (f_equal (fun v : p2 => y v)) in IH as I2. cbn [x y] in I1, I2.
  f_equal; eqR; change (Num.T RNum) with R in *; lra.
Qed.

Lemma summaries_masses : ProofsKernel.masses (summaries (K:=RNum) inf us) = summary_list (K:=RNum) inf us.
Proof. unfold ProofsKernel.masses, summaries, summary_list. clear. induction us as [|u l IH]; [reflexivity|]. cbn [map flat_map fst snd]. rewrite IH. reflexivity. Qed.

Lemma apart_norm (v w : p2) : apart v w = norm (vsub v w).
Proof. reflexivity. Qed.

Lemma scaled_apart (v w : p2) : apart (scaled v) (scaled w) = / (2 * PI) * norm (vsub v w).
Proof.
  rewrite apart_norm. pose proof PI_RGT_0 as P. replace (vsub (scaled v) (scaled w)) with (scaled (vsub v w)).
  - unfold scaled. rewrite norm_scale. f_equal. apply Rabs_right. apply Rle_ge, Rlt_le, Rinv_0_lt_compat. lra.
  - unfold scaled, vsub. cbn [x y]. unr. f_equal; eqR; ring.
Qed.

Lemma sums_apart (f g : tree RNum -> p2) :
  (forall u, In u us -> norm (vsub (f u) (g u)) <= node_bound n u) ->
  apart (scaled (vsum (map f us))) (scaled (vsum (map g us))) <= / (2 * PI) * total (node_bound n) us.
Proof.
  intros H. rewrite scaled_apart. apply Rmult_le_compat_l.
  - pose proof PI_RGT_0. apply Rlt_le, Rinv_0_lt_compat. lra.
  - rewrite vsum_sub. eapply Rle_trans; [apply norm_sum|]. rewrite total_map. apply total_le. exact H.
Qed.

Lemma taylor_apart :
  apart (induced (below_nodes us) p) (far_taylor (K:=RNum) (/ (2 * PI)) (/ PI) (centre_of n) (summaries (K:=RNum) inf us) p)
    <= / (2 * PI) * total (node_bound n) us.
Proof.
  pose proof PI_RGT_0 as P.
  rewrite taylor_linear by (field; lra). cbv zeta. rewrite summaries_masses, induced_sum, below_sum, pairs_sum.
  match goal with |- apart _ ?w <= _ => change w with (scaled (vsum (map (fun u => vadd (linear (summed (K:=RNum) inf (fst (masses u))) (centre_of n) (vsub p (centre_of n))) (linear (summed (K:=RNum) inf (snd (masses u))) (centre_of n) (vsub p (centre_of n)))) us))) end.
  apply sums_apart. intros u Hu. apply (tree_node_error inf k n u p k1 (boxed u Hu) ins (isfar u Hu)).
Qed.

Lemma far_influence_sum : 1 / inf = 0 ->
  far_influence (K:=RNum) (/ (2 * PI)) (summary_list (K:=RNum) inf us) p = scaled (vsum (map (pv_at p) (summary_list (K:=RNum) inf us))).
Proof.
  intros Hi. unfold far_influence.
  assert (E : forall (l : list (part RNum)) (s : p2), (forall o : part RNum, In o l -> 1 / pe o = 0) ->
    fold_left (fun s o => vadd s (biot_savart (K:=RNum) o p)) l s = vadd s (vsum (map (pv_at p) l))).
  { clear. induction l as [|o l IH]; intros s H; cbn [fold_left map].
    - destruct s as [s1 s2]. unfold vsum, vadd, total. cbn [fold_right x y]. unr. change (Num.T RNum) with R in *. rewrite !Rplus_0_r. reflexivity.
    - rewrite IH by (intros o' Ho; apply H; right; exact Ho).
      assert (B : biot_savart (K:=RNum) o p = pv_at p o).
      { unfold biot_savart, pv_at, point_vortex. cbv zeta. change (nofZ 1) with 1. unr. rewrite (H o (or_introl eq_refl)).
        unfold vscale, rotl, abs2, vsub. cbn [x y]. unr. rewrite Rmult_0_l, Rplus_0_r. unfold Rdiv. f_equal; eqR; ring. }
      rewrite B. unfold vsum, vadd, total. cbn [fold_right x y]. unr. f_equal; eqR; ring. }
  rewrite E.
  - unfold vscale, vadd, scaled. cbn [x y]. unr. f_equal; eqR; ring.
  - intros o Ho. unfold summary_list in Ho. apply in_flat_map in Ho. destruct Ho as (u & _ & Ho). cbn [In] in Ho.
    destruct Ho as [<-|[<-|[]]]; cbn [summed pe]; exact Hi.
Qed.

Lemma direct_apart : 1 / inf = 0 ->
  apart (induced (below_nodes us) p) (far_influence (K:=RNum) (/ (2 * PI)) (summary_list (K:=RNum) inf us) p)
    <= / (2 * PI) * total (node_bound n) us.
Proof.
  intros Hi. rewrite (far_influence_sum Hi), induced_sum, below_sum, pairs_sum.
  apply sums_apart. intros u Hu. apply (tree_node_error inf k n u p k1 (boxed u Hu) ins (isfar u Hu)).
Qed.
End FarNodes.

(** ** The nodes of the tree *)

Lemma nodes_found (t : tree RNum) is_far nears fars :
  find_near is_far [] t = (nears, fars) ->
  (forall u, In u (nodes t nears) -> (exists q, subtree t q = Some u) /\ is_far (node_of u) = false) /\
  (forall u, In u (nodes t fars) -> (exists q, subtree t q = Some u) /\ is_far (node_of u) = true).
Proof.
  intros E. assert (S : subtree t [] = Some t) by (destruct t; reflexivity).
  destruct (near_are_leaves t _ _ _ _ _ S E) as [A B].
  split; intros u Hu; unfold nodes in Hu; apply in_flat_map in Hu; destruct Hu as (q & Hq & Hu).
  - destruct (A q Hq) as (w & Sw & _ & F). rewrite Sw in Hu. destruct Hu as [<-|[]]. eauto.
  - destruct (B q Hq) as (w & Sw & F). rewrite Sw in Hu. destruct Hu as [<-|[]]. eauto.
Qed.

Lemma vortices_cover (t : tree RNum) : forall is_far root path nears fars,
  subtree root path = Some t -> find_near is_far path t = (nears, fars) ->
  Permutation (vortices t) (flat_map vortices (nodes root nears) ++ flat_map vortices (nodes root fars)).
Proof.
  induction t as [n b v h s|n t1 IH1 t2 IH2]; intros is_far root path nears fars S E; cbn [find_near node_of] in E.
  - destruct (is_far n); injection E as <- <-; unfold nodes; cbn [flat_map]; rewrite S; cbn [flat_map app]; rewrite ?app_nil_r; reflexivity.
  - destruct (is_far n).
    + injection E as <- <-. unfold nodes. cbn [flat_map]. rewrite S. cbn [flat_map app]. rewrite ?app_nil_r. reflexivity.
    + destruct (find_near is_far (path ++ [false]) t1) as [n1 f1] eqn:E1.
      destruct (find_near is_far (path ++ [true]) t2) as [n2 f2] eqn:E2.
      injection E as <- <-.
      apply (IH1 is_far root) in E1; [|rewrite subtree_app, S; destruct t1; auto].
      apply (IH2 is_far root) in E2; [|rewrite subtree_app, S; destruct t2; auto].
      unfold nodes in *. rewrite !flat_map_app. unfold Tree.Spec.vortices at 1. cbn [leaves]. rewrite flat_map_app.
      change (flat_map leaf_v (leaves t1)) with (vortices t1). change (flat_map leaf_v (leaves t2)) with (vortices t2).
      rewrite E1, E2. rewrite <- !app_assoc. apply Permutation_app_head. apply Permutation_app_swap_app.
Qed.

Lemma objects_vortices (t : tree RNum) o : In o (vortices t) -> In o (objects t).
Proof.
  unfold Tree.Spec.vortices, objects. rewrite !in_flat_map. intros (u & Hu & Ho). exists u. split; [exact Hu|]. rewrite !in_app_iff. tauto.
Qed.

Lemma leaf_subtree (t : tree RNum) u : In u (leaves t) -> exists q, subtree t q = Some u /\ leaves u = [u].
Proof.
  induction t as [n b v h s|n t1 IH1 t2 IH2]; cbn [leaves]; intros H.
  - destruct H as [<-|[]]. exists []. split; reflexivity.
  - apply in_app_or in H. destruct H as [H|H].
    + destruct (IH1 H) as (q & Q). exists (false :: q). exact Q.
    + destruct (IH2 H) as (q & Q). exists (true :: q). exact Q.
Qed.

(** Eight times the square: a fraction of the speed one vortex of all the
    strength would give from the centre. *)
Lemma eight (W S D : R) : 0 <= W -> 0 <= S -> 0 < D -> 8 * (S * S) < D * D ->
  W * (S * S / 4 / ((D - S / 2) * (D - S / 2) * (D - S / 2))) <= 6 / 100 * (W / D).
Proof.
  intros HW HS HD H.
  assert (L : S < 354 / 1000 * D) by nra.
  assert (L3 : 557 / 1000 * (D * D * D) <= (D - S / 2) * (D - S / 2) * (D - S / 2)).
  { assert (M : 823 / 1000 * D <= D - S / 2) by lra.
    apply Rle_trans with (823 / 1000 * D * (823 / 1000 * D) * (823 / 1000 * D)).
    - assert (0 < D * D * D) by (repeat apply Rmult_lt_0_compat; lra). nra.
    - apply Rmult_le_compat; [nra|lra| |exact M]. apply Rmult_le_compat; lra. }
  assert (D3 : 0 < D * D * D) by (repeat apply Rmult_lt_0_compat; lra).
  replace (6 / 100 * (W / D)) with (W * (6 / 100 * / D)) by (unfold Rdiv; ring).
  apply Rmult_le_compat_l; [exact HW|].
  apply Rle_trans with (D * D / 8 / 4 / (557 / 1000 * (D * D * D))).
  - apply Rmult_le_compat; [nra|apply Rlt_le, Rinv_0_lt_compat; lra|lra|]. apply Rinv_le_contravar; lra.
  - replace (D * D / 8 / 4 / (557 / 1000 * (D * D * D))) with (1000 / (557 * 32) * / D) by (field; lra).
    apply Rmult_le_compat_r; [apply Rlt_le, Rinv_0_lt_compat, HD|lra].
Qed.
