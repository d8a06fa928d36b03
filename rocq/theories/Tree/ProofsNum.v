(** Proofs about the search tree over reals and over binary64. *)

From Coq Require Import ZArith Bool List Permutation Lia PeanoNat Reals Lra Psatz.
From Flocq Require Import Core.Core IEEE754.BinarySingleNaN.
From Verif.Base Require Import Num F64.
From Verif.Tree Require Import Model Spec Proofs.
Import ListNotations.
Local Open Scope R_scope.

(** * Summaries over the reals *)


Lemma sumR_app f l1 l2 : sumR f (l1 ++ l2) = sumR f l1 + sumR f l2.
Proof. induction l1; simpl; [lra|]. rewrite IHl1. lra. Qed.


Lemma fold_masses (l : list (obj RNum)) : forall p m : mass RNum,
  let '(p', m') := fold_left (fun '(p, m) o => if (nofZ 0 <? g o)%num then (add_obj p o, m) else (p, add_obj m o)) l (p, m) in
  mg p' = mg p + sumR (fun o => g o) (plus l) /\
  mx p' = mx p + sumR (fun o => rx o * g o) (plus l) /\
  my p' = my p + sumR (fun o => ry o * g o) (plus l) /\
  mg m' = mg m + sumR (fun o => g o) (minus l) /\
  mx m' = mx m + sumR (fun o => rx o * g o) (minus l) /\
  my m' = my m + sumR (fun o => ry o * g o) (minus l).
Proof.
  induction l as [|o l IH]; intros p m; cbn [fold_left].
  - simpl. lra.
  - change (nofZ 0 <? g o)%num with (positive o). unfold plus, minus in *. cbn [filter].
    destruct (positive o); cbn [negb].
    + specialize (IH (add_obj p o) m).
      destruct (fold_left _ l (add_obj p o, m)) as [p' m'].
      simpl in *. lra.
    + specialize (IH p (add_obj m o)).
      destruct (fold_left _ l (p, add_obj m o)) as [p' m'].
      simpl in *. lra.
Qed.

Lemma plus_nonneg l : 0 <= sumR (fun o => g o) (plus l).
Proof.
  induction l as [|o l IH]; simpl; [lra|]. unfold plus in *. simpl. destruct (positive o) eqn:E; auto.
  apply Rltb_true in E. simpl. lra.
Qed.
Lemma minus_nonpos l : sumR (fun o => g o) (minus l) <= 0.
Proof.
  induction l as [|o l IH]; simpl; [lra|]. unfold minus in *. simpl. destruct (positive o) eqn:E; auto.
  apply Rltb_false in E. simpl. lra.
Qed.

Lemma plus_zero l f : sumR (fun o => g o) (plus l) = 0 -> sumR (fun o => f o * g o) (plus l) = 0.
Proof.
  induction l as [|o l IH]; simpl; [lra|]. pose proof (plus_nonneg l) as P. unfold plus in *. simpl.
  destruct (positive o) eqn:E; auto. apply Rltb_true in E. simpl. intros H.
  exfalso. lra.
Qed.
Lemma minus_zero l f : sumR (fun o => g o) (minus l) = 0 -> sumR (fun o => f o * g o) (minus l) = 0.
Proof.
  induction l as [|o l IH]; simpl; [lra|]. pose proof (minus_nonpos l) as P. unfold minus in *. simpl.
  destruct (positive o) eqn:E; auto. apply Rltb_false in E. simpl. intros H.
  assert (g o = 0) as -> by lra. rewrite IH by lra. lra.
Qed.

Lemma centre_summary n (p : mass RNum) l :
  mg p = sumR (fun o => g o) l -> mx p = sumR (fun o => rx o * g o) l -> my p = sumR (fun o => ry o * g o) l ->
  (sumR (fun o => g o) l = 0 -> sumR (fun o => rx o * g o) l = 0 /\ sumR (fun o => ry o * g o) l = 0) ->
  summary l (centre n p).
Proof.
  intros H1 H2 H3 Z. unfold centre, summary.
  change (@neqb RNum (mg p) (@nofZ RNum 0)) with (Reqb (mg p) 0).
  destruct (Reqb (mg p) 0) eqn:E.
  - apply Reqb_true in E. cbn [mg mx my]. rewrite H1 in E |- *. rewrite E. destruct (Z E) as [-> ->].
    split; auto. split; ring.
  - apply Reqb_false in E. cbn [mg mx my]. split; [exact H1|].
    rewrite <- H2, <- H3. simpl. split; field; exact E.
Qed.

Lemma join_summary n (a b : mass RNum) l1 l2 :
  summary l1 a -> summary l2 b ->
  (sumR (fun o => g o) (l1 ++ l2) = 0 ->
     sumR (fun o => rx o * g o) (l1 ++ l2) = 0 /\ sumR (fun o => ry o * g o) (l1 ++ l2) = 0) ->
  summary (l1 ++ l2) (mass_join n a b).
Proof.
  intros (A1 & A2 & A3) (B1 & B2 & B3) Z. unfold mass_join, summary.
  set (sg := (mg a + mg b)%num).
  assert (SG : sg = sumR (fun o => g o) (l1 ++ l2)) by (rewrite sumR_app; unfold sg; simpl; lra).
  change (@neqb RNum sg (@nofZ RNum 0)) with (Reqb sg 0).
  destruct (Reqb sg 0) eqn:E.
  - apply Reqb_true in E. cbn [mg mx my]. rewrite SG in E. destruct (Z E) as [-> ->]. rewrite E.
    simpl. split; auto. split; ring.
  - apply Reqb_false in E. cbn [mg mx my]. split; [exact SG|].
    rewrite !sumR_app, <- A2, <- A3, <- B2, <- B3. simpl. split; field; exact E.
Qed.

Lemma plus_app l1 l2 : plus (l1 ++ l2) = plus l1 ++ plus l2.
Proof. apply filter_app. Qed.
Lemma minus_app l1 l2 : minus (l1 ++ l2) = minus l1 ++ minus l2.
Proof. apply filter_app. Qed.

Lemma masses_ok (t : tree RNum) :
  summary (plus (flat_map leaf_v (leaves t))) (fst (masses t)) /\
  summary (minus (flat_map leaf_v (leaves t))) (snd (masses t)).
Proof.
  induction t as [n b v h s|n t1 [P1 M1] t2 [P2 M2]].
  - cbn [masses leaves flat_map leaf_v]. rewrite app_nil_r. unfold mass_leaf.
    pose proof (fold_masses v (mkMass (nofZ 0) (nofZ 0) (nofZ 0)) (mkMass (nofZ 0) (nofZ 0) (nofZ 0))) as F.
    destruct (fold_left _ v _) as [p m]. cbn [fst snd].
    simpl in F. destruct F as (F1 & F2 & F3 & F4 & F5 & F6).
    split; apply centre_summary; try lra.
    + intros H. split; apply plus_zero; auto.
    + intros H. split; apply minus_zero; auto.
  - cbn [masses leaves]. rewrite flat_map_app, plus_app, minus_app.
    destruct (masses t1) as [p1 m1], (masses t2) as [p2 m2]. cbn [fst snd] in *.
    split; apply join_summary; auto; rewrite <- ?plus_app, <- ?minus_app; intros H; split;
      (apply plus_zero || apply minus_zero); auto.
Qed.

(** * Bounding boxes *)

(** Reading of a number as a real. *)
Definition rd (x : f64) : R := B2R x.

Lemma f64_excl (a x : F64) : (x <=? a)%num = true -> (a <? x)%num = false.
Proof.
  simpl. unfold Bleb, Bltb, SpecFloat.SFleb, SpecFloat.SFltb.
  change (SpecFloat.SFcompare (B2SF a) (B2SF x)) with (Bcompare a x).
  change (SpecFloat.SFcompare (B2SF x) (B2SF a)) with (Bcompare x a).
  rewrite (Bcompare_swap 53 1024 x a). destruct (Bcompare x a) as [[]|]; simpl; congruence.
Qed.
Lemma r_excl (a x : RNum) : (x <=? a)%num = true -> (a <? x)%num = false.
Proof. simpl. intros H. apply Rleb_true in H. apply Rltb_false. exact H. Qed.

(** A number with a reading as a real that respects order: both instances below. *)
Section Box.
Context {K : Num}.
Variable val : K -> R.
Variable ok : K -> Prop.
Hypothesis ltb_val : forall a b, ok a -> ok b -> ((a <? b)%num = true <-> val a < val b).

Lemma cmax_val a b : ok a -> ok b -> ok (cmax a b) /\ val (cmax a b) = Rmax (val a) (val b).
Proof.
  intros Ha Hb. unfold cmax. destruct (a <? b)%num eqn:E.
  - apply ltb_val in E; auto. split; auto. rewrite Rmax_right; lra.
  - split; auto. rewrite Rmax_left; auto. destruct (Rlt_dec (val a) (val b)) as [L|L]; [|lra].
    apply ltb_val in L; auto. congruence.
Qed.
Lemma cmin_val a b : ok a -> ok b -> ok (cmin a b) /\ val (cmin a b) = Rmin (val a) (val b).
Proof.
  intros Ha Hb. unfold cmin. destruct (b <? a)%num eqn:E.
  - apply ltb_val in E; auto. split; auto. rewrite Rmin_right; lra.
  - split; auto. rewrite Rmin_left; auto. destruct (Rlt_dec (val b) (val a)) as [L|L]; [|lra].
    apply ltb_val in L; auto. congruence.
Qed.

Variable A : Type.
Variable f : A -> K.

Lemma fold_max l : forall a, ok a -> (forall o, In o l -> ok (f o)) ->
  let r := fold_left (fun a o => cmax a (f o)) l a in
  ok r /\ (forall o, In o l -> val (f o) <= val r) /\ val a <= val r /\
  (val r = val a \/ exists o, In o l /\ val (f o) = val r).
Proof.
  induction l as [|o l IH]; intros a Ha H; cbn [fold_left].
  - cbv zeta. split; auto. split; [intros o []|]. split; [lra|auto].
  - destruct (cmax_val a (f o) Ha (H o (or_introl eq_refl))) as [C1 C2].
    destruct (IH _ C1) as (I1 & I2 & I3 & I4); [intros; apply H; simpl; auto|].
    cbv zeta in *. set (r := fold_left _ l (cmax a (f o))) in *.
    pose proof (Rmax_l (val a) (val (f o))). pose proof (Rmax_r (val a) (val (f o))).
    split; auto. split; [|split].
    + intros o' [<-|Ho]; [lra|auto].
    + lra.
    + destruct I4 as [I4|(o' & Ho' & E)].
      * rewrite C2 in I4. unfold Rmax in I4. destruct (Rle_dec (val a) (val (f o))).
        -- right. exists o. split; [left; auto|auto].
        -- left. auto.
      * right. exists o'. split; [right; auto|auto].
Qed.

Lemma fold_min l : forall a, ok a -> (forall o, In o l -> ok (f o)) ->
  let r := fold_left (fun a o => cmin a (f o)) l a in
  ok r /\ (forall o, In o l -> val r <= val (f o)) /\ val r <= val a /\
  (val r = val a \/ exists o, In o l /\ val (f o) = val r).
Proof.
  induction l as [|o l IH]; intros a Ha H; cbn [fold_left].
  - cbv zeta. split; auto. split; [intros o []|]. split; [lra|auto].
  - destruct (cmin_val a (f o) Ha (H o (or_introl eq_refl))) as [C1 C2].
    destruct (IH _ C1) as (I1 & I2 & I3 & I4); [intros; apply H; simpl; auto|].
    cbv zeta in *. set (r := fold_left _ l (cmin a (f o))) in *.
    pose proof (Rmin_l (val a) (val (f o))). pose proof (Rmin_r (val a) (val (f o))).
    split; auto. split; [|split].
    + intros o' [<-|Ho]; [lra|auto].
    + lra.
    + destruct I4 as [I4|(o' & Ho' & E)].
      * rewrite C2 in I4. unfold Rmin in I4. destruct (Rle_dec (val a) (val (f o))).
        -- left. auto.
        -- right. exists o. split; [left; auto|auto].
      * right. exists o'. split; [right; auto|auto].
Qed.

(** The initial values are never kept on a non-empty list. *)
Variable bigr : R.
Variables lo hi : K.
Hypothesis (Hlo : ok lo) (Vlo : val lo = - bigr) (Hhi : ok hi) (Vhi : val hi = bigr).

Lemma fold_max_attained l : l <> [] -> (forall o, In o l -> ok (f o) /\ Rabs (val (f o)) <= bigr) ->
  let r := fold_left (fun a o => cmax a (f o)) l lo in
  ok r /\ (forall o, In o l -> val (f o) <= val r) /\ exists o, In o l /\ val (f o) = val r.
Proof.
  intros N H. destruct (fold_max l lo Hlo) as (F1 & F2 & F3 & F4); [intros; apply H; auto|].
  cbv zeta in *. split; auto. split; auto. destruct F4 as [F4|F4]; auto.
  destruct l as [|o l]; [congruence|]. exists o. split; [left; auto|].
  pose proof (F2 o (or_introl eq_refl)). destruct (H o (or_introl eq_refl)) as [_ B].
  apply Rabs_le_inv in B. lra.
Qed.
Lemma fold_min_attained l : l <> [] -> (forall o, In o l -> ok (f o) /\ Rabs (val (f o)) <= bigr) ->
  let r := fold_left (fun a o => cmin a (f o)) l hi in
  ok r /\ (forall o, In o l -> val r <= val (f o)) /\ exists o, In o l /\ val (f o) = val r.
Proof.
  intros N H. destruct (fold_min l hi Hhi) as (F1 & F2 & F3 & F4); [intros; apply H; auto|].
  cbv zeta in *. split; auto. split; auto. destruct F4 as [F4|F4]; auto.
  destruct l as [|o l]; [congruence|]. exists o. split; [left; auto|].
  pose proof (F2 o (or_introl eq_refl)). destruct (H o (or_introl eq_refl)) as [_ B].
  apply Rabs_le_inv in B. lra.
Qed.
End Box.

(** * A split node has objects on either side *)

(** Over the reals. *)
Definition in_box (big : R) (o : obj RNum) : Prop := Rabs (rx o) <= big /\ Rabs (ry o) <= big.

Lemma rltb_val (a b : RNum) : True -> True -> ((a <? b)%num = true <-> a < b).
Proof. intros _ _. apply Rltb_true. Qed.

Lemma r_side (big : R) (f : obj RNum -> R) l : l <> [] ->
  (forall o, In o l -> Rabs (f o) <= big) ->
  let tr := fold_left (fun a o => @cmax RNum a (f o)) l (- big) in
  let bl := fold_left (fun a o => @cmin RNum a (f o)) l big in
  (exists o, In o l /\ f o = tr) /\ (exists o, In o l /\ f o = bl).
Proof.
  intros N H.
  destruct (@fold_max_attained RNum (fun x => x) (fun _ => True) rltb_val _ f big (-big) I eq_refl l N) as (_ & _ & M).
  { intros; split; auto. }
  destruct (@fold_min_attained RNum (fun x => x) (fun _ => True) rltb_val _ f big big I eq_refl l N) as (_ & _ & M').
  { intros; split; auto. }
  cbv zeta in *. auto.
Qed.

Lemma r_splits (big minSize maxSize : R) : 0 < big -> 0 <= minSize -> 0 < maxSize ->
  @splits RNum big minSize maxSize (in_box big).
Proof.
  intros Hb Hmin Hmax b v h s F n BOT. rewrite Forall_forall in F.
  assert (B : ~ (Rmax (nh n) (nw n) <= 0)).
  { intros L. unfold is_bottom in BOT.
    destruct (@cmax_val RNum (fun x => x) (fun _ => True) rltb_val (nh n) (nw n) I I) as [_ C1].
    destruct (@cmin_val RNum (fun x => x) (fun _ => True) rltb_val (nh n) (nw n) I I) as [_ C2].
    rewrite C1, C2 in BOT. change (@nltb RNum) with Rltb in BOT. change (@nleb RNum) with Rleb in BOT.
    pose proof (Rmax_l (nh n) (nw n)). pose proof (Rmin_l (nh n) (nw n)).
    replace (Rltb (Rmax (nh n) (nw n)) maxSize) with true in BOT by (symmetry; apply Rltb_true; lra).
    replace (Rleb (Rmin (nh n) (nw n)) minSize) with true in BOT by (symmetry; apply Rleb_true; lra).
    discriminate. }
  assert (D : b ++ v ++ h ++ s = [] \/ b ++ v ++ h ++ s <> []).
  { destruct (b ++ v ++ h ++ s); [left; reflexivity|right; discriminate]. }
  destruct D as [E|N].
  { exfalso. apply B. 
    unfold n, stretch. rewrite E. simpl. unfold Rmax. destruct (Rle_dec _ _); lra. }
  destruct (r_side big (fun o => rx o) _ N) as [(ox & Hox & Ex) (px & Hpx & Epx)]; [intros; apply F; auto|].
  destruct (r_side big (fun o => ry o) _ N) as [(oy & Hoy & Ey) (py & Hpy & Epy)]; [intros; apply F; auto|].
  set (l := b ++ v ++ h ++ s) in *.
  assert (NX : nx n = (rx px + rx ox) * (1/2)) by (rewrite Ex, Epx; reflexivity).
  assert (NY : ny n = (ry py + ry oy) * (1/2)) by (rewrite Ey, Epy; reflexivity).
  assert (NW : nw n = rx ox - rx px) by (rewrite Ex, Epx; reflexivity).
  assert (NH : nh n = ry oy - ry py) by (rewrite Ey, Epy; reflexivity).
  clearbody n. unfold below. change (@nltb RNum (nh n) (nw n)) with (Rltb (nh n) (nw n)).
  destruct (Rltb (nh n) (nw n)) eqn:HW.
  - apply Rltb_true in HW. rewrite Rmax_right in B by lra.
    split; [exists px|exists ox]; (split; [assumption|]); [apply Rltb_true|apply Rltb_false]; simpl in *; lra.
  - apply Rltb_false in HW. rewrite Rmax_left in B by lra.
    split; [exists py|exists oy]; (split; [assumption|]); [apply Rltb_true|apply Rltb_false]; simpl in *; lra.
Qed.

(** Over binary64. *)
Definition dbl_max : f64 := binary_normalize 53 1024 Hprec64 Hmax64 mode_NE (2^53-1) 971 false.

Lemma dbl_max_finite : is_finite dbl_max = true.
Proof. vm_compute. reflexivity. Qed.

Lemma rnd_bpow e : (-1000 <= e)%Z -> rnd (bpow radix2 e) = bpow radix2 e.
Proof.
  intros H. rewrite rnd_flt. apply round_generic; auto with typeclass_instances.
  apply generic_format_bpow. unfold FLT_exp. lia.
Qed.

Lemma dbl_max_big : bpow radix2 1000 <= B2R dbl_max.
Proof.
  pose proof (binary_normalize_correct 53 1024 Hprec64 Hmax64 mode_NE (2^53-1) 971 false) as K.
  assert (F : F2R (Float radix2 (2^53-1) 971) <= bpow radix2 1024 - bpow radix2 971).
  { unfold F2R. cbn [Fnum Fexp]. change (bpow radix2 1024) with (bpow radix2 (53+971)).
    rewrite bpow_plus. replace (bpow radix2 53) with (IZR (2^53)) by (rewrite <- IZR_Zpower by lia; reflexivity).
    rewrite minus_IZR. pose proof (bpow_gt_0 radix2 971). nra. }
  assert (G : generic_format radix2 (FLT_exp (-1074) 53) (F2R (Float radix2 (2^53-1) 971))).
  { apply generic_format_FLT. exists (Float radix2 (2^53-1) 971); auto; simpl; lia. }
  assert (E : rnd (F2R (Float radix2 (2^53-1) 971)) = F2R (Float radix2 (2^53-1) 971)).
  { rewrite rnd_flt. apply round_generic; auto with typeclass_instances. }
  change (round radix2 (SpecFloat.fexp 53 1024) (round_mode mode_NE)) with rnd in K. cbv zeta in K. rewrite E in K.
  assert (P : 0 < F2R (Float radix2 (2^53-1) 971)).
  { apply F2R_gt_0. simpl. lia. }
  rewrite Rlt_bool_true in K.
  - destruct K as (K & _ & _). unfold dbl_max. rewrite K. unfold F2R. simpl Fnum. simpl Fexp.
    change (bpow radix2 1000) with (bpow radix2 (29 + 971)). rewrite bpow_plus.
    apply Rmult_le_compat_r; [apply bpow_ge_0|]. rewrite <- IZR_Zpower by lia. apply IZR_le. vm_compute. discriminate.
  - rewrite Rabs_pos_eq by lra. pose proof (bpow_gt_0 radix2 971). lra.
Qed.

Lemma rnd_abs x e : (-1000 <= e)%Z -> Rabs x <= bpow radix2 e -> Rabs (rnd x - x) <= bpow radix2 (e - 53).
Proof.
  intros He Hx. rewrite rnd_flt.
  eapply Rle_trans; [apply error_le_half_ulp; auto with typeclass_instances|].
  assert (U : ulp radix2 (FLT_exp (-1074) 53) x <= bpow radix2 (e - 52)).
  { eapply Rle_trans; [apply ulp_le; auto with typeclass_instances; rewrite (Rabs_pos_eq (bpow radix2 e)); [exact Hx|apply bpow_ge_0]|].
    rewrite ulp_bpow. apply bpow_le. unfold FLT_exp. lia. }
  replace (e - 52)%Z with (1 + (e - 53))%Z in U by lia. rewrite bpow_plus in U. simpl (bpow radix2 1) in U. lra.
Qed.

Lemma f64_sub_R (x y : f64) e :
  is_finite x = true -> is_finite y = true ->
  Rabs (B2R x - B2R y) <= bpow radix2 e -> (-1000 <= e < 1024)%Z ->
  B2R (@nsub F64 x y) = rnd (B2R x - B2R y) /\ is_finite (@nsub F64 x y) = true.
Proof.
  intros Hx Hy Hb He. simpl.
  pose proof (Bminus_correct 53 1024 Hprec64 Hmax64 mode_NE x y Hx Hy) as K.
  change (round_mode mode_NE) with ZnearestE in K.
  fold (rnd (B2R x - B2R y)) in K.
  rewrite Rlt_bool_true in K by (eapply rnd_bound_lt; eauto).
  destruct K as (K1 & K2 & _). split; assumption.
Qed.

Lemma half_R : B2R (@half F64) = 1/2 /\ is_finite (@half F64) = true.
Proof.
  split; [|vm_compute; reflexivity].
  destruct (f64_ofZ_R 1 ltac:(lia)) as (A1 & A2). destruct (f64_ofZ_R 2 ltac:(lia)) as (B1 & B2).
  destruct (f64_div_R (f64_ofZ 1) (f64_ofZ 2) 0 A2) as (D & _).
  - rewrite B1. lra.
  - rewrite A1, B1. rewrite Rabs_pos_eq by lra. simpl. lra.
  - lia.
  - unfold half. change (@nofZ F64) with f64_ofZ. rewrite D, A1, B1.
    replace (1 / 2) with (bpow radix2 (-1)) by (simpl; lra). apply rnd_bpow. lia.
Qed.

Section Limits.
Variable e : Z.
Hypothesis He : (-900 <= e <= 1000)%Z.

(** A side of the box: centre strictly above the lower end, not above the upper one,
    when the computed extent is at least 2^(e-50). *)
Lemma mid_R (bl tr : f64) : is_finite bl = true -> is_finite tr = true ->
  Rabs (B2R bl) <= bpow radix2 e -> Rabs (B2R tr) <= bpow radix2 e ->
  let w := @nsub F64 tr bl in
  let x := @nmul F64 (@nadd F64 bl tr) half in
  is_finite w = true /\ is_finite x = true /\
  (bpow radix2 (e - 50) <= B2R w -> B2R bl < B2R x <= B2R tr).
Proof.
  intros Fb Ft Ab At w x. apply Rabs_le_inv in Ab. apply Rabs_le_inv in At.
  assert (E1 : bpow radix2 (e + 1) = 2 * bpow radix2 e) by (rewrite Z.add_comm, bpow_plus; reflexivity).
  destruct (f64_sub_R tr bl (e+1) Ft Fb) as (W1 & W2); [rewrite E1; apply Rabs_le; lra|lia|]. fold w in W1, W2.
  assert (S : Rabs (B2R bl + B2R tr) <= bpow radix2 (e + 1)) by (rewrite E1; apply Rabs_le; lra).
  destruct (f64_add_R bl tr (e+1) Fb Ft S) as (S1 & S2); [lia|].
  pose proof (rnd_abs _ (e+1) ltac:(lia) S) as S3.
  destruct half_R as (H1 & H2).
  assert (S4 : Rabs (rnd (B2R bl + B2R tr)) <= bpow radix2 (e + 1)).
  { apply Rabs_le_inv in S. apply Rabs_le. split.
    - replace (- bpow radix2 (e + 1)) with (rnd (- bpow radix2 (e+1))).
      + apply rnd_le. lra.
      + rewrite rnd_flt. rewrite round_NE_opp. rewrite <- rnd_flt, rnd_bpow by lia. reflexivity.
    - rewrite <- (rnd_bpow (e+1)) at 1 by lia. apply rnd_le. lra. }
  assert (M : Rabs (rnd (B2R bl + B2R tr) * (1/2)) <= bpow radix2 e).
  { rewrite Rabs_mult. rewrite (Rabs_pos_eq (1/2)) by lra. rewrite E1 in S4. lra. }
  destruct (f64_mul_R (@nadd F64 bl tr) (@half F64) e S2 H2) as (X1 & X2); [rewrite S1, H1; exact M|lia|]. fold x in X1, X2.
  rewrite S1, H1 in X1.
  pose proof (rnd_abs _ e ltac:(lia) M) as X3. rewrite <- X1 in X3.
  split; [auto|]. split; [auto|]. intros L.
  assert (D : bpow radix2 (e - 51) < B2R tr - B2R bl).
  { apply Rnot_le_lt. intros C. apply rnd_le in C. rewrite <- W1, rnd_bpow in C by lia.
    assert (bpow radix2 (e - 51) < bpow radix2 (e - 50)) by (apply bpow_lt; lia). lra. }
  replace (e + 1 - 53)%Z with (1 + (e - 53))%Z in S3 by lia. rewrite bpow_plus in S3. simpl (bpow radix2 1) in S3.
  replace (e - 51)%Z with (2 + (e - 53))%Z in D by lia. rewrite bpow_plus in D. simpl (bpow radix2 2) in D.
  apply Rabs_le_inv in S3. apply Rabs_le_inv in X3.
  set (u := bpow radix2 (e - 53)) in *. set (q := rnd (B2R bl + B2R tr)) in *. lra.
Qed.

Definition bounded (o : obj F64) : Prop :=
  is_finite (rx o) = true /\ is_finite (ry o) = true /\
  Rabs (B2R (rx o)) <= bpow radix2 e /\ Rabs (B2R (ry o)) <= bpow radix2 e.

Definition fin (x : F64) : Prop := is_finite x = true.

Lemma f_side (f : obj F64 -> f64) l : l <> [] ->
  (forall o, In o l -> is_finite (f o) = true /\ Rabs (B2R (f o)) <= bpow radix2 e) ->
  let tr := fold_left (fun a o => @cmax F64 a (f o)) l (@nopp F64 dbl_max) in
  let bl := fold_left (fun a o => @cmin F64 a (f o)) l dbl_max in
  (is_finite tr = true /\ is_finite bl = true) /\
  (exists o, In o l /\ B2R (f o) = B2R tr) /\ (exists o, In o l /\ B2R (f o) = B2R bl).
Proof.
  intros N H.
  assert (BB : bpow radix2 e <= B2R dbl_max).
  { eapply Rle_trans; [|apply dbl_max_big]. apply bpow_le. lia. }
  assert (LT : forall a b : F64, fin a -> fin b -> ((a <? b)%num = true <-> B2R a < B2R b)).
  { intros. apply f64_ltb_true; auto. }
  destruct (@fold_max_attained F64 B2R fin LT _ f (B2R dbl_max) (@nopp F64 dbl_max)) with (l := l) as (M1 & _ & M).
  { unfold fin. change (is_finite (Bopp dbl_max) = true). rewrite is_finite_Bopp. apply dbl_max_finite. }
  { change (B2R (Bopp dbl_max) = - B2R dbl_max). apply B2R_Bopp. } { exact N. }
  { intros o Ho. destruct (H o Ho). split; auto. lra. }
  destruct (@fold_min_attained F64 B2R fin LT _ f (B2R dbl_max) dbl_max) with (l := l) as (M1' & _ & M').
  { apply dbl_max_finite. } { reflexivity. } { exact N. }
  { intros o Ho. destruct (H o Ho). split; auto. lra. }
  cbv zeta in *. unfold fin in *. auto.
Qed.

Lemma f_splits (minSize maxSize : f64) :
  is_finite minSize = true -> is_finite maxSize = true ->
  bpow radix2 (e - 50) <= B2R minSize -> bpow radix2 (e - 50) <= B2R maxSize ->
  @splits F64 dbl_max minSize maxSize bounded.
Proof.
  intros Fmin Fmax Hmin Hmax b v h s F n BOT. rewrite Forall_forall in F.
  assert (D : b ++ v ++ h ++ s = [] \/ b ++ v ++ h ++ s <> []).
  { destruct (b ++ v ++ h ++ s); [left; reflexivity|right; discriminate]. }
  destruct D as [E|N].
  { exfalso.  unfold is_bottom in BOT.
    assert (NH : nh n = f64_ninf).
    { unfold n, stretch. rewrite E. cbn [nh fold_left]. apply B2SF_inj. vm_compute. reflexivity. }
    assert (NW : nw n = f64_ninf).
    { unfold n, stretch. rewrite E. cbn [nw fold_left]. apply B2SF_inj. vm_compute. reflexivity. }
    rewrite NH, NW in BOT.
    change (@cmax F64 f64_ninf f64_ninf) with f64_ninf in BOT. change (@cmin F64 f64_ninf f64_ninf) with f64_ninf in BOT.
    assert (L1 : forall x : f64, is_finite x = true -> @nltb F64 f64_ninf x = true).
    { intros [[]|[]| |[] m ex P]; simpl; intros; auto; discriminate. }
    assert (L2 : forall x : f64, is_finite x = true -> @nleb F64 f64_ninf x = true).
    { intros [[]|[]| |[] m ex P]; simpl; intros; auto; discriminate. }
    rewrite L1, L2 in BOT by auto. discriminate. }
  destruct (f_side (fun o => rx o) _ N) as [[Tx Bx] [(ox & Hox & Ex) (px & Hpx & Epx)]].
  { intros o Ho. destruct (F o Ho) as (? & ? & ? & ?). auto. }
  destruct (f_side (fun o => ry o) _ N) as [[Ty By] [(oy & Hoy & Ey) (py & Hpy & Epy)]].
  { intros o Ho. destruct (F o Ho) as (? & ? & ? & ?). auto. }
  set (l := b ++ v ++ h ++ s) in *.
  set (trx := fold_left (fun a o => @cmax F64 a (rx o)) l _) in *.
  set (blx := fold_left (fun a o => @cmin F64 a (rx o)) l _) in *.
  set (try := fold_left (fun a o => @cmax F64 a (ry o)) l _) in *.
  set (bly := fold_left (fun a o => @cmin F64 a (ry o)) l _) in *.
  assert (NX : nx n = @nmul F64 (@nadd F64 blx trx) half) by reflexivity.
  assert (NY : ny n = @nmul F64 (@nadd F64 bly try) half) by reflexivity.
  assert (NW : nw n = @nsub F64 trx blx) by reflexivity.
  assert (NH : nh n = @nsub F64 try bly) by reflexivity.
  destruct (F ox Hox) as (F1 & F2 & F3 & F4). destruct (F px Hpx) as (G1 & G2 & G3 & G4).
  destruct (F oy Hoy) as (F5 & F6 & F7 & F8). destruct (F py Hpy) as (G5 & G6 & G7 & G8).
  destruct (mid_R blx trx Bx Tx) as (WX & MX & CX); [rewrite <- Epx; auto|rewrite <- Ex; auto|].
  destruct (mid_R bly try By Ty) as (WY & MY & CY); [rewrite <- Epy; auto|rewrite <- Ey; auto|].
  rewrite <- NW in WX, CX. rewrite <- NH in WY, CY. rewrite <- NX in MX, CX. rewrite <- NY in MY, CY.
  clearbody n. clear NX NY NW NH. clearbody trx blx try bly.
  assert (LT : forall a b : F64, fin a -> fin b -> ((a <? b)%num = true <-> B2R a < B2R b)).
  { intros. apply f64_ltb_true; auto. }
  assert (B : bpow radix2 (e - 50) <= Rmax (B2R (nh n)) (B2R (nw n))).
  { unfold is_bottom in BOT.
    destruct (@cmax_val F64 B2R fin LT (nh n) (nw n) WY WX) as [C1 C2].
    destruct (@cmin_val F64 B2R fin LT (nh n) (nw n) WY WX) as [C3 C4].
    apply andb_false_iff in BOT. destruct BOT as [BOT|BOT].
    - rewrite <- C2. eapply Rle_trans; [apply Hmax|]. apply Rnot_lt_le. intros C.
      apply f64_ltb_true in C; auto. rewrite C in BOT. discriminate.
    - apply orb_false_iff in BOT. destruct BOT as [BOT _].
      assert (B2R minSize < B2R (@cmin F64 (nh n) (nw n))).
      { apply Rnot_le_lt. intros C. apply f64_leb_true in C; auto. rewrite C in BOT. discriminate. }
      rewrite C4 in H. pose proof (Rmin_l (B2R (nh n)) (B2R (nw n))). pose proof (Rmax_l (B2R (nh n)) (B2R (nw n))). lra. }
  unfold below. destruct (nh n <? nw n)%num eqn:HW.
  - apply f64_ltb_true in HW; auto. rewrite Rmax_right in B by lra. specialize (CX B).
    split; [exists px|exists ox]; (split; [assumption|]).
    + apply f64_ltb_true; auto. lra.
    + apply not_true_is_false. intros C. apply f64_ltb_true in C; auto. lra.
  - assert (B2R (nw n) <= B2R (nh n)).
    { apply Rnot_lt_le. intros C. apply f64_ltb_true in C; auto. rewrite C in HW. discriminate. }
    rewrite Rmax_left in B by lra. specialize (CY B).
    split; [exists py|exists oy]; (split; [assumption|]).
    + apply f64_ltb_true; auto. lra.
    + apply not_true_is_false. intros C. apply f64_ltb_true in C; auto. lra.
Qed.
End Limits.
