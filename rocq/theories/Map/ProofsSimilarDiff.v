(** Diffusive velocities, friction and radii in other units. *)

From Coq Require Import ZArith Bool List Lia Reals Lra.
From Verif.Base Require Import Num.
From Verif.Body Require Import Model Spec.
From Verif.Vortex Require Import Model ProofsKernel.
From Verif.Map Require Import SpecSimilar ProofsSimilar.
Import ListNotations.
Local Open Scope R_scope.

Section Units.
Variables k s : R.
Hypothesis (Hk : 0 < k) (Hs : 0 < s).
Let k0 : k <> 0 := Rgt_not_eq _ _ Hk.
Let s0 : s <> 0 := Rgt_not_eq _ _ Hs.
Let kk : 0 < k * k := Rmult_lt_0_compat _ _ Hk Hk.
Let kk0 : k * k <> 0 := Rgt_not_eq _ _ kk.
Variables (expf : R -> R) (tenth eight pi_ two_pi tiny : R).
Hypothesis Ht : 0 < tiny.

Section Strength.
Variable c : R.
Hypothesis Hc : 0 < c.
Let c0 : c <> 0 := Rgt_not_eq _ _ Hc.
Notation psc := (part_sc k s c).

Lemma vzero_sc (q : pnt) : clear_of tiny k (size1 q) -> vzero_ (K:=RNum) tiny (sc k q) = vzero_ (K:=RNum) tiny q.
Proof.
  unfold clear_of, size1, vzero_, sc. cbn [x y]. unr. change (@nltb RNum) with Rltb. rewrite !Rabs_mult, !(Rabs_pos_eq k) by lra.
  change (Num.T RNum) with R in *.
  replace (k * Rabs (x q) + k * Rabs (y q)) with (k * (Rabs (x q) + Rabs (y q))) by ring.
  intros [E|[A B]].
  - rewrite E, Rmult_0_r. reflexivity.
  - replace (Rltb _ tiny) with false by (symmetry; apply Rltb_false; exact B). symmetry. apply Rltb_false. exact A.
Qed.

Lemma exponent d e : - (k * d) * (e / k) = - d * e.
Proof. field. exact k0. Qed.

Lemma vortex_influence_sc v w S : clear_of tiny k (size1 (vsub (pr v) (pr w))) ->
  vortex_influence (K:=RNum) expf eight tiny (psc v) (psc w) (sc c (fst S), c * snd S) =
  (sc c (fst (vortex_influence (K:=RNum) expf eight tiny v w S)), c * snd (vortex_influence (K:=RNum) expf eight tiny v w S)).
Proof.
  intros A. unfold vortex_influence. cbn [part_sc pr pg pe]. rewrite !sign_sc by exact Hc. rewrite vsub_sc, vzero_sc by exact A.
  destruct (negb _); [reflexivity|]. destruct (vzero_ _ _); [reflexivity|]. rewrite vabs_sc by lra. cbv zeta.
  set (d := vabs _). unr. change (Num.T RNum) with R in *. rewrite exponent. change (@nltb RNum) with Rltb.
  destruct (Rltb (- d * pe v) (- eight)); [reflexivity|]. cbn [fst snd]. set (e := expf _). change (Num.T RNum) with R in *.
  apply (f_equal2 (@pair pnt R)); [|ring]. rewrite <- vadd_sc. f_equal.
  replace (c * pg w * e / (k * d)) with (c / k * (pg w * e / d)) by (unfold Rdiv; rewrite inv_sc by exact k0; ring).
  rewrite vscale_sc. f_equal. field. exact k0.
Qed.

Lemma segment_influence_sc v w S : segment_influence (K:=RNum) expf eight (psc v) (att_sc k w) (sc k (fst S), snd S) =
  let '(T, f) := segment_influence (K:=RNum) expf eight v w S in (sc k (fst T), snd T, c / k * f).
Proof.
  unfold segment_influence. cbn [part_sc pr pg pe att_sc r dl]. rewrite vsub_sc, abs2_sc, rotl_sc. cbv zeta. unr. rewrite sqrt_sc by lra.
  set (d2 := abs2 _). set (d := sqrt d2). change (Num.T RNum) with R in *. rewrite exponent. change (@nltb RNum) with Rltb.
  destruct (Rltb (- d * pe v) (- eight)).
  - destruct S. cbn [fst snd]. apply (f_equal2 (@pair (pnt * R) R)); [reflexivity|ring].
  - cbn [fst snd]. set (e := expf _). change (Num.T RNum) with R in *. rewrite vabs_sc by lra. rewrite dot_sc. unr. set (ds := rotl (dl w)).
    apply (f_equal2 (@pair (pnt * R) R)); [apply (f_equal2 (@pair pnt R))|].
    + rewrite <- vadd_sc, vscale_sc1. reflexivity.
    + unfold Rdiv. rewrite inv_sc by exact kk0. generalize (/ d2). intros q. set (D := dot _ ds). change (Num.T RNum) with R in *. field. exact k0.
    + set (a := vabs ds). change (Num.T RNum) with R in *. field. exact k0.
Qed.

Lemma sums_sc nb ws vs v : apart tiny k vs v ->
  sums (K:=RNum) expf eight tiny nb (map (att_sc k) ws) (map psc vs) (psc v) =
  let '(S2, S1, (S3, S0)) := sums (K:=RNum) expf eight tiny nb ws vs v in (sc c S2, c * S1, (sc k S3, S0)).
Proof.
  intros A. unfold sums.
  assert (F : forall nb S, fold_left (fun S j => match nth_error (map psc vs) j with None => S
      | Some b => if (pg b =? nofZ 0)%num then S else vortex_influence (K:=RNum) expf eight tiny (psc v) b S end) nb (sc c (fst S), c * snd S) =
    let T := fold_left (fun S j => match nth_error vs j with None => S
      | Some b => if (pg b =? nofZ 0)%num then S else vortex_influence (K:=RNum) expf eight tiny v b S end) nb S in (sc c (fst T), c * snd T)).
  { clear nb. induction nb as [|j nb IH]; intros S; [reflexivity|]. cbn [fold_left]. cbv zeta in *. rewrite <- IH. f_equal.
    rewrite nth_error_map. destruct (nth_error vs j) as [b|] eqn:E; cbn [option_map]; [|reflexivity]. cbn [pg part_sc].
    change (@neqb RNum) with Reqb. change (@nofZ RNum 0) with 0. rewrite eqb_sc by exact c0. destruct (Reqb (pg b) 0); [reflexivity|].
    apply vortex_influence_sc. apply (A b). eapply nth_error_In; eauto. }
  assert (G : forall ws S, fold_left (fun S w => fst (segment_influence (K:=RNum) expf eight (psc v) w S)) (map (att_sc k) ws) (sc k (fst S), snd S) =
    let T := fold_left (fun S w => fst (segment_influence (K:=RNum) expf eight v w S)) ws S in (sc k (fst T), snd T)).
  { clear ws. induction ws as [|w ws IH]; intros S; [reflexivity|]. cbn [fold_left map]. cbv zeta in *. rewrite <- IH. f_equal.
    rewrite segment_influence_sc. destruct (segment_influence _ _ v w S) as [T f]. reflexivity. }
  specialize (F nb (@mkVec RNum 0 0, 0)). specialize (G ws (@mkVec RNum 0 0, 0)). cbv zeta in *. cbn [fst snd] in *.
  change (@mkVec RNum 0 0) with (vzero (K:=RNum)) in *. rewrite !sc_zero in *. rewrite Rmult_0_r in F.
  change (@mkVec RNum (nofZ 0) (nofZ 0)) with (vzero (K:=RNum)). change (@nofZ RNum 0) with 0 in *.
  match type of F with ?l = _ => match goal with |- (?a, ?b) = _ => change a with l end end.
  rewrite F. match type of G with ?l = _ => match goal with |- (?a, ?b) = _ => change b with l end end. rewrite G. clear F G.
  destruct (fold_left _ nb _) as [S2 S1]. destruct (fold_left _ ws _) as [S3 S0]. reflexivity.
Qed.

Lemma guard_sc S1 g : guard (K:=RNum) tenth (c * S1) (c * g) = c * guard (K:=RNum) tenth S1 g.
Proof.
  unfold guard. rewrite !sign_sc by exact Hc. change (@nltb RNum) with Rltb. unr.
  replace (tenth * (c * g)) with (c * (tenth * g)) by ring. rewrite !Rabs_mult, (Rabs_pos_eq c) by lra. rewrite ltb_sc by exact Hc.
  rewrite <- Rabs_mult. destruct (negb _ || _); reflexivity.
Qed.
End Strength.

Lemma vort_velocity_sc re nb ws vs v : apart tiny k vs v ->
  vort_velocity (K:=RNum) expf tenth eight pi_ two_pi tiny (re / (k * s)) nb (map (att_sc k) ws) (map (part_sc k s (k * s)) vs) (part_sc k s (k * s) v) =
  sc s (vort_velocity (K:=RNum) expf tenth eight pi_ two_pi tiny re nb ws vs v).
Proof.
  intros A. assert (C : 0 < k * s) by (apply Rmult_lt_0_compat; assumption). unfold vort_velocity. rewrite sums_sc by assumption.
  destruct (sums _ _ _ _ _ _ v) as [[S2 S1] [S3 S0]]. cbn [part_sc pg pv pe]. rewrite guard_sc by exact C.
  set (G := guard _ S1 (pg v)). unr. change (Num.T RNum) with R in *. set (H := two_pi - cap (K:=RNum) pi_ S0). change (Num.T RNum) with R in *.
  assert (ks0 : k * s <> 0) by lra.
  replace (pe v / k / (re / (k * s) * (k * s * G))) with (/ k * (pe v / (re * G))).
  2: { replace (re / (k * s) * (k * s * G)) with (re * G) by (field; auto). unfold Rdiv. ring. }
  replace (pe v / k * (pe v / k) / (re / (k * s) * H)) with (s / k * (pe v * pe v / (re * H))).
  2: { replace (re / (k * s) * H) with (/ (k * s) * (re * H)) by (field; auto). unfold Rdiv. rewrite (inv_sc (/ (k * s)) (re * H)) by (apply Rinv_neq_0_compat, ks0).
       rewrite Rinv_inv. generalize (/ (re * H)). intros q. field. exact k0. }
  rewrite !vscale_sc. replace (k * s * / k) with s by (field; exact k0). replace (k * (s / k)) with s by (field; exact k0).
  rewrite !vadd_sc. reflexivity.
Qed.

Lemma heat_velocity_sc prandtl re nb ws vs v : apart tiny k vs v ->
  heat_velocity (K:=RNum) expf tenth eight tiny prandtl (re / (k * s)) nb (map (att_sc k) ws) (map (part_sc k s (k * k)) vs) (part_sc k s (k * k) v) =
  sc s (heat_velocity (K:=RNum) expf tenth eight tiny prandtl re nb ws vs v).
Proof.
  intros A. unfold heat_velocity. rewrite sums_sc by assumption.
  destruct (sums _ _ _ _ _ _ v) as [[S2 S1] [S3 S0]]. cbn [part_sc pg pv pe]. rewrite guard_sc by exact kk.
  set (G := guard _ S1 (pg v)). unr. change (Num.T RNum) with R in *.
  replace (pe v / k) with (/ k * pe v) by (unfold Rdiv; ring). rewrite vscale_sc. replace (k * k * / k) with k by (field; exact k0). rewrite vadd_sc.
  replace (k * k * G + S0 / (/ k * pe v * (/ k * pe v))) with (k * k * (G + S0 / (pe v * pe v))).
  2: { replace (/ k * pe v * (/ k * pe v)) with (/ (k * k) * (pe v * pe v)) by (field; exact k0). unfold Rdiv. rewrite (inv_sc (/ (k * k)) (pe v * pe v)) by (apply Rinv_neq_0_compat, kk0).
       rewrite Rinv_inv. ring. }
  rewrite vdiv_sc by exact kk0. replace (prandtl * (re / (k * s))) with (/ (k * s) * (prandtl * re)) by (field; auto).
  rewrite vdiv_sc by (apply Rinv_neq_0_compat; apply Rmult_integral_contrapositive; auto).
  replace (k / (k * k) / / (k * s)) with s by (field; auto). rewrite vadd_sc. reflexivity.
Qed.

Lemma friction_sc vs w : friction (K:=RNum) expf eight (map (part_sc k s (k * s)) vs) (att_sc k w) = s * friction (K:=RNum) expf eight vs w.
Proof.
  assert (C : 0 < k * s) by (apply Rmult_lt_0_compat; assumption).
  unfold friction. change (@nofZ RNum 0) with 0.
  assert (F : forall f, fold_left (fun f v => if (pg v =? nofZ 0)%num then f else (f + snd (segment_influence (K:=RNum) expf eight v (att_sc k w) (@mkVec RNum (nofZ 0) (nofZ 0), nofZ 0)))%num) (map (part_sc k s (k * s)) vs) (s * f) =
    s * fold_left (fun f v => if (pg v =? nofZ 0)%num then f else (f + snd (segment_influence (K:=RNum) expf eight v w (@mkVec RNum (nofZ 0) (nofZ 0), nofZ 0)))%num) vs f).
  { induction vs as [|v vs IH]; intros f; [reflexivity|]. cbn [fold_left map]. rewrite <- IH. f_equal. cbn [pg part_sc].
    change (@neqb RNum) with Reqb. change (@nofZ RNum 0) with 0. rewrite eqb_sc by lra. destruct (Reqb (pg v) 0); [reflexivity|].
    pose proof (segment_influence_sc (k * s) v w (vzero (K:=RNum), 0)) as X. cbn [fst snd] in X. rewrite sc_zero in X.
    change (@mkVec RNum 0 0) with (vzero (K:=RNum)). rewrite X. destruct (segment_influence _ _ v w _) as [T g]. cbn [snd]. unr. eqR. field. exact k0. }
  specialize (F 0). rewrite Rmult_0_r in F. exact F.
Qed.

(** ** Radii without merging *)

(** The distances are below the largest number in both units. *)
Section Radii.
Variables big tiny0 : R.

Definition seen_pair (b b' : best RNum) : Prop :=
  lv1 b' = lv1 b /\ lv2 b' = lv2 b /\
  (match lv1 b with None => res1 b = big /\ res1 b' = big | Some _ => res1 b < big /\ res1 b' < big /\ res1 b' = k * k * res1 b end) /\
  (match lv2 b with None => res2 b = big /\ res2 b' = big | Some _ => res2 b < big /\ res2 b' < big /\ res2 b' = k * k * res2 b end).

Lemma scan_sc nb vs i : (forall a b, In a vs -> In b vs -> dist2 (K:=RNum) (pr a) (pr b) < big /\ k * k * dist2 (K:=RNum) (pr a) (pr b) < big) ->
  seen_pair (scan (K:=RNum) big nb vs i) (scan (K:=RNum) big nb (map (part_sc k s (k * s)) vs) i).
Proof.
  intros B. assert (C : 0 < k * s) by (apply Rmult_lt_0_compat; assumption).
  unfold scan.
  assert (X : seen_pair (@mkBest RNum big None big None) (@mkBest RNum big None big None)) by (repeat split; reflexivity).
  revert X. generalize (@mkBest RNum big None big None) at 1 3. generalize (@mkBest RNum big None big None).
  induction nb as [|j nb IH]; intros b' b X; [exact X|]. cbn [fold_left]. apply IH. clear IH.
  unfold look. rewrite !nth_error_map. destruct (nth_error vs i) as [a|] eqn:Ei; cbn [option_map]; [|exact X].
  destruct (nth_error vs j) as [o|] eqn:Ej; cbn [option_map]; [|exact X]. cbn [part_sc pg pr].
  change (@neqb RNum) with Reqb. change (@nofZ RNum 0) with 0. rewrite eqb_sc by lra. destruct (Reqb (pg o) 0 || Nat.eqb i j); [exact X|].
  destruct (B a o (nth_error_In _ _ Ei) (nth_error_In _ _ Ej)) as [B1 B2]. clear B.
  assert (D : dist2 (K:=RNum) (sc k (pr a)) (sc k (pr o)) = k * k * dist2 (K:=RNum) (pr a) (pr o)) by (unfold dist2; rewrite vsub_sc, abs2_sc; reflexivity).
  rewrite D. set (d := dist2 (pr a) (pr o)) in *. clearbody d. change (Num.T RNum) with R in *. change (@nltb RNum) with Rltb.
  destruct X as (L1 & L2 & R1 & R2).
  assert (E1 : Rltb (k * k * d) (res1 b') = Rltb d (res1 b)).
  { destruct (lv1 b); [destruct R1 as (_ & _ & ->); apply ltb_sc, kk|destruct R1 as [-> ->]].
    transitivity true; [apply Rltb_true; exact B2|symmetry; apply Rltb_true; exact B1]. }
  assert (E2 : Rltb (k * k * d) (res2 b') = Rltb d (res2 b)).
  { destruct (lv2 b); [destruct R2 as (_ & _ & ->); apply ltb_sc, kk|destruct R2 as [-> ->]].
    transitivity true; [apply Rltb_true; exact B2|symmetry; apply Rltb_true; exact B1]. }
  rewrite E1, E2. destruct (Rltb d (res1 b)); [|destruct (Rltb d (res2 b))]; repeat split; cbn [lv1 lv2 res1 res2]; auto.
Qed.

(** A vortex with a neighbour. *)
Lemma epsv_sc nb vs i : (forall a b, In a vs -> In b vs -> dist2 (K:=RNum) (pr a) (pr b) < big /\ k * k * dist2 (K:=RNum) (pr a) (pr b) < big) ->
  lv1 (scan (K:=RNum) big nb vs i) <> None ->
  epsv (K:=RNum) big tiny0 nb (map (part_sc k s (k * s)) vs) i None =
  (k * fst (fst (epsv (K:=RNum) big tiny0 nb vs i None)), map (part_sc k s (k * s)) vs, 0%nat).
Proof.
  intros B N. destruct (scan_sc nb vs i B) as (L1 & L2 & R1 & R2). unfold epsv, radius. rewrite L1, L2.
  destruct (lv1 (scan _ nb vs i)); [|congruence].
  destruct (lv2 (scan _ nb vs i)); cbn [fst]; repeat (apply (f_equal2 pair); [|reflexivity]); unr.
  - destruct R2 as (_ & _ & ->). apply sqrt_sc. lra.
  - destruct R1 as (_ & _ & ->). apply sqrt_sc. lra.
Qed.
End Radii.
End Units.
