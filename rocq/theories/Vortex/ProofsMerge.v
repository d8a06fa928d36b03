(** Merging of particles. *)

From Coq Require Import ZArith Bool List Lia Permutation Reals Lra Psatz.
From Verif.Base Require Import Num.
From Verif.Body Require Import Model Spec.
From Verif.Vortex Require Import Model Spec Proofs.
Import ListNotations.

Section Set_.
Context {A : Type}.
Lemma set_nth_length n (a : A) : forall l, length (set_nth n a l) = length l.
Proof. induction n as [|n IH]; intros [|b t]; simpl; auto. Qed.
Lemma set_nth_same n (a : A) : forall l b, nth_error l n = Some b -> nth_error (set_nth n a l) n = Some a.
Proof. induction n as [|n IH]; intros [|c t] b; simpl; try discriminate; [reflexivity|]. apply IH. Qed.
Lemma set_nth_other n (a : A) : forall l m, m <> n -> nth_error (set_nth n a l) m = nth_error l m.
Proof.
  induction n as [|n IH]; intros [|c t] [|m] H; simpl; try reflexivity; try congruence. apply IH. congruence.
Qed.
Lemma set_nth_none n (a : A) : forall l, nth_error l n = None -> set_nth n a l = l.
Proof. induction n as [|n IH]; intros [|c t]; simpl; try discriminate; [reflexivity..|]. intros H. rewrite IH; auto. Qed.
End Set_.

Local Open Scope R_scope.

Lemma total_set {A} (f : A -> R) n a : forall l b, nth_error l n = Some b -> total f (set_nth n a l) = total f l - f b + f a.
Proof.
  induction n as [|n IH]; intros [|c t] b; simpl; try discriminate.
  - intros [= <-]. unfold total; simpl. lra.
  - intros H. unfold total in *. cbn [fold_right]. rewrite (IH t b H). lra.
Qed.

Definition b2n (b : bool) : nat := if b then 1 else 0.
Lemma count_set {A} (f : A -> bool) n a : forall l b, nth_error l n = Some b ->
  (length (filter f (set_nth n a l)) + b2n (f b) = length (filter f l) + b2n (f a))%nat.
Proof.
  induction n as [|n IH]; intros [|c t] b; simpl; try discriminate.
  - intros [= <-]. destruct (f a), (f c); simpl; lia.
  - intros H. specialize (IH t b H). destruct (f c); simpl; lia.
Qed.

Notation lives := (fun o : part RNum => negb (Reqb (pg o) 0)).

Lemma sign_R (g : R) : sign (K:=RNum) g = if Rlt_dec 0 g then 1%Z else if Rlt_dec g 0 then (-1)%Z else 0%Z.
Proof. unfold sign. change (@nltb RNum) with Rltb. change (@nofZ RNum) with IZR. unfold Rltb. destruct (Rlt_dec 0 g); [reflexivity|]. destruct (Rlt_dec g 0); reflexivity. Qed.

Lemma same_sign (a b : R) : sign (K:=RNum) a = sign (K:=RNum) b <-> (0 < a /\ 0 < b) \/ (a < 0 /\ b < 0) \/ (a = 0 /\ b = 0).
Proof.
  rewrite !sign_R. destruct (Rlt_dec 0 a), (Rlt_dec 0 b), (Rlt_dec a 0), (Rlt_dec b 0); split; intros H; try lra; try reflexivity; try discriminate H.
Qed.

Lemma same_sign_sum (a b : R) : a <> 0 -> sign (K:=RNum) a = sign (K:=RNum) b -> a + b <> 0 /\ b <> 0.
Proof. intros N E. apply same_sign in E. destruct E as [E|[E|[E _]]]; [split; lra..|]. contradiction. Qed.

(** ** One merge *)

Section One.
Variables (vs : list (part RNum)) (i j : nat) (a b : part RNum).
Hypothesis Ha : nth_error vs i = Some a.
Hypothesis Hb : nth_error vs j = Some b.
Hypothesis Hij : i <> j.

Lemma merge_eq : merge vs i j = set_nth j (emptied b) (set_nth i (merged a b) vs).
Proof. unfold merge. rewrite Ha, Hb. reflexivity. Qed.

Lemma merge_at_j : nth_error (set_nth i (merged a b) vs) j = Some b.
Proof. rewrite set_nth_other by congruence. exact Hb. Qed.

Lemma merge_total f : total f (merge vs i j) = total f vs - f a - f b + f (merged a b) + f (emptied b).
Proof.
  rewrite merge_eq. rewrite (total_set f j _ _ b merge_at_j). rewrite (total_set f i _ _ a Ha). lra.
Qed.

Lemma merge_circulation : circulation (merge vs i j) = circulation vs.
Proof. unfold circulation. rewrite merge_total. cbn. lra. Qed.

Lemma merge_alive : pg a <> 0 -> pg b <> 0 ->
  (alive (merge vs i j) + 1 <= alive vs <= alive (merge vs i j) + 2)%nat.
Proof.
  intros Na Nb. unfold alive. rewrite merge_eq.
  pose proof (count_set lives j (emptied b) _ _ merge_at_j) as C1.
  pose proof (count_set lives i (merged a b) _ _ Ha) as C2.
  assert (La : negb (Reqb (pg a) 0) = true) by (destruct (Reqb (pg a) 0) eqn:E; rbool; auto).
  assert (Lb : negb (Reqb (pg b) 0) = true) by (destruct (Reqb (pg b) 0) eqn:E; rbool; auto).
  assert (Le : negb (Reqb (pg (emptied b)) 0) = false) by (destruct (Reqb (pg (emptied b)) 0) eqn:E; rbool; auto; cbn in E; lra).
  cbv beta in C1, C2. rewrite ?La, ?Lb, ?Le in *. cbn [b2n] in C1, C2.
  destruct (negb (Reqb (pg (merged a b)) 0)); cbn [b2n] in C2; lia.
Qed.

(** With the same sign exactly one vanishes and the first moment is kept. *)
Lemma merge_same_sign : pg a <> 0 -> sign (K:=RNum) (pg a) = sign (K:=RNum) (pg b) ->
  moment_x (merge vs i j) = moment_x vs /\ moment_y (merge vs i j) = moment_y vs /\
  alive vs = (alive (merge vs i j) + 1)%nat.
Proof.
  intros Na E. destruct (same_sign_sum _ _ Na E) as [Ns Nb].
  unfold moment_x, moment_y. rewrite !merge_total. unfold merged. rewrite E, Z.eqb_refl.
  unfold vdiv, vscale, vadd. cbn [x y pr pg emptied].
  change (@nadd RNum) with Rplus. change (@nmul RNum) with Rmult. change (@ndiv RNum) with Rdiv. change (@nofZ RNum) with IZR.
  split; [|split].
  - cbn in *. field. exact Ns.
  - cbn in *. field. exact Ns.
  - unfold alive. rewrite merge_eq.
    pose proof (count_set lives j (emptied b) _ _ merge_at_j) as C1.
    pose proof (count_set lives i (merged a b) _ _ Ha) as C2.
    assert (La : negb (Reqb (pg a) 0) = true) by (destruct (Reqb (pg a) 0) eqn:X; rbool; auto).
    assert (Lb : negb (Reqb (pg b) 0) = true) by (destruct (Reqb (pg b) 0) eqn:X; rbool; auto).
    assert (Le : negb (Reqb (pg (emptied b)) 0) = false) by (destruct (Reqb (pg (emptied b)) 0) eqn:X; rbool; auto; cbn in X; lra).
    assert (Lm : negb (Reqb (pg (merged a b)) 0) = true) by (destruct (Reqb (pg (merged a b)) 0) eqn:X; rbool; auto; cbn in X; cbn in Ns; lra).
    cbv beta in C1, C2. rewrite ?La, ?Lb, ?Le, ?Lm in *. cbn [b2n] in C1, C2. lia.
Qed.

(** The merged particle lies between the two. *)
Lemma merge_between : pg a <> 0 -> exists t, 0 <= t <= 1 /\
  pr (merged a b) = @mkVec RNum ((1 - t) * x (pr a) + t * x (pr b)) ((1 - t) * y (pr a) + t * y (pr b)).
Proof.
  intros Na. unfold merged. destruct (Z.eqb (sign (pg a)) (sign (pg b))) eqn:E.
  - apply Z.eqb_eq in E. destruct (same_sign_sum _ _ Na E) as [Ns Nb]. apply same_sign in E.
    exists (pg b / (pg a + pg b)). split.
    + destruct E as [E|[E|[E _]]]; [| |contradiction].
      * split; [apply Rmult_le_pos; [lra|]; apply Rlt_le, Rinv_0_lt_compat; lra|].
        apply (Rmult_le_reg_r (pg a + pg b)); [lra|]. unfold Rdiv. rewrite Rmult_assoc, Rinv_l by exact Ns. lra.
      * assert (X : pg b / (pg a + pg b) = (- pg b) / (- (pg a + pg b))) by (field; lra). rewrite X.
        split; [apply Rmult_le_pos; [lra|]; apply Rlt_le, Rinv_0_lt_compat; lra|].
        apply (Rmult_le_reg_r (- (pg a + pg b))); [lra|]. unfold Rdiv. rewrite Rmult_assoc, Rinv_l by lra. lra.
    + cbn [pr]. unfold vdiv, vscale, vadd. cbn [x y].
      change (@nadd RNum) with Rplus. change (@nmul RNum) with Rmult. change (@ndiv RNum) with Rdiv. change (@nofZ RNum) with IZR.
      f_equal; match goal with |- @eq _ ?l1 ?l2 => change (@eq R l1 l2) end; cbn in *; field; exact Ns.
  - cbn [pr]. destruct (nltb (nabs (pg a)) (nabs (pg b))).
    + exists 1. split; [lra|]. destruct (pr b) as [u w]. cbn [x y]. f_equal; match goal with |- @eq _ ?l1 ?l2 => change (@eq R l1 l2) end; cbn; lra.
    + exists 0. split; [lra|]. destruct (pr a) as [u w]. cbn [x y]. f_equal; match goal with |- @eq _ ?l1 ?l2 => change (@eq R l1 l2) end; cbn; lra.
Qed.
End One.

(** ** Radius and merging of one particle *)

Section Eps.
Variables (big tiny : R).

Lemma neighbours_in (nb : list nat) (vs : list (part RNum)) i c : In c (neighbours (K:=RNum) big nb vs i) ->
  exists a b, In (fst c) nb /\ nth_error vs i = Some a /\ nth_error vs (fst c) = Some b /\ fst c <> i /\ pg b <> 0.
Proof.
  unfold neighbours. intros H. apply in_flat_map in H. destruct H as (j & Hj & H).
  destruct (nth_error vs i) as [a|]; [|destruct H]. destruct (nth_error vs j) as [b|] eqn:Eb; [|destruct H].
  destruct (neqb (pg b) (nofZ 0)) eqn:E; [destruct H|]. destruct (Nat.eqb i j) eqn:E'; [destruct H|].
  cbn [orb] in H. destruct (@nltb RNum _ big); [|destruct H]. destruct H as [<-|[]].
  apply Nat.eqb_neq in E'. change (@neqb RNum) with Reqb in E. change (@nofZ RNum) with IZR in E. rbool.
  exists a, b. cbn [fst]. auto 10.
Qed.

(** What one step may do to the particles. *)
Inductive step (nb : list nat) (vs : list (part RNum)) (i : nat) : list (part RNum) -> nat -> Prop :=
| Stay : step nb vs i vs 0
| Merge j a b : In j nb -> nth_error vs i = Some a -> nth_error vs j = Some b -> i <> j -> pg b <> 0 ->
    step nb vs i (merge vs i j) 1.

Lemma scan_lv1 nb vs i j : lv1 (scan (K:=RNum) big nb vs i) = Some j ->
  In j nb /\ exists a b, nth_error vs i = Some a /\ nth_error vs j = Some b /\ i <> j /\ pg b <> 0.
Proof.
  pose proof (@scan_best RNum big vs i (ordered_R big) nb) as B.
  assert (X : forall c, In c (neighbours (K:=RNum) big nb vs i) -> fst c = j ->
     In j nb /\ exists a b, nth_error vs i = Some a /\ nth_error vs j = Some b /\ i <> j /\ pg b <> 0).
  { intros c Hc <-. apply neighbours_in in Hc. destruct Hc as (a & b & ? & ? & ? & ? & ?). split; [assumption|].
    exists a, b. repeat split; auto. }
  destruct (neighbours (K:=RNum) big nb vs i) as [|c0 [|c1 t]] eqn:E.
  - simpl in B. rewrite B. discriminate.
  - simpl in B. rewrite B. cbn. intros [= <-]. apply (X c0); [left; reflexivity|reflexivity].
  - destruct B as (a' & b' & TN & ->). cbn. intros [= <-]. apply two_nearest_in in TN. apply (X a'); [apply TN|reflexivity].
Qed.

Lemma epsv_step nb vs i crit e vs' n : epsv (K:=RNum) big tiny nb vs i crit = (e, vs', n) -> step nb vs i vs' n.
Proof.
  unfold epsv. destruct (lv1 _) as [j|] eqn:E1; [|intros [= _ <- <-]; constructor].
  destruct (lv2 _) as [k|]; [|intros [= _ <- <-]; constructor].
  destruct crit as [c|]; [|intros [= _ <- <-]; constructor].
  destruct (scan_lv1 _ _ _ _ E1) as (Hn & a & b & Ha & Hb & Hij & Nb). rewrite Ha, Hb.
  destruct (nth_error vs k) as [d|]; [|intros [= _ <- <-]; constructor].
  destruct (_ || _); intros [= _ <- <-]; [|constructor]. econstructor; eassumption.
Qed.

Lemma epsh_step nb vs i crit e vs' n : epsh (K:=RNum) big tiny nb vs i crit = (e, vs', n) -> step nb vs i vs' n.
Proof.
  unfold epsh. destruct (_ || _); [intros [= _ <- <-]; constructor|].
  destruct crit as [c|]; [|intros [= _ <- <-]; constructor].
  destruct (lv1 _) as [j|] eqn:E1; [|intros [= _ <- <-]; constructor].
  destruct (scan_lv1 _ _ _ _ E1) as (Hn & a & b & Ha & Hb & Hij & Nb).
  destruct (nltb _ c); intros [= _ <- <-]; [|constructor]. econstructor; eassumption.
Qed.
End Eps.

(** ** All particles *)

Section Calc.
Variables (big : R) (third merge_c : R).
Variable eps : list nat -> list (part RNum) -> nat -> option R -> R * list (part RNum) * nat.
Hypothesis Eps : forall nb vs i crit e vs' n, eps nb vs i crit = (e, vs', n) -> step nb vs i vs' n.

(** What all steps keep. *)
Definition keeps (vs vs' : list (part RNum)) (n : nat) : Prop :=
  circulation vs' = circulation vs /\ (alive vs' + n <= alive vs <= alive vs' + 2 * n)%nat /\ length vs' = length vs.

Lemma keeps_trans a b c n m : keeps a b n -> keeps b c m -> keeps a c (n + m).
Proof. unfold keeps. intros (H1 & H2 & H3) (H4 & H5 & H6). split; [lra|]. split; [lia|lia]. Qed.

Definition touch (i : nat) (e : R) (vs : list (part RNum)) : list (part RNum) :=
  match nth_error vs i with
  | None => vs
  | Some a => set_nth i (@mkPart RNum (pr a) (pg a) (pv a) e) vs
  end.

Lemma touch_total i e vs (f : part RNum -> R) : (forall a e', f (@mkPart RNum (pr a) (pg a) (pv a) e') = f a) ->
  total f (touch i e vs) = total f vs.
Proof.
  intros H. unfold touch. destruct (nth_error vs i) as [a|] eqn:E; [|reflexivity].
  rewrite (total_set f i _ _ a E), H. lra.
Qed.
Lemma touch_alive i e vs : alive (touch i e vs) = alive vs.
Proof.
  unfold touch, alive. destruct (nth_error vs i) as [a|] eqn:E; [|reflexivity].
  pose proof (count_set lives i (@mkPart RNum (pr a) (pg a) (pv a) e) _ _ E) as C. cbn [pg] in C. lia.
Qed.
Lemma touch_length i e vs : length (touch i e vs) = length vs.
Proof. unfold touch. destruct (nth_error vs i); [apply set_nth_length|reflexivity]. Qed.

Lemma merge_length vs i j : length (merge (K:=RNum) vs i j) = length vs.
Proof. unfold merge. destruct (nth_error vs i); [|reflexivity]. destruct (nth_error vs j); [|reflexivity]. rewrite !set_nth_length. reflexivity. Qed.

Lemma calc_one_cases nb crit low vs n i vs' n' : calc_one (K:=RNum) eps nb crit low (vs, n) i = (vs', n') ->
  (vs' = vs /\ n' = n) \/
  exists a e m vs1, nth_error vs i = Some a /\ pg a <> 0 /\ eps nb vs i crit = (e, vs1, m) /\
    vs' = touch i (1 / cmax (K:=RNum) e low) vs1 /\ n' = (n + m)%nat.
Proof.
  unfold calc_one. destruct (nth_error vs i) as [a|] eqn:Ea; [|intros [= <- <-]; auto].
  destruct (neqb (pg a) (nofZ 0)) eqn:Z; [intros [= <- <-]; auto|].
  change (@neqb RNum) with Reqb in Z. change (@nofZ RNum) with IZR in *. rbool.
  destruct (eps nb vs i crit) as [[e vs1] m] eqn:E.
  intros H. right. exists a, e, m, vs1. split; [reflexivity|]. split; [exact Z|]. split; [reflexivity|].
  unfold touch. destruct (nth_error vs1 i) as [a'|]; inversion H; auto.
Qed.

Lemma calc_one_keeps nb crit low vs n i vs' n' : calc_one (K:=RNum) eps nb crit low (vs, n) i = (vs', n') ->
  exists m, n' = (n + m)%nat /\ keeps vs vs' m.
Proof.
  intros H. destruct (calc_one_cases _ _ _ _ _ _ _ _ H) as [[-> ->]|(a & e & m & vs1 & Ea & Z & E & -> & ->)].
  - exists 0%nat. split; [lia|]. split; [reflexivity|]. lia.
  - exists m. split; [reflexivity|]. apply Eps in E.
    assert (KK : keeps vs vs1 m).
    { destruct E as [|j a0 b Hn Ha Hb Hij Nb]; [split; [reflexivity|lia]|].
      assert (a0 = a) by congruence. subst a0. split; [eapply merge_circulation; eassumption|]. split; [|apply merge_length].
      pose proof (merge_alive vs i j a b Ha Hb Hij Z Nb). lia. }
    destruct KK as (K1 & K2 & K3). split; [|split].
    + rewrite <- K1. apply touch_total. reflexivity.
    + rewrite touch_alive. exact K2.
    + rewrite touch_length. exact K3.
Qed.

Lemma calc_cell_keeps bodies dm vs n c vs' n' : calc_cell (K:=RNum) big third merge_c eps bodies dm (vs, n) c = (vs', n') ->
  exists m, n' = (n + m)%nat /\ keeps vs vs' m.
Proof.
  unfold calc_cell. generalize (criterion (K:=RNum) merge_c dm (nearest (K:=RNum) big bodies c (centre c)) (centre c)).
  generalize (restriction (K:=RNum) third (nearest (K:=RNum) big bodies c (centre c))). intros low crit.
  revert vs n. induction (mine c) as [|i t IH]; intros vs n; cbn [fold_left].
  - intros [= <- <-]. exists 0%nat. split; [lia|]. split; [reflexivity|]. lia.
  - destruct (calc_one (K:=RNum) eps (near c) crit low (vs, n) i) as [vs1 n1] eqn:E. intros H.
    apply calc_one_keeps in E. destruct E as (m1 & -> & K1). apply IH in H. destruct H as (m2 & -> & K2).
    exists (m1 + m2)%nat. split; [lia|]. eapply keeps_trans; eassumption.
Qed.

Lemma calc_epsilon_keeps bodies dm cells vs vs' n : calc_epsilon (K:=RNum) big third merge_c eps bodies dm cells vs = (vs', n) ->
  keeps vs vs' n.
Proof.
  unfold calc_epsilon.
  assert (G : forall vs k, fold_left (calc_cell (K:=RNum) big third merge_c eps bodies dm) cells (vs, k) = (vs', n) -> exists m, n = (k + m)%nat /\ keeps vs vs' m).
  { clear vs. induction cells as [|c t IH]; intros vs k; cbn [fold_left].
    - intros [= <- <-]. exists 0%nat. split; [lia|]. split; [reflexivity|]. lia.
    - destruct (calc_cell _ _ _ _ _ _ _ _) as [vs1 n1] eqn:E. intros H.
      apply calc_cell_keeps in E. destruct E as (m1 & -> & K1). apply IH in H. destruct H as (m2 & -> & K2).
      exists (m1 + m2)%nat. split; [lia|]. eapply keeps_trans; eassumption. }
  intros H. destruct (G vs 0%nat H) as (m & -> & Kp). exact Kp.
Qed.

(** ** No negative circulation: the first moment is kept as well *)

Definition nonneg (vs : list (part RNum)) : Prop := forall o, In o vs -> 0 <= pg o.
Definition keeps2 (vs vs' : list (part RNum)) (n : nat) : Prop :=
  nonneg vs' /\ moment_x vs' = moment_x vs /\ moment_y vs' = moment_y vs /\ alive vs = (alive vs' + n)%nat.

Lemma set_nth_in {A} n (a : A) : forall l o, In o (set_nth n a l) -> o = a \/ In o l.
Proof. induction n as [|n IH]; intros [|b t] o; simpl; auto; intros [H|H]; auto. apply IH in H. tauto. Qed.

Lemma calc_one_keeps2 nb crit low vs n i vs' n' : nonneg vs -> calc_one (K:=RNum) eps nb crit low (vs, n) i = (vs', n') ->
  exists m, n' = (n + m)%nat /\ keeps2 vs vs' m.
Proof.
  intros NN H. destruct (calc_one_cases _ _ _ _ _ _ _ _ H) as [[-> ->]|(a & e & m & vs1 & Ea & Z & E & -> & ->)].
  - exists 0%nat. split; [lia|]. repeat split; auto.
  - exists m. split; [reflexivity|]. apply Eps in E.
    assert (KK : keeps2 vs vs1 m).
    { destruct E as [|j a0 b Hn Ha Hb Hij Nb]; [repeat split; auto|].
      assert (a0 = a) by congruence. subst a0.
      pose proof (NN a (nth_error_In _ _ Ha)). pose proof (NN b (nth_error_In _ _ Hb)).
      assert (SS : sign (K:=RNum) (pg a) = sign (K:=RNum) (pg b)) by (apply same_sign; cbn in *; lra).
      destruct (merge_same_sign vs i j a b Ha Hb Hij Z SS) as (M1 & M2 & M3).
      split; [|auto]. intros o Ho. rewrite (merge_eq vs i j a b Ha Hb) in Ho. apply set_nth_in in Ho.
      destruct Ho as [->|Ho]; [cbn; lra|]. apply set_nth_in in Ho. destruct Ho as [->|Ho]; [|apply NN, Ho]. cbn in *. lra. }
    destruct KK as (K0 & K1 & K2 & K3). split; [|split; [|split]].
    + unfold touch. destruct (nth_error vs1 i) as [a'|] eqn:E'; [|exact K0]. intros o Ho. apply set_nth_in in Ho.
      destruct Ho as [->|Ho]; [|apply K0, Ho]. cbn. apply K0. eapply nth_error_In, E'.
    + rewrite <- K1. apply touch_total. reflexivity.
    + rewrite <- K2. apply touch_total. reflexivity.
    + rewrite touch_alive. exact K3.
Qed.

Lemma keeps2_trans a b c n m : keeps2 a b n -> keeps2 b c m -> keeps2 a c (n + m).
Proof. unfold keeps2. intros (H1 & H2 & H3 & H4) (H5 & H6 & H7 & H8). split; [assumption|]. split; [lra|]. split; [lra|lia]. Qed.

Lemma calc_cell_keeps2 bodies dm vs n c vs' n' : nonneg vs -> calc_cell (K:=RNum) big third merge_c eps bodies dm (vs, n) c = (vs', n') ->
  exists m, n' = (n + m)%nat /\ keeps2 vs vs' m.
Proof.
  unfold calc_cell. generalize (criterion (K:=RNum) merge_c dm (nearest (K:=RNum) big bodies c (centre c)) (centre c)).
  generalize (restriction (K:=RNum) third (nearest (K:=RNum) big bodies c (centre c))). intros low crit.
  revert vs n. induction (mine c) as [|i t IH]; intros vs n NN; cbn [fold_left].
  - intros [= <- <-]. exists 0%nat. split; [lia|]. repeat split; auto.
  - destruct (calc_one (K:=RNum) eps (near c) crit low (vs, n) i) as [vs1 n1] eqn:E. intros H.
    apply calc_one_keeps2 in E; [|exact NN]. destruct E as (m1 & -> & K1). apply IH in H; [|apply K1]. destruct H as (m2 & -> & K2).
    exists (m1 + m2)%nat. split; [lia|]. eapply keeps2_trans; eassumption.
Qed.

Lemma calc_epsilon_keeps2 bodies dm cells vs vs' n : nonneg vs ->
  calc_epsilon (K:=RNum) big third merge_c eps bodies dm cells vs = (vs', n) -> keeps2 vs vs' n.
Proof.
  unfold calc_epsilon.
  assert (G : forall vs k, nonneg vs -> fold_left (calc_cell (K:=RNum) big third merge_c eps bodies dm) cells (vs, k) = (vs', n) -> exists m, n = (k + m)%nat /\ keeps2 vs vs' m).
  { clear vs. induction cells as [|c t IH]; intros vs k NN; cbn [fold_left].
    - intros [= <- <-]. exists 0%nat. split; [lia|]. repeat split; auto.
    - destruct (calc_cell _ _ _ _ _ _ _ _) as [vs1 n1] eqn:E. intros H.
      apply calc_cell_keeps2 in E; [|exact NN]. destruct E as (m1 & -> & K1). apply IH in H; [|apply K1]. destruct H as (m2 & -> & K2).
      exists (m1 + m2)%nat. split; [lia|]. eapply keeps2_trans; eassumption. }
  intros NN H. destruct (G vs 0%nat NN H) as (m & -> & Kp). exact Kp.
Qed.
End Calc.
