(** Core radii and the nearest segment. *)

From Coq Require Import ZArith Bool List Lia Permutation Reals Lra.
From Flocq Require Import Core.Core IEEE754.BinarySingleNaN.
From Verif.Base Require Import Num F64 F64Order.
From Verif.Body Require Import Model Spec.
From Verif.Vortex Require Import Model Spec Proofs ProofsMerge.
Import ListNotations.

(** Equality with the largest number. *)
Definition eq_ok {K : Num} (big : K) : Prop :=
  neqb big big = true /\ forall a : K, nltb a big = true -> neqb a big = false.

Lemma eq_ok_R big : @eq_ok RNum big.
Proof.
  unfold eq_ok. change (@neqb RNum) with Reqb. change (@nltb RNum) with Rltb. split.
  - apply Reqb_true. reflexivity.
  - intros a H. apply Rltb_true in H. apply Reqb_false. lra.
Qed.

Lemma eq_ok_F64 big : is_nan big = false -> @eq_ok F64 big.
Proof.
  intros N. unfold eq_ok. change (@neqb F64) with (@Beqb 53 1024). change (@nltb F64) with (@Bltb 53 1024). split.
  - rewrite Beqb_refl, N. reflexivity.
  - intros a. unfold Bltb, Beqb, SpecFloat.SFltb, SpecFloat.SFeqb.
    destruct (SpecFloat.SFcompare _ _) as [[]|]; intros H; try reflexivity; discriminate H.
Qed.

Section Radius.
Context {K : Num}.
Variables (big tiny third merge_c : K).
Hypothesis Ord : ordered big.

(** Positions and circulations; velocities and radii play no part. *)
Definition shape (vs : list (part K)) : list (vec K * K) := map (fun o => (pr o, pg o)) vs.

Lemma shape_nth vs vs' i a : shape vs = shape vs' -> nth_error vs i = Some a ->
  exists a', nth_error vs' i = Some a' /\ pr a' = pr a /\ pg a' = pg a.
Proof.
  intros H E. assert (X : nth_error (shape vs') i = Some (pr a, pg a)).
  { rewrite <- H. unfold shape. rewrite nth_error_map, E. reflexivity. }
  unfold shape in X. rewrite nth_error_map in X. destruct (nth_error vs' i) as [a'|]; [|discriminate X].
  cbn in X. inversion X. exists a'. auto.
Qed.
Lemma shape_none vs vs' i : shape vs = shape vs' -> nth_error vs i = None -> nth_error vs' i = None.
Proof.
  intros H E. destruct (nth_error vs' i) as [a|] eqn:E'; [|reflexivity].
  destruct (shape_nth vs' vs i a (eq_sym H) E') as (a' & X & _). congruence.
Qed.

Lemma neighbours_shape nb vs vs' i : shape vs = shape vs' -> neighbours big nb vs i = neighbours big nb vs' i.
Proof.
  intros H. unfold neighbours. induction nb as [|j t IH]; [reflexivity|]. cbn [flat_map]. rewrite IH. f_equal.
  destruct (nth_error vs i) as [a|] eqn:Ea.
  - destruct (shape_nth _ _ _ _ H Ea) as (a' & -> & Hr & Hg).
    destruct (nth_error vs j) as [b|] eqn:Eb.
    + destruct (shape_nth _ _ _ _ H Eb) as (b' & -> & Hr' & Hg'). rewrite Hr, Hr', Hg'. reflexivity.
    + rewrite (shape_none _ _ _ H Eb). reflexivity.
  - rewrite (shape_none _ _ _ H Ea). reflexivity.
Qed.

Lemma set_nth_shape vs i a a' : nth_error vs i = Some a -> pr a' = pr a -> pg a' = pg a -> shape (set_nth i a' vs) = shape vs.
Proof.
  unfold shape. revert i. induction vs as [|o t IH]; intros [|i]; simpl; try discriminate.
  - intros [= ->] -> ->. reflexivity.
  - intros H1 H2 H3. f_equal. apply IH; assumption.
Qed.

(** ** One particle *)

Lemma epsv_second nb vs i crit e vs' n : epsv big tiny nb vs i crit = (e, vs', n) ->
  second_distance tiny (neighbours big nb vs' i) e.
Proof.
  intros H. assert (R0 : forall w, second_distance tiny (neighbours big nb w i) (radius tiny (scan big nb w i))) by (intros; apply radius_second, Ord).
  unfold epsv in H. pose proof (R0 vs) as R1. unfold radius in R1.
  destruct (lv1 (scan big nb vs i)) eqn:E1; [|inversion H; subst; unfold radius in *; rewrite E1 in *; exact R1].
  destruct (lv2 (scan big nb vs i)) eqn:E2; [|inversion H; subst; unfold radius in *; rewrite E1, E2 in *; exact R1].
  destruct crit as [c|]; [|inversion H; subst; unfold radius in *; rewrite E1, E2 in *; exact R1].
  assert (R2 : second_distance tiny (neighbours big nb vs i) (radius tiny (scan big nb vs i))) by apply R0.
  destruct (nth_error vs i); [|inversion H; subst; exact R2].
  destruct (nth_error vs n0); [|inversion H; subst; exact R2].
  destruct (nth_error vs n1); [|inversion H; subst; exact R2].
  destruct (_ || _); inversion H; subst; [apply R0|exact R1].
Qed.

(** For the heat particles the code compares with the largest number. *)
Lemma hradius_radius nb vs i : eq_ok big -> hradius big tiny (scan big nb vs i) = radius tiny (scan big nb vs i).
Proof.
  intros (Q1 & Q2). pose proof (scan_best big vs i Ord nb) as B. pose proof (neighbours_below big vs i nb) as G.
  destruct (neighbours big nb vs i) as [|a [|b t]] eqn:E.
  - simpl in B. rewrite B. unfold hradius, radius. cbn. rewrite Q1. reflexivity.
  - simpl in B. rewrite B. unfold hradius, radius. cbn. rewrite Q1, (Q2 (snd a)); [reflexivity|]. apply G. left. reflexivity.
  - destruct B as (a' & b' & TN & ->). apply two_nearest_in in TN. destruct TN. unfold hradius, radius. cbn.
    rewrite (Q2 (snd a')), (Q2 (snd b')) by (apply G; assumption). reflexivity.
Qed.

Lemma epsh_second nb vs i crit e vs' n : eq_ok big -> epsh big tiny nb vs i crit = (e, vs', n) ->
  second_distance tiny (neighbours big nb vs' i) e.
Proof.
  intros Q H. assert (R0 : forall w, second_distance tiny (neighbours big nb w i) (radius tiny (scan big nb w i))) by (intros; apply radius_second, Ord).
  unfold epsh in H. rewrite ?(hradius_radius _ _ _ Q) in H.
  destruct (_ || _) eqn:E in H; [inversion H; subst; apply R0|].
  apply orb_false_iff in E. destruct E as [E1 E2].
  assert (R2 : second_distance tiny (neighbours big nb vs i) (nsqrt (res2 (scan big nb vs i)))).
  { pose proof (R0 vs) as X. rewrite <- (hradius_radius nb vs i Q) in X. unfold hradius in X. rewrite E1, E2 in X. exact X. }
  destruct crit as [c|]; [|inversion H; subst; exact R2].
  destruct (lv1 _); [|inversion H; subst; exact R2].
  destruct (nltb _ c); inversion H; subst; [|exact R2]. rewrite hradius_radius by exact Q. apply R0.
Qed.

Section Calc.
Variable eps : list nat -> list (part K) -> nat -> option K -> K * list (part K) * nat.
Hypothesis Eps : forall nb vs i crit e vs' n, eps nb vs i crit = (e, vs', n) ->
  second_distance tiny (neighbours big nb vs' i) e.
Hypothesis Keep : forall nb vs i crit e vs' n, eps nb vs i crit = (e, vs', n) -> length vs' = length vs.

Lemma calc_one_radius nb crit low vs n i a vs' n' : nth_error vs i = Some a -> neqb (pg a) (nofZ 0) = false ->
  calc_one eps nb crit low (vs, n) i = (vs', n') ->
  exists a' e, nth_error vs' i = Some a' /\ second_distance tiny (neighbours big nb vs' i) e /\
    pe a' = ndiv (nofZ 1) (cmax e low).
Proof.
  intros Ea Z H. unfold calc_one in H. rewrite Ea, Z in H.
  destruct (eps nb vs i crit) as [[e vs1] m] eqn:E. pose proof (Eps _ _ _ _ _ _ _ E) as S. pose proof (Keep _ _ _ _ _ _ _ E) as L.
  assert (I : (i < length vs1)%nat). { rewrite L. apply nth_error_Some. rewrite Ea. discriminate. }
  destruct (nth_error vs1 i) as [a'|] eqn:E'; [|apply nth_error_None in E'; lia].
  inversion H; subst. exists (mkPart (pr a') (pg a') (pv a') (ndiv (nofZ 1) (cmax e low))), e.
  split; [eapply set_nth_same, E'|]. split; [|reflexivity].
  rewrite (neighbours_shape nb _ vs1 i); [exact S|]. eapply set_nth_shape; [exact E'|reflexivity..].
Qed.

(** ** All particles without merging *)

Hypothesis Still : forall nb vs i, exists e, eps nb vs i None = (e, vs, 0%nat).

Lemma calc_one_still nb low vs n i vs' n' : calc_one eps nb None low (vs, n) i = (vs', n') ->
  shape vs' = shape vs /\ n' = n /\ forall j, j <> i -> nth_error vs' j = nth_error vs j.
Proof.
  unfold calc_one. destruct (nth_error vs i) as [a|] eqn:Ea; [|intros [= <- <-]; auto].
  destruct (neqb _ _); [intros [= <- <-]; auto|]. destruct (Still nb vs i) as [e ->]. rewrite Ea.
  intros [= <- <-]. split; [eapply set_nth_shape; [exact Ea|reflexivity..]|]. split; [lia|].
  intros j Hj. apply set_nth_other, Hj.
Qed.

Definition good (nb : list nat) (low : K) (vs vs' : list (part K)) (i : nat) : Prop :=
  forall a, nth_error vs i = Some a -> neqb (pg a) (nofZ 0) = false ->
  exists a' e, nth_error vs' i = Some a' /\ second_distance tiny (neighbours big nb vs i) e /\ pe a' = ndiv (nofZ 1) (cmax e low).

Lemma good_still nb low vs1 vs vs' i : shape vs1 = shape vs -> nth_error vs1 i = nth_error vs i -> good nb low vs1 vs' i -> good nb low vs vs' i.
Proof.
  intros S E G a Ea Z. rewrite <- E in Ea. destruct (G a Ea Z) as (a' & e & H1 & H2 & H3). exists a', e.
  rewrite (neighbours_shape nb vs vs1 i) by auto. auto.
Qed.

Lemma mine_radius nb low l : NoDup l -> forall vs n vs' n', fold_left (calc_one eps nb None low) l (vs, n) = (vs', n') ->
  shape vs' = shape vs /\ n' = n /\ (forall j, ~ In j l -> nth_error vs' j = nth_error vs j) /\
  forall i, In i l -> good nb low vs vs' i.
Proof.
  intros ND. induction ND as [|i l Hi ND IH]; intros vs n vs' n'; cbn [fold_left].
  - intros [= <- <-]. split; [reflexivity|]. split; [reflexivity|]. split; [reflexivity|]. intros i [].
  - destruct (calc_one eps nb None low (vs, n) i) as [vs1 n1] eqn:E. intros H.
    destruct (calc_one_still _ _ _ _ _ _ _ E) as (S1 & -> & O1).
    destruct (IH _ _ _ _ H) as (S2 & -> & O2 & G2).
    split; [congruence|]. split; [reflexivity|]. split.
    + intros j Hj. rewrite O2 by (intros C; apply Hj; right; exact C). apply O1. intros ->. apply Hj. left; reflexivity.
    + intros j [->|Hj].
      * intros a Ea Z. destruct (calc_one_radius nb None low vs n j a vs1 n Ea Z E) as (a' & e & H1 & H2 & H3).
        exists a', e. rewrite (O2 j Hi). split; [exact H1|]. split; [|exact H3].
        rewrite (neighbours_shape nb vs vs1 j) by auto. exact H2.
      * eapply good_still; [exact S1| |apply G2, Hj]. apply O1. intros ->. contradiction.
Qed.

Variable bodies : list (list (att K)).

Lemma cells_radius cells : NoDup (flat_map (fun c => mine c) cells) -> forall vs n vs' n',
  fold_left (calc_cell big third merge_c eps bodies false) cells (vs, n) = (vs', n') ->
  shape vs' = shape vs /\ n' = n /\ (forall j, ~ In j (flat_map (fun c => mine c) cells) -> nth_error vs' j = nth_error vs j) /\
  forall c i, In c cells -> In i (mine c) -> good (near c) (restriction third (nearest big bodies c (centre c))) vs vs' i.
Proof.
  induction cells as [|c l IH]; intros ND vs n vs' n'; cbn [fold_left flat_map].
  - intros [= <- <-]. repeat split. intros c i [].
  - destruct (calc_cell _ _ _ _ _ _ _ c) as [vs1 n1] eqn:E. intros H. cbn [flat_map] in ND.
    assert (N1 : NoDup (mine c)). { clear -ND. induction (mine c); [constructor|]. inversion ND; subst. constructor; [|auto]. intros X. apply H1, in_or_app. auto. }
    assert (N2 : NoDup (flat_map (fun c => mine c) l)). { clear -ND. induction (mine c); [exact ND|]. inversion ND; subst. auto. }
    assert (N3 : forall j, In j (mine c) -> ~ In j (flat_map (fun c => mine c) l)).
    { clear -ND. induction (mine c) as [|a t IHt]; [intros j []|]. inversion ND; subst. intros j [->|Hj]; [|apply IHt; assumption].
      intros X. apply H1, in_or_app. auto. }
    unfold calc_cell in E. unfold criterion in E.
    destruct (mine_radius _ _ _ N1 _ _ _ _ E) as (S1 & -> & O1 & G1).
    destruct (IH N2 _ _ _ _ H) as (S2 & -> & O2 & G2).
    split; [congruence|]. split; [reflexivity|]. split.
    + intros j Hj. rewrite O2 by (intros C; apply Hj, in_or_app; auto). apply O1. intros C. apply Hj, in_or_app. auto.
    + intros d i [->|Hd] Hi.
      * intros a Ea Z. destruct (G1 i Hi a Ea Z) as (a' & e & H1 & H2 & H3). exists a', e. rewrite (O2 i (N3 i Hi)). auto.
      * eapply good_still; [exact S1| |apply (G2 d i Hd Hi)]. apply O1. intros C. apply (N3 i C). apply in_flat_map. exists d. auto.
Qed.
End Calc.

Lemma epsv_still nb vs i : exists e, epsv big tiny nb vs i None = (e, vs, 0%nat).
Proof.
  unfold epsv. destruct (lv1 _); [|eexists; reflexivity]. destruct (lv2 _); eexists; reflexivity.
Qed.
Lemma epsh_still nb vs i : exists e, epsh big tiny nb vs i None = (e, vs, 0%nat).
Proof. unfold epsh. destruct (_ || _); eexists; reflexivity. Qed.

Lemma merge_length vs i j : length (merge (K:=K) vs i j) = length vs.
Proof. unfold merge. destruct (nth_error vs i); [|reflexivity]. destruct (nth_error vs j); [|reflexivity]. rewrite !set_nth_length. reflexivity. Qed.
Lemma epsv_length nb vs i crit e vs' n : epsv big tiny nb vs i crit = (e, vs', n) -> length vs' = length vs.
Proof.
  unfold epsv. destruct (lv1 _); [|intros [= _ <- _]; reflexivity]. destruct (lv2 _); [|intros [= _ <- _]; reflexivity].
  destruct crit; [|intros [= _ <- _]; reflexivity].
  destruct (nth_error vs i); [|intros [= _ <- _]; reflexivity]. destruct (nth_error vs n0); [|intros [= _ <- _]; reflexivity].
  destruct (nth_error vs n1); [|intros [= _ <- _]; reflexivity]. destruct (_ || _); intros [= _ <- _]; [apply merge_length|reflexivity].
Qed.
Lemma epsh_length nb vs i crit e vs' n : epsh big tiny nb vs i crit = (e, vs', n) -> length vs' = length vs.
Proof.
  unfold epsh. destruct (_ || _); [intros [= _ <- _]; reflexivity|]. destruct crit; [|intros [= _ <- _]; reflexivity].
  destruct (lv1 _); [|intros [= _ <- _]; reflexivity]. destruct (nltb _ _); intros [= _ <- _]; [apply merge_length|reflexivity].
Qed.

(** ** The nearest segment *)

Variable p : vec K.
Notation far a := (dist2 p (Model.r a)).

Definition nearest_of (l : list (att K)) (s : K * option (att K)) : Prop :=
  (s = (big, None) /\ forall a, In a l -> nltb (far a) big = false) \/
  (exists a, s = (far a, Some a) /\ In a l /\ nltb (far a) big = true /\ forall b, In b l -> nltb (far b) (far a) = false).

Lemma nearer_fold l : nearest_of l (fold_left (nearer p) l (big, None)).
Proof.
  destruct Ord as (TR & AS & _).
  assert (IR : forall a : K, nltb a a = false). { intros a. destruct (nltb a a) eqn:E; [|reflexivity]. rewrite (AS _ _ E) in E. discriminate E. }
  induction l as [|a l IH] using rev_ind; [left; split; [reflexivity|intros a []]|].
  rewrite fold_left_app. cbn [fold_left]. unfold nearer at 1. destruct IH as [[-> F]|(b & -> & Hb & B & F)]; cbn [fst].
  - destruct (nltb (far a) big) eqn:E.
    + right. exists a. split; [reflexivity|]. split; [apply in_or_app; right; left; reflexivity|]. split; [exact E|].
      intros c Hc. apply in_app_or in Hc. destruct Hc as [Hc|[<-|[]]]; [|apply IR].
      destruct (nltb (far c) (far a)) eqn:X; [|reflexivity]. rewrite <- (F c Hc). symmetry. eapply TR; eassumption.
    + left. split; [reflexivity|]. intros c Hc. apply in_app_or in Hc. destruct Hc as [Hc|[<-|[]]]; auto.
  - destruct (nltb (far a) (far b)) eqn:E.
    + right. exists a. split; [reflexivity|]. split; [apply in_or_app; right; left; reflexivity|]. split; [eapply TR; eassumption|].
      intros c Hc. apply in_app_or in Hc. destruct Hc as [Hc|[<-|[]]]; [|apply IR].
      destruct (nltb (far c) (far a)) eqn:X; [|reflexivity]. rewrite <- (F c Hc). symmetry. eapply TR; eassumption.
    + right. exists b. split; [reflexivity|]. split; [apply in_or_app; left; exact Hb|]. split; [exact B|].
      intros c Hc. apply in_app_or in Hc. destruct Hc as [Hc|[<-|[]]]; auto.
Qed.

(** The fallback: some segment of a body, none nearer among the first ones. *)
Lemma skim_mono l : forall k s, nltb (fst s) (fst (skim p k s l)) = false.
Proof.
  destruct Ord as (TR & AS & _).
  assert (IR : forall a : K, nltb a a = false). { intros a. destruct (nltb a a) eqn:E; [|reflexivity]. rewrite (AS _ _ E) in E. discriminate E. }
  induction l as [|a l IH]; intros k s; cbn [skim]; [apply IR|]. destruct k as [|k]; [|apply IH].
  cbv zeta. destruct (nltb (far a) (fst s)) eqn:E; [|apply IH].
  specialize (IH 0%nat (far a, Some a)). cbn [fst] in IH.
  destruct (nltb (fst s) _) eqn:X; [|reflexivity]. rewrite <- IH. symmetry. eapply TR; eassumption.
Qed.

Definition from (all : list (att K)) (s : K * option (att K)) : Prop :=
  s = (big, None) \/ exists a, s = (far a, Some a) /\ In a all.

Lemma skim_from all l : incl l all -> forall k s, from all s -> from all (skim p k s l).
Proof.
  induction l as [|a l IH]; intros I k s F; cbn [skim]; [exact F|].
  assert (I' : incl l all) by (intros z Hz; apply I; right; exact Hz).
  destruct k as [|k]; [|apply IH; assumption]. cbv zeta. destruct (nltb _ _); apply IH; auto.
  right. exists a. split; [reflexivity|]. apply I. left; reflexivity.
Qed.

Lemma skims_from bodies : forall s all, incl (concat bodies) all -> from all s -> from all (fold_left (skim p 0) bodies s).
Proof.
  induction bodies as [|l t IH]; intros s all I F; cbn [fold_left]; [exact F|]. apply IH.
  - intros z Hz. apply I. cbn. apply in_or_app. auto.
  - apply skim_from; [|exact F]. intros z Hz. apply I. cbn. apply in_or_app. auto.
Qed.

Lemma nearest_walls bodies c : (exists w, In w (walls c) /\ nltb (far w) big = true) ->
  exists a, nearest big bodies c p = Some a /\ In a (walls c) /\ forall b, In b (walls c) -> nltb (far b) (far a) = false.
Proof.
  intros (w & Hw & W). unfold nearest. destruct (nearer_fold (walls c)) as [[-> F]|(b & -> & Hb & B & F)].
  - rewrite (F w Hw) in W. discriminate W.
  - cbn. exists b. auto.
Qed.

Lemma nearest_some bodies c a : nearest big bodies c p = Some a -> In a (walls c) \/ In a (concat bodies).
Proof.
  unfold nearest. destruct (nearer_fold (walls c)) as [[-> F]|(b & -> & Hb & B & F)]; cbn [snd]; [|intros [= <-]; auto].
  destruct (skims_from bodies (big, None) (concat bodies) (incl_refl _) (or_introl eq_refl)) as [->|(b & -> & Hb)]; cbn; [discriminate|].
  intros [= <-]. auto.
Qed.
End Radius.
