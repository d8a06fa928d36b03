(** Squared distances for the fields. *)

From Coq Require Import ZArith Bool List Lia Permutation Reals Lra.
From Flocq Require Import Core.Core IEEE754.BinarySingleNaN.
From Verif.Base Require Import Num F64 F64Order.
From Verif.Body Require Import Model Spec.
From Verif.Vortex Require Import Model Spec Proofs.
Import ListNotations.

(** A sum of two squares is not minus infinity. *)
Definition nonneg64 (z : f64) : Prop := is_nan z = true \/ Bsign z = false.
Lemma square_nonneg (a : f64) : nonneg64 (Bmult mode_NE a a).
Proof.
  unfold nonneg64. destruct (is_nan (Bmult mode_NE a a)) eqn:N; [auto|right].
  pose proof (Bmult_correct 53 1024 _ _ mode_NE a a) as H. destruct (Rlt_bool _ _).
  - destruct H as (_ & _ & H). rewrite (H N). apply xorb_nilpotent.
  - rewrite xorb_nilpotent in H. unfold binary_overflow in H. cbn in H.
    destruct (Bmult mode_NE a a) as [s|s| |s m e B]; cbn in *; congruence.
Qed.
Lemma plus_nonneg (a b : f64) : nonneg64 a -> nonneg64 b -> Bplus mode_NE a b <> B754_infinity true.
Proof.
  unfold nonneg64. intros Ha Hb. destruct (is_finite a && is_finite b) eqn:F.
  - apply andb_true_iff in F. destruct F as [Fa Fb].
    pose proof (Bplus_correct 53 1024 _ _ mode_NE a b Fa Fb) as H. destruct (Rlt_bool _ _).
    + destruct H as (_ & H & _). intros E. rewrite E in H. discriminate H.
    + destruct H as (H & _). intros E. rewrite E in H.
      assert (Sa : Bsign a = false). { destruct Ha as [Ha|Ha]; [|exact Ha]. destruct a; discriminate. }
      rewrite Sa in H. discriminate H.
  - destruct a as [sa|sa| |sa ma ea Ba]; destruct b as [sb|sb| |sb mb eb Bb]; cbn in *; try discriminate F;
    destruct Ha as [Ha|Ha]; destruct Hb as [Hb|Hb]; try discriminate Ha; try discriminate Hb; try congruence.
    + subst. discriminate.
Qed.
Lemma dist2_finite (p q : vec F64) : nltb (dist2 p q) f64_inf = true -> nfinite (dist2 p q) = true.
Proof.
  unfold dist2, abs2. set (a := x (vsub p q)). set (b := y (vsub p q)).
  change (@nadd F64) with (@Bplus 53 1024 _ _ mode_NE). change (@nmul F64) with (@Bmult 53 1024 _ _ mode_NE).
  pose proof (plus_nonneg _ _ (square_nonneg a) (square_nonneg b)) as H. revert H. change (@nfinite F64) with (@is_finite 53 1024). change (@nltb F64) with (@Bltb 53 1024).
  generalize (@Bplus 53 1024 Hprec64 Hmax64 mode_NE (Bmult mode_NE a a) (Bmult mode_NE b b)). clear.
  intros z H L. destruct z as [s|s| |s m e B]; try reflexivity; [|discriminate L].
  destruct s; [exfalso; apply H; reflexivity|discriminate L].
Qed.

Section Eps2h.
Context {K : Num}.
Variables (infinity lowest : K) (vs : list (part K)) (p : vec K).
Hypothesis Ord : ordered infinity.
Hypothesis Inf : nfinite infinity = false.
Hypothesis Fin : forall q, nltb (dist2 p q) infinity = true -> nfinite (dist2 p q) = true.

(** Particles at another place than [p]; those without circulation count. *)
Definition others (nb : list nat) : list (nat * K) :=
  flat_map (fun j => match nth_error vs j with
                     | None => []
                     | Some b => if neqb (dist2 p (pr b)) (nofZ 0) then []
                                 else if nltb (dist2 p (pr b)) infinity then [(j, dist2 p (pr b))] else []
                     end) nb.

Lemma others_below l a : In a (others l) -> nltb (snd a) infinity = true /\ nfinite (snd a) = true.
Proof.
  unfold others. intros H. apply in_flat_map in H. destruct H as (j & _ & H).
  destruct (nth_error vs j); [|destruct H]. destruct (neqb _ _); [destruct H|].
  destruct (nltb _ infinity) eqn:E; [|destruct H]. destruct H as [<-|[]]. split; [exact E|apply Fin, E].
Qed.

Lemma eps2h_best nb : exists s, best_of infinity (others nb) s /\
  fold_left (eps2h_step vs p) nb (infinity, infinity) = (res1 s, res2 s).
Proof.
  induction nb as [|j nb IH] using rev_ind; [eexists; split; reflexivity|].
  rewrite fold_left_app. destruct IH as (s & B & ->). cbn [fold_left].
  assert (G : forall a, In a (others nb) -> nltb (snd a) infinity = true) by (intros a Ha; apply others_below in Ha; apply Ha).
  assert (E : others (nb ++ [j]) = others nb ++ others [j]) by (unfold others; apply flat_map_app). rewrite E. clear E.
  unfold others at 2. cbn [flat_map]. rewrite app_nil_r. unfold eps2h_step.
  destruct (nth_error vs j) as [b|]; [|exists s; rewrite app_nil_r; auto].
  cbv zeta. destruct (neqb _ _); [exists s; rewrite app_nil_r; auto|]. cbn [fst snd].
  destruct (nltb (dist2 p (pr b)) infinity) eqn:E.
  - eexists. split; [apply best_step; [exact Ord|exact G|exact E|exact B]|].
    destruct (nltb (dist2 p (pr b)) (res1 s)); [reflexivity|]. destruct (nltb (dist2 p (pr b)) (res2 s)); reflexivity.
  - exists s. rewrite app_nil_r. split; [exact B|]. destruct (best_bound _ _ _ G B) as [B1 B2]. destruct Ord as (TR & _).
    assert (N : forall r, r = infinity \/ nltb r infinity = true -> nltb (dist2 p (pr b)) r = false).
    { intros r [->|Hr]; [exact E|]. destruct (nltb (dist2 p (pr b)) r) eqn:E'; [|reflexivity].
      rewrite (TR _ _ _ E' Hr) in E. discriminate E. }
    rewrite (N _ B1), (N _ B2). reflexivity.
Qed.

Lemma eps2h_second nb :
  (others nb = [] /\ eps2h infinity lowest nb vs p = lowest) \/
  (exists a, others nb = [a] /\ eps2h infinity lowest nb vs p = snd a) \/
  (exists a b, two_nearest (others nb) a b /\ eps2h infinity lowest nb vs p = snd b).
Proof.
  destruct (eps2h_best nb) as (s & B & E). unfold eps2h. rewrite E. pose proof (others_below nb) as G.
  destruct (others nb) as [|a [|b t]] eqn:O.
  - left. simpl in B. rewrite B. cbn. rewrite Inf. auto.
  - right; left. exists a. simpl in B. rewrite B. cbn. rewrite Inf. destruct (G a (or_introl eq_refl)) as [_ ->]. auto.
  - right; right. destruct B as (a' & b' & TN & ->). exists a', b'. split; [exact TN|]. cbn.
    apply two_nearest_in in TN. destruct TN as [_ Ib]. destruct (G b' Ib) as [_ ->]. reflexivity.
Qed.

(** The nearest segment centre. *)
Lemma h2_least l :
  let d := h2 infinity l p in
  (d = infinity \/ exists a, In a l /\ d = dist2 p (Model.r a)) /\
  forall a, In a l -> nltb (dist2 p (Model.r a)) d = false.
Proof.
  destruct Ord as (TR & AS & _). cbv zeta.
  assert (IR : forall a : K, nltb a a = false). { intros a. destruct (nltb a a) eqn:E; [|reflexivity]. rewrite (AS _ _ E) in E. discriminate E. }
  unfold h2. induction l as [|a l IH] using rev_ind; [split; [left; reflexivity|intros a []]|].
  rewrite fold_left_app. cbn [fold_left]. destruct IH as [IH1 IH2]. set (d := fold_left _ l infinity) in *. assert (C : cmin d (dist2 p (Model.r a)) = if nltb (dist2 p (Model.r a)) d then dist2 p (Model.r a) else d) by reflexivity. rewrite C; clear C.
  destruct (nltb (dist2 p (Model.r a)) d) eqn:E.
  - split; [right; exists a; split; [apply in_or_app; right; left; reflexivity|reflexivity]|].
    intros c Hc. apply in_app_or in Hc. destruct Hc as [Hc|[<-|[]]]; [|apply IR].
    destruct (nltb (dist2 p (Model.r c)) (dist2 p (Model.r a))) eqn:X; [|reflexivity]. rewrite <- (IH2 c Hc). symmetry. eapply TR; eassumption.
  - split.
    + destruct IH1 as [->|(b & Hb & ->)]; [auto|]. right. exists b. split; [apply in_or_app; auto|reflexivity].
    + intros c Hc. apply in_app_or in Hc. destruct Hc as [Hc|[<-|[]]]; auto.
Qed.
End Eps2h.
