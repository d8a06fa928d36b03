(** The two nearest neighbours; merging. *)

From Coq Require Import ZArith Bool List Lia Permutation Reals Lra.
From Flocq Require Import Core.Core IEEE754.BinarySingleNaN.
From Verif.Base Require Import Num F64 F64Order.
From Verif.Body Require Import Model Spec.
From Verif.Vortex Require Import Model Spec.
Import ListNotations.

Lemma ordered_R big : @ordered RNum big.
Proof.
  unfold ordered. change (@nltb RNum) with Rltb. split; [|split]; intros *; rewrite ?Rltb_true, ?Rltb_false; lra.
Qed.

Lemma ordered_F64 big : @ordered F64 big.
Proof.
  unfold ordered. change (@nltb F64) with (@Bltb 53 1024).
  assert (N : forall a b : f64, (exists u w, fkey a = Some u /\ fkey b = Some w /\ (w <= u)%R) -> Bltb a b = false).
  { intros a b (u & w & Hu & Hw & L). destruct (Bltb a b) eqn:E; [|reflexivity].
    apply f64_ltb_key in E. destruct E as (u' & w' & Hu' & Hw' & L').
    assert (u' = u) by congruence. assert (w' = w) by congruence. subst. lra. }
  split; [|split].
  - intros a b c H1 H2. apply f64_ltb_key in H1, H2. apply f64_ltb_key.
    destruct H1 as (u & w & Hu & Hw & L). destruct H2 as (w' & z & Hw' & Hz & L').
    exists u, z. assert (w' = w) by congruence. subst. split; [exact Hu|]. split; [exact Hz|]. lra.
  - intros a b H. apply f64_ltb_key in H. destruct H as (u & w & Hu & Hw & L). apply N. exists w, u.
    split; [exact Hw|]. split; [exact Hu|]. lra.
  - intros a b c Ha Hb Hc H1 H2. apply f64_ltb_key in Ha, Hb, Hc.
    destruct Ha as (u & ? & Hu & _). destruct Hb as (w & ? & Hw & _). destruct Hc as (z & ? & Hz & _).
    apply N. exists u, z. split; [exact Hu|]. split; [exact Hz|].
    destruct (Rlt_le_dec u w) as [L|L].
    { assert (X : Bltb a b = true) by (apply f64_ltb_key; exists u, w; auto). congruence. }
    destruct (Rlt_le_dec w z) as [L'|L'].
    { assert (X : Bltb b c = true) by (apply f64_ltb_key; exists w, z; auto). congruence. }
    lra.
Qed.

Section Scan.
Context {K : Num}.
Variables (big tiny : K) (vs : list (part K)) (i : nat).
Hypothesis Ord : ordered big.

Notation nbrs := (fun l => neighbours big l vs i).

Definition best_of (l : list (nat * K)) (s : best K) : Prop :=
  match l with
  | [] => s = mkBest big None big None
  | [a] => s = mkBest (snd a) (Some (fst a)) big None
  | _ => exists a b, two_nearest l a b /\ s = mkBest (snd a) (Some (fst a)) (snd b) (Some (fst b))
  end.

Lemma neighbours_app l m : nbrs (l ++ m) = nbrs l ++ nbrs m.
Proof. unfold neighbours. apply flat_map_app. Qed.

Lemma neighbours_below l a : In a (nbrs l) -> nltb (snd a) big = true.
Proof.
  unfold neighbours. intros H. apply in_flat_map in H. destruct H as (j & _ & H).
  destruct (nth_error vs i); [|destruct H]. destruct (nth_error vs j); [|destruct H].
  destruct (_ || _); [destruct H|]. destruct (nltb _ big) eqn:E; [|destruct H]. destruct H as [<-|[]]. exact E.
Qed.

Lemma two_nearest_in (l : list (nat * K)) a b : two_nearest l a b -> In a l /\ In b l.
Proof. intros (rest & Hp & _). split; eapply Permutation_in; try (apply Permutation_sym; exact Hp); simpl; auto. Qed.

(** One more neighbour. *)
Lemma best_step l s j d : (forall a, In a l -> nltb (snd a) big = true) -> nltb d big = true -> best_of l s ->
  best_of (l ++ [(j, d)])
    (if nltb d (res1 s) then mkBest d (Some j) (res1 s) (lv1 s)
     else if nltb d (res2 s) then mkBest (res1 s) (lv1 s) d (Some j) else s).
Proof.
  destruct Ord as (TR & AS & NT). intros G Gd B.
  destruct l as [|a0 [|a1 t]].
  - simpl in B. subst s. cbn [res1 res2 app best_of]. rewrite Gd. reflexivity.
  - simpl in B. subst s. cbn [res1 res2 lv1 lv2 app best_of].
    destruct (nltb d (snd a0)) eqn:E.
    + exists (j, d), a0. split; [|reflexivity]. exists []. split; [constructor|]. split; [cbn; apply AS, E|intros c []].
    + rewrite Gd. exists a0, (j, d). split; [|reflexivity]. exists []. split; [constructor; constructor; constructor|].
      split; [exact E|intros c []].
  - set (l := a0 :: a1 :: t) in *. change (exists a b, two_nearest l a b /\ s = mkBest (snd a) (Some (fst a)) (snd b) (Some (fst b))) in B.
    destruct B as (a & b & TN & ->). pose proof (two_nearest_in _ _ _ TN) as [Ia Ib].
    destruct TN as (rest & Hp & Hab & Hr). cbn [res1 res2 lv1 lv2].
    assert (Gr : forall c, In c rest -> nltb (snd c) big = true).
    { intros c Hc. apply G. eapply Permutation_in; [apply Permutation_sym; exact Hp|]. right; right; exact Hc. }
    assert (Goal : exists a' b', two_nearest (l ++ [(j, d)]) a' b' /\
      (if nltb d (snd a) then mkBest d (Some j) (snd a) (Some (fst a))
       else if nltb d (snd b) then mkBest (snd a) (Some (fst a)) d (Some j) else mkBest (snd a) (Some (fst a)) (snd b) (Some (fst b)))
      = mkBest (snd a') (Some (fst a')) (snd b') (Some (fst b'))).
    { assert (Hp' : Permutation (l ++ [(j, d)]) ((j, d) :: a :: b :: rest)).
      { eapply Permutation_trans; [apply Permutation_sym, Permutation_cons_append|]. constructor. exact Hp. }
      destruct (nltb d (snd a)) eqn:E1; [|destruct (nltb d (snd b)) eqn:E2].
      - exists (j, d), a. split; [|reflexivity]. exists (b :: rest). split; [exact Hp'|]. split; [cbn; apply AS, E1|].
        intros c [<-|Hc]; [exact Hab|]. eapply (NT _ (snd b)); auto.
      - exists a, (j, d). split; [|reflexivity]. exists (b :: rest). split.
        { eapply Permutation_trans; [exact Hp'|]. apply perm_swap. }
        split; [exact E1|]. cbn [snd]. intros c [<-|Hc]; [apply AS, E2|]. eapply (NT _ (snd b)); auto.
      - exists a, b. split; [|reflexivity]. exists ((j, d) :: rest). split.
        { eapply Permutation_trans; [exact Hp'|]. eapply Permutation_trans; [apply perm_swap|]. constructor. apply perm_swap. }
        split; [exact Hab|]. intros c [<-|Hc]; [exact E2|]. apply Hr, Hc. }
    exact Goal.
Qed.

Lemma best_bound l s : (forall a, In a l -> nltb (snd a) big = true) -> best_of l s ->
  (res1 s = big \/ nltb (res1 s) big = true) /\ (res2 s = big \/ nltb (res2 s) big = true).
Proof.
  intros G B. destruct l as [|a0 [|a1 t]].
  - simpl in B. subst. auto.
  - simpl in B. subst. cbn. split; [right; apply G; left; reflexivity|auto].
  - destruct B as (a & b & TN & ->). apply two_nearest_in in TN. destruct TN. cbn. split; right; apply G; assumption.
Qed.

Lemma scan_best l : best_of (nbrs l) (scan big l vs i).
Proof.
  unfold scan. induction l as [|j l IH] using rev_ind; [reflexivity|].
  rewrite fold_left_app. cbn [fold_left]. set (s := fold_left (look vs i) l _) in *.
  rewrite neighbours_app. pose proof (neighbours_below l) as G.
  unfold neighbours at 2. cbn [flat_map]. rewrite app_nil_r. unfold look.
  destruct (nth_error vs i) as [a|]; [|rewrite app_nil_r; exact IH].
  destruct (nth_error vs j) as [b|]; [|rewrite app_nil_r; exact IH].
  destruct (neqb (pg b) (nofZ 0) || Nat.eqb i j); [rewrite app_nil_r; exact IH|].
  destruct (nltb (dist2 (pr a) (pr b)) big) eqn:E.
  - apply best_step; auto.
  - rewrite app_nil_r. destruct (best_bound _ _ G IH) as [B1 B2]. destruct Ord as (TR & _).
    assert (N : forall r, r = big \/ nltb r big = true -> nltb (dist2 (pr a) (pr b)) r = false).
    { intros r [->|Hr]; [exact E|]. destruct (nltb (dist2 (pr a) (pr b)) r) eqn:E'; [|reflexivity].
      rewrite (TR _ _ _ E' Hr) in E. discriminate E. }
    rewrite (N _ B1), (N _ B2). exact IH.
Qed.

(** The radius without merging is the distance to the second nearest. *)
Lemma radius_second l : second_distance tiny (nbrs l) (radius tiny (scan big l vs i)).
Proof.
  pose proof (scan_best l) as B. unfold second_distance. destruct (nbrs l) as [|a [|b t]] eqn:E.
  - left. simpl in B. rewrite B. auto.
  - right; left. exists a. simpl in B. rewrite B. auto.
  - right; right. destruct B as (a' & b' & TN & ->). exists a', b'. auto.
Qed.
End Scan.
