(** Proofs about the forces on a wall. *)

From Coq Require Import Reals List Lra Lia Arith.
From Verif.Base Require Import Num.
From Verif.Body Require Import Model.
From Verif.Forces Require Import Model Spec.
Import ListNotations.
Local Open Scope R_scope.

Ltac unr := repeat match goal with
  | |- context [@nadd RNum ?a ?b] => change (@nadd RNum a b) with (Rplus a b)
  | |- context [@nsub RNum ?a ?b] => change (@nsub RNum a b) with (Rminus a b)
  | |- context [@nmul RNum ?a ?b] => change (@nmul RNum a b) with (Rmult a b)
  | |- context [@ndiv RNum ?a ?b] => change (@ndiv RNum a b) with (Rdiv a b)
  | |- context [@nopp RNum ?a] => change (@nopp RNum a) with (Ropp a)
  | |- context [@nofZ RNum ?z] => change (@nofZ RNum z) with (IZR z)
  end.

Ltac eqR := match goal with |- @eq _ ?a ?b => change (@eq R a b) end.

Lemma total_ext {A} (f g : A -> R) l : (forall a, In a l -> f a = g a) -> total f l = total g l.
Proof.
  induction l as [|a tl IH]; intros H; cbn [total]; auto.
  rewrite (H a) by (left; reflexivity). rewrite IH; auto. intros b B. apply H. right. exact B.
Qed.
Lemma total_lin {A} (f g : A -> R) k l : total (fun a => f a + k * g a) l = total f l + k * total g l.
Proof. induction l as [|a tl IH]; cbn [total]; [ring|]. rewrite IH. ring. Qed.

Ltac fold_total := match goal with |- context [total ?g ?l] => generalize (total g l) end;
  intro; unfold moment, force, centre; cbn [fst snd]; unr; eqR.

Section Loop.
Variables pi re pr dt : R.

Definition kept (a b : wall RNum) : Prop :=
  seg a = seg b /\ gsum a = gsum b /\ fric a = fric b /\ hsum a = hsum b.

Lemma loop_spec l : forall t f n l' f' n',
  forces_loop (K:=RNum) pi re pr dt t f n l = (l', f', n') ->
  x (r3 f') = x (r3 f) + total (fun w => fst (force pi re w)) l
  /\ y (r3 f') = y (r3 f) + total (fun w => snd (force pi re w)) l
  /\ o3 f' = o3 f + total (fun w => moment (0, 0) (centre w) (force pi re w)) l
  /\ n' = n + re * pr * total (hsum (K:=RNum)) l
  /\ Forall2 kept l l'
  /\ (forall k w w', nth_error l k = Some w -> nth_error l' k = Some w' ->
       cp w' = cp w + (t + total (gsum (K:=RNum)) (firstn (S k) l))
       /\ fr w' = fr w + fric w * (dt / (pi * re))
       /\ nu w' = nu w + hsum w * (re * pr / len (seg w))).
Proof.
  induction l as [|w tl IH]; intros t f n l' f' n' H.
  - cbn [forces_loop] in H. assert (l' = []) by congruence. assert (f' = f) by congruence.
    assert (n' = n) by congruence. subst. cbn [total].
    split; [symmetry; apply Rplus_0_r|]. split; [symmetry; apply Rplus_0_r|]. split; [symmetry; apply Rplus_0_r|].
    split; [rewrite Rmult_0_r; symmetry; apply Rplus_0_r|]. split; [constructor|].
    intros k w w' A. destruct k; discriminate.
  - cbn [forces_loop] in H. cbv zeta in H.
    match type of H with context [@forces_loop RNum ?p ?a ?b ?c ?d ?e ?g tl] =>
      destruct (@forces_loop RNum p a b c d e g tl) as [[rest f2] n2] eqn:E end.
    apply IH in E. destruct E as (E1 & E2 & E3 & E4 & E5 & E6).
    assert (HL : l' = mkWall (seg w) (gsum w) (fric w) (hsum w) (cp w + (t + gsum w))
       (fr w + fric w * (dt / (pi * re))) (nu w + hsum w * (re * pr / len (seg w))) :: rest)
      by exact (eq_sym (f_equal (fun p => fst (fst p)) H)).
    assert (f' = f2) by exact (eq_sym (f_equal (fun p => snd (fst p)) H)).
    assert (n' = n2) by exact (eq_sym (f_equal snd H)). subst f' n'. clear H.
    cbn [r3 o3 x y vsub vscale] in E1, E2, E3. unfold dot, rotl in E3. cbn [x y] in E3.
    change (vabs (dl (seg w))) with (len (seg w)) in *.
    cbn [total].
    split; [|split; [|split; [|split; [|split]]]].
    + rewrite E1. fold_total. unfold Rdiv. ring.
    + rewrite E2. fold_total. unfold Rdiv. ring.
    + rewrite E3. fold_total. unfold Rdiv. ring.
    + rewrite E4. fold_total. ring.
    + subst l'. constructor; auto. repeat split.
    + subst l'. intros k a a' Ha Ha'. destruct k as [|k]; cbn [nth_error] in Ha, Ha'.
      * assert (a = w) by congruence. subst a. 
        assert (X : a' = mkWall (seg w) (gsum w) (fric w) (hsum w) (cp w + (t + gsum w))
       (fr w + fric w * (dt / (pi * re))) (nu w + hsum w * (re * pr / len (seg w)))) by congruence.
        subst a'. cbn [cp fr nu firstn total]. repeat split. eqR. ring.
      * destruct (E6 k a a' Ha Ha') as (C & F & N). split; [|split; auto].
        rewrite C. cbn [firstn total]. unr. eqR. ring.
Qed.

(** Moments about another point. *)
Lemma moment_shift c l :
  total_moment pi re c l = total_moment pi re (0, 0) l - (fst c * snd (total_force pi re l) - snd c * fst (total_force pi re l)).
Proof.
  unfold total_moment, total_force. cbn [fst snd].
  induction l as [|w tl IH]; cbn [total]; [ring|]. rewrite IH. unfold moment. cbn [fst snd]. ring.
Qed.
End Loop.
