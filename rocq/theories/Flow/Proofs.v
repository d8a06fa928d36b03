(** Proofs about the motion step. *)

From Coq Require Import ZArith Bool List Reals Lra Lia Permutation.
From Verif.Base Require Import Num.
From Verif.Body Require Import Model Spec ProofsGeom ProofsBody.
From Verif.Flow Require Import Model Spec.
Import ListNotations.

(** * Lists *)

Lemma change_nth {A} (f : A -> A) : forall l i, nth_error (change i f l) i = option_map f (nth_error l i).
Proof. induction l as [|a t IH]; intros [|i]; simpl; auto. Qed.
Lemma change_length {A} (f : A -> A) : forall l i, length (change i f l) = length l.
Proof. induction l as [|a t IH]; intros [|i]; simpl; auto. Qed.
Lemma change_map {A B} (f : A -> A) (p : A -> B) : (forall a, p (f a) = p a) -> forall l i, map p (change i f l) = map p l.
Proof. intros E. induction l as [|a t IH]; intros [|i]; simpl; auto; congruence. Qed.
Lemma change_total {A} (g : A -> R) (f : A -> A) : forall l i a, nth_error l i = Some a ->
  total g (change i f l) = (total g l + (g (f a) - g a))%R.
Proof.
  unfold total. induction l as [|b t IH]; intros [|i] a E; simpl in *; try discriminate.
  - injection E as ->. lra.
  - rewrite (IH i a E). lra.
Qed.
Lemma change_Forall {A} (Q : A -> Prop) (f : A -> A) : (forall a, Q a -> Q (f a)) -> forall l i, Forall Q l -> Forall Q (change i f l).
Proof. intros E. induction l as [|a t IH]; intros [|i] F; inversion F; subst; simpl; constructor; auto. Qed.

Lemma all_some_spec {A B} (f : A -> option B) : forall l l', all_some f l = Some l' -> Forall2 (fun a b => f a = Some b) l l'.
Proof.
  induction l as [|a t IH]; intros l' E; simpl in E; [injection E as <-; constructor|].
  destruct (f a) eqn:F; [|discriminate]. destruct (all_some f t); [|discriminate]. injection E as <-. constructor; auto.
Qed.
Lemma all_some_total {A B} (f : A -> option B) l : (forall a, In a l -> f a <> None) -> all_some f l <> None.
Proof.
  induction l as [|a t IH]; intros E; simpl; [discriminate|].
  pose proof (E a (or_introl eq_refl)). destruct (f a); [|congruence].
  assert (all_some f t <> None) by (apply IH; intros; apply E; right; auto). destruct (all_some f t); congruence.
Qed.
Lemma total_forall2 {A} (f : A -> R) l l' : Forall2 (fun a b => f b = f a) l l' -> total f l' = total f l.
Proof. unfold total. induction 1; simpl; auto. rewrite H, IHForall2. auto. Qed.

(** * Points and bodies *)

Section Any.
Context {K : Num}.
Variables inf dbl_max : K.
Variables cosf sinf : K -> K.
Variable eps : K.

(** Everything of a body but its remembered heat layer. *)
Definition strip (b : body K) : body K :=
  mkBody (alist b) (holder b) (dpos b) (speed_slae b) (speed_slae_prev b) (slip_ b) (slen b) (area b)
    (cofm b) (moi b) (disc_r2 b) (rect_bl b) (rect_tr b) [].
Definition shape (b : fbody K) : body K := strip (geo b).

Lemma invalid_strip b p : is_point_invalid dbl_max (strip b) p = is_point_invalid dbl_max b p.
Proof. reflexivity. Qed.

Lemma in_body_shape bs bs' p : map shape bs = map shape bs' -> in_body dbl_max bs p = in_body dbl_max bs' p.
Proof.
  revert bs'. induction bs as [|b t IH]; intros [|b' t'] E; try discriminate; auto.
  pose proof (f_equal (hd (shape b)) E) as E1. pose proof (f_equal (@tl _) E) as E2.
  cbn [map hd tl] in E1, E2. simpl. rewrite (IH t' E2). f_equal.
  rewrite <- (invalid_strip (geo b)), <- (invalid_strip (geo b')). unfold shape in E1. rewrite E1. reflexivity.
Qed.

Lemma first_hit_spec : forall bs i p,
  match first_hit dbl_max i bs p with
  | None => True
  | Some None => in_body dbl_max bs p = false
  | Some (Some (j, k)) => in_body dbl_max bs p = true /\
      exists b n, j = (i + n)%nat /\ nth_error bs n = Some b /\ is_point_invalid dbl_max (geo b) p = Some (Some k)
  end.
Proof.
  induction bs as [|b t IH]; intros i p; simpl; auto.
  destruct (is_point_invalid dbl_max (geo b) p) as [[k|]|] eqn:E; auto.
  - split; auto. exists b, O. repeat split; auto.
  - specialize (IH (S i) p). destruct (first_hit dbl_max (S i) t p) as [[[j k]|]|]; auto.
    destruct IH as (I & b' & n & -> & N & V). split; auto. exists b', (S n). repeat split; auto. lia.
Qed.

Lemma nearest_bound p : forall (l : list (att K)) k best d j,
  nearest p k l best d = Some j -> best = Some j \/ (k <= j < k + length l)%nat.
Proof.
  induction l as [|a t IH]; intros k best d j E; simpl in *; auto.
  destruct (_ <? _)%num; apply IH in E; destruct E as [E|E]; try (right; lia); auto.
  injection E as ->. right. lia.
Qed.
Lemma invalid_bound b p k : is_point_invalid dbl_max b p = Some (Some k) -> (k < length (alist b))%nat.
Proof.
  unfold is_point_invalid, in_contour. destruct (_ && _); [discriminate|].
  destruct (map corner (alist b)); [discriminate|]. destruct (parity _ _ _); [|discriminate].
  intros E. injection E as E. apply nearest_bound in E. destruct E; [discriminate|lia].
Qed.
Lemma layer_bound b p k b' : is_point_in_heat_layer dbl_max b p = (b', Some (Some k)) -> (k < length (alist b))%nat.
Proof.
  unfold is_point_in_heat_layer, in_contour. intros E. injection E as <- E. revert E. cbn [alist area].
  destruct (_ && _); [discriminate|].
  destruct (match heat_layer b with [] => layer b | _ => _ end); [discriminate|]. destruct (parity _ _ _); [|discriminate].
  intros E. injection E as E. apply nearest_bound in E. destruct E; [discriminate|lia].
Qed.

Lemma absorb_shape o k b : shape (absorb o k b) = shape b.
Proof. reflexivity. Qed.

(** The survivors and the number of the others. *)
Lemma clean_vort_spec : forall l bs bs' l' n, clean_vort dbl_max bs l = Some (bs', l', n) ->
  l' = filter (fun o => negb (in_body dbl_max bs (pos o))) l /\
  n = length (filter (fun o => in_body dbl_max bs (pos o)) l) /\
  map shape bs' = map shape bs.
Proof.
  induction l as [|o t IH]; intros bs bs' l' n E; simpl in E; [injection E as <- <- <-; auto|].
  pose proof (first_hit_spec bs 0 (pos o)) as F.
  destruct (first_hit dbl_max 0 bs (pos o)) as [[[i k]|]|]; try discriminate.
  - destruct F as [F _].
    destruct (clean_vort dbl_max (change i (absorb o k) bs) t) as [[[bs1 l1] n1]|] eqn:C; [|discriminate].
    injection E as <- <- <-. apply IH in C. destruct C as (-> & -> & C).
    assert (X : map shape (change i (absorb o k) bs) = map shape bs) by (apply change_map; reflexivity).
    cbn [filter]. rewrite F. cbn [negb length].
    assert (Y : forall q, in_body dbl_max (change i (absorb o k) bs) q = in_body dbl_max bs q)
      by (intros; apply in_body_shape; exact X).
    split; [apply filter_ext; intros; rewrite Y; reflexivity|].
    split; [f_equal; f_equal; apply filter_ext; intros; apply Y|congruence].
  - destruct (clean_vort dbl_max bs t) as [[[bs1 l1] n1]|] eqn:C; [|discriminate].
    injection E as <- <- <-. apply IH in C. destruct C as (-> & -> & C).
    cbn [filter]. rewrite F. auto.
Qed.

Lemma clean_streak_spec bs : forall l l', clean_streak dbl_max bs l = Some l' ->
  l' = filter (fun o => negb (in_body dbl_max bs (pos o))) l.
Proof.
  induction l as [|o t IH]; intros l' E; simpl in E; [injection E as <-; auto|].
  pose proof (first_hit_spec bs 0 (pos o)) as F.
  destruct (first_hit dbl_max 0 bs (pos o)) as [[[i k]|]|]; try discriminate;
    (destruct (clean_streak dbl_max bs t); [|discriminate]); injection E as <-; cbn [filter];
    [destruct F as [F _]|]; rewrite F; cbn [negb]; [|f_equal]; auto.
Qed.

Lemma first_layer_shape : forall bs p bs' h, first_layer dbl_max bs p = Some (bs', h) -> map shape bs' = map shape bs.
Proof.
  induction bs as [|b t IH]; intros p bs' h E; cbn [first_layer] in E; [injection E as <- <-; auto|].
  destruct (is_point_in_heat_layer dbl_max (geo b) p) as [x q] eqn:Q.
  assert (X : shape (set_geo x b) = shape b).
  { unfold is_point_in_heat_layer in Q. injection Q as <- _. reflexivity. }
  destruct q as [[k|]|]; try discriminate.
  - injection E as <- <-. cbn [map]. rewrite X. reflexivity.
  - destruct (first_layer dbl_max t p) as [[t' [[i k]|]]|] eqn:F; try discriminate; injection E as <- <-; cbn [map];
      rewrite X; f_equal; eapply IH; eauto.
Qed.

Lemma change_seg_shape i k f (bs : list (fbody K)) : map shape (change_seg i k f bs) = map shape bs.
Proof. apply change_map. reflexivity. Qed.

Lemma clean_heat_shape : forall l n bs bs' l', clean_heat dbl_max n bs l = Some (bs', l') -> map shape bs' = map shape bs.
Proof.
  induction l as [|o t IH]; intros n bs bs' l' E; cbn [clean_heat] in E; [injection E as <- <-; auto|].
  destruct (first_hit dbl_max 0 bs (pos o)) as [[[i k]|]|]; try discriminate.
  - apply IH in E. rewrite E. apply change_seg_shape.
  - destruct (first_layer dbl_max bs (pos o)) as [[bs1 [[i k]|]]|] eqn:F; try discriminate.
    + apply first_layer_shape in F. destruct (layer_taken i k bs1) as [[[u|] [| | |]]|]; try discriminate;
        try (apply IH in E; rewrite E, change_seg_shape; exact F);
        match type of E with match ?c with _ => _ end = _ => destruct c as [[b2 l2]|] eqn:C; [|discriminate] end;
        injection E as <- <-; apply IH in C; rewrite C; try rewrite change_seg_shape; exact F.
    + destruct (clean_heat dbl_max (S n) bs1 t) as [[b2 l2]|] eqn:C; [|discriminate].
      injection E as <- <-. apply IH in C. rewrite C. eapply first_layer_shape; eauto.
Qed.

Lemma bury_shape b : shape (bury eps b) = shape b.
Proof. unfold bury. destruct (fold_left _ _ _) as [[s f] d]. reflexivity. Qed.

Definition keep : list (obj K) -> list (obj K) := filter (fun o => negb (small eps (og o))).

(** The whole step, objects only. *)
Lemma move_and_clean_spec fuel dt S S' cdt ptr n :
  move_and_clean inf dbl_max cosf sinf eps fuel dt S = Some (S', cdt, ptr, n) ->
  detect dt 0 (bodies S) (dt, None) = (cdt, ptr) /\
  (exists bs, move_bodies inf cosf sinf fuel cdt (bodies S) = Some bs /\ map shape (bodies S') = map shape bs) /\
  vort S' = map stop (filter (fun o => negb (in_body dbl_max (bodies S') (pos o))) (keep (map (move_obj cdt) (vort S)))) /\
  n = length (filter (fun o => in_body dbl_max (bodies S') (pos o)) (keep (map (move_obj cdt) (vort S)))) /\
  streak S' = map stop (filter (fun o => negb (in_body dbl_max (bodies S') (pos o))) (map (move_obj cdt) (streak S))).
Proof.
  unfold move_and_clean. destruct (detect dt 0 (bodies S) (dt, None)) as [c p] eqn:D.
  destruct (move_bodies inf cosf sinf fuel c (bodies S)) as [bs|] eqn:M; [|discriminate].
  fold keep.
  destruct (clean_vort dbl_max bs (keep (map (move_obj c) (vort S)))) as [[[bs1 vl] m]|] eqn:C1; [|discriminate].
  destruct (clean_heat dbl_max 0 bs1 (keep (map (move_obj c) (heat S)))) as [[bs2 hl]|] eqn:C2; [|discriminate].
  destruct (clean_streak dbl_max bs2 (map (move_obj c) (streak S))) as [sl|] eqn:C3; [|discriminate].
  intros E. injection E as <- <- <- <-. cbn [bodies vort streak].
  apply clean_vort_spec in C1. destruct C1 as (-> & -> & S1). apply clean_heat_shape in C2. apply clean_streak_spec in C3. subst sl.
  assert (S3 : map shape (map (bury eps) bs2) = map shape bs).
  { rewrite map_map, <- S1, <- C2. apply map_ext. apply bury_shape. }
  assert (Y : forall q, in_body dbl_max (map (bury eps) bs2) q = in_body dbl_max bs q) by (intros; apply in_body_shape; exact S3).
  assert (Z : forall q, in_body dbl_max bs2 q = in_body dbl_max bs q) by (intros; apply in_body_shape; congruence).
  split; auto. split; [exists bs; auto|].
  split; [f_equal; apply filter_ext; intros; rewrite Y; reflexivity|].
  split; [f_equal; apply filter_ext; intros; rewrite Y; reflexivity|].
  f_equal; apply filter_ext; intros; rewrite Y, Z; reflexivity.
Qed.
End Any.
