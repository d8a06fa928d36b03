(** Geometry of bodies over the reals. *)

From Coq Require Import ZArith Bool List Permutation Reals Lra Lia Psatz.
From Verif.Base Require Import Num.
From Verif.Body Require Import Model Spec.
Import ListNotations.
Local Open Scope R_scope.

(** * Cyclic pairs and sums *)

Lemma combine_chain {A} (a : A) t e : combine (a :: t) (t ++ [e]) = chain a (t ++ [e]).
Proof. revert a; induction t as [|b t IH]; intros a; simpl; auto. f_equal. apply IH. Qed.

Lemma nexts_edges {A} (l : list A) : nexts l = edges l.
Proof. destruct l as [|a t]; auto. apply combine_chain. Qed.

Lemma chain_app {A} (a : A) l1 b l2 : chain a (l1 ++ b :: l2) = chain a (l1 ++ [b]) ++ chain b l2.
Proof. revert a; induction l1 as [|c l1 IH]; intros a; simpl; auto. f_equal. apply IH. Qed.

Lemma edges_map {A B} (f : A -> B) l : edges (map f l) = map (fun e => (f (fst e), f (snd e))) (edges l).
Proof.
  destruct l as [|a t]; auto. simpl. replace (map f t ++ [f a]) with (map f (t ++ [a])) by (rewrite map_app; auto).
  generalize (t ++ [a]). intros m. revert a. induction m as [|b m IH]; intros a; simpl; auto. f_equal. apply IH.
Qed.

Lemma total_app {A} (f : A -> R) l1 l2 : total f (l1 ++ l2) = total f l1 + total f l2.
Proof. unfold total. induction l1; simpl; [lra|]. rewrite IHl1. lra. Qed.
Lemma total_perm {A} (f : A -> R) l1 l2 : Permutation l1 l2 -> total f l1 = total f l2.
Proof. unfold total. induction 1; simpl; lra. Qed.
Lemma total_ext {A} (f g : A -> R) l : (forall e, In e l -> f e = g e) -> total f l = total g l.
Proof. unfold total. induction l; simpl; intros H; auto. rewrite H by auto. rewrite IHl; auto. Qed.
Lemma total_map {A B} (f : B -> R) (h : A -> B) l : total f (map h l) = total (fun e => f (h e)) l.
Proof. unfold total. induction l; simpl; auto. rewrite IHl. auto. Qed.
Lemma total_plus {A} (f g : A -> R) l : total (fun e => f e + g e) l = total f l + total g l.
Proof. unfold total. induction l; simpl; [lra|]. rewrite IHl. lra. Qed.
Lemma total_scale {A} (f : A -> R) c l : total (fun e => c * f e) l = c * total f l.
Proof. unfold total. induction l; simpl; [lra|]. rewrite IHl. lra. Qed.

Lemma last_cons {A} (b : A) l a : last (b :: l) a = last l b.
Proof.
  assert (D : forall (m : list A) d d', m <> [] -> last m d = last m d').
  { induction m as [|c [|e m] IH]; intros d d' H; auto; [congruence|]. apply (IH d d'). discriminate. }
  destruct l as [|c l]; auto. change (last (b :: c :: l) a) with (last (c :: l) a). apply D. discriminate.
Qed.

Lemma chain_tele {A} (h : A -> R) a l : total (fun e => h (snd e) - h (fst e)) (chain a l) = h (last l a) - h a.
Proof.
  revert a; induction l as [|b l IH]; intros a; [simpl; lra|].
  cbn [chain]. unfold total in *. cbn [fold_right fst snd]. rewrite IH, last_cons. lra.
Qed.

Lemma last_app {A} (t : list A) a d : last (t ++ [a]) d = a.
Proof. induction t; simpl; auto. destruct (t ++ [a]) eqn:E; auto. destruct t; discriminate. Qed.

Lemma edges_tele {A} (h : A -> R) l : total (fun e => h (snd e) - h (fst e)) (edges l) = 0.
Proof. destruct l as [|a t]; auto. simpl. rewrite chain_tele, last_app. lra. Qed.

(** A term that differs from another by a telescoping one has the same sum. *)
Lemma edges_sum {A} (f g : A * A -> R) (h : A -> R) l :
  (forall p q, f (p, q) = g (p, q) + (h q - h p)) -> total f (edges l) = total g (edges l).
Proof.
  intros H. rewrite (total_ext f (fun e => g e + (h (snd e) - h (fst e)))).
  - rewrite total_plus, edges_tele. lra.
  - intros [p q] _. apply H.
Qed.

Lemma edges_rotate {A} (a : A) t : Permutation (edges (a :: t)) (edges (t ++ [a])).
Proof.
  destruct t as [|b t]; auto. simpl. rewrite <- !app_assoc. simpl.
  replace (t ++ [a; b]) with (t ++ a :: [b]) by auto.
  rewrite (chain_app b t a [b]). simpl.
  etransitivity; [|apply Permutation_app_comm]. auto.
Qed.

Lemma edges_rotations {A} (l1 l2 : list A) : Permutation (edges (l1 ++ l2)) (edges (l2 ++ l1)).
Proof.
  revert l2; induction l1 as [|a l1 IH]; intros l2; simpl; [rewrite app_nil_r; auto|].
  etransitivity; [apply (edges_rotate a (l1 ++ l2))|].
  replace ((l1 ++ l2) ++ [a]) with (l1 ++ (l2 ++ [a])) by (rewrite app_assoc; auto).
  etransitivity; [apply IH|]. rewrite <- app_assoc. auto.
Qed.

Definition flip {A} (e : A * A) : A * A := (snd e, fst e).

Lemma chain_rev {A} (a b : A) t : Permutation (chain b (rev t ++ [a])) (map flip (chain a (t ++ [b]))).
Proof.
  revert a; induction t as [|c t IH]; intros a; simpl; auto.
  rewrite <- app_assoc. simpl. rewrite (chain_app b (rev t) c [a]). simpl.
  etransitivity; [apply Permutation_app_comm|]. simpl. apply perm_skip. apply IH.
Qed.

Lemma edges_rev {A} (l : list A) : Permutation (edges (rev l)) (map flip (edges l)).
Proof.
  destruct l as [|a t]; auto. simpl rev.
  etransitivity; [apply edges_rotations|]. simpl. apply chain_rev.
Qed.

(** Gluing two polygons along a common side. *)
Lemma edges_glue {A} (f : A * A -> R) a l1 b l2 : (forall p q, f (p, q) + f (q, p) = 0) ->
  total f (edges (a :: l1 ++ b :: l2)) = total f (edges (a :: l1 ++ [b])) + total f (edges (a :: b :: l2)).
Proof.
  intros H. simpl. rewrite <- !app_assoc. simpl.
  rewrite (chain_app a l1 b (l2 ++ [a])), (chain_app a l1 b [a]). rewrite !total_app. simpl.
  specialize (H a b). unfold total in *. simpl in *. lra.
Qed.

(** * The model's sums *)

Lemma fold_sum {A} (f : A -> R) l : forall a, fold_left (fun s e => s + f e) l a = a + total f l.
Proof. unfold total. induction l; intros; simpl; [lra|]. rewrite IHl. lra. Qed.
Lemma fold_dif {A} (f : A -> R) l : forall a, fold_left (fun s e => s - f e) l a = a - total f l.
Proof. unfold total. induction l; intros; simpl; [lra|]. rewrite IHl. lra. Qed.

Lemma sum_total (f : att RNum * att RNum -> R) l : @sum RNum f l = total f (edges l).
Proof. unfold sum. rewrite nexts_edges. rewrite (fold_sum f). simpl. lra. Qed.
Lemma dif_total (f : att RNum * att RNum -> R) l : @dif RNum f l = - total f (edges l).
Proof. unfold dif. rewrite nexts_edges. rewrite (fold_dif f). simpl. lra. Qed.

(** The corner lists determine everything after a refresh. *)
Definition cs (l : list (att RNum)) : list pt := map corner l.

Lemma update_corners (l : list (att RNum)) : cs (update_segments l) = cs l.
Proof.
  unfold cs, update_segments. rewrite map_map. cbn [segment corner].
  assert (L : forall (l m : list (att RNum)), (length l <= length m)%nat -> map (fun p => corner (fst p)) (combine l m) = map corner l).
  { induction l0; intros [|b m] H; simpl in *; auto; try lia. f_equal. apply IHl0. lia. }
  destruct l as [|a t]; auto. unfold nexts. apply L. rewrite app_length. simpl. lia.
Qed.


(** Consecutive edges share a corner. *)
Lemma chain_linked {A} (l : list A) : forall a b e e' x,
  In (e, e') (chain (a, b) (chain b l ++ [x])) -> snd e = fst e' \/ (e' = x /\ snd e = last l b).
Proof.
  induction l as [|c l IH]; intros a b e e' x H; simpl in H.
  - destruct H as [[= <- <-]|[]]. right. auto.
  - destruct H as [[= <- <-]|H]; [left; auto|].
    apply IH in H. destruct H as [H|[H1 H2]]; auto. right. split; auto. rewrite last_cons. auto.
Qed.

Lemma edges_linked {A} (l : list A) e e' : In (e, e') (edges (edges l)) -> snd e = fst e'.
Proof.
  destruct l as [|a t]; [intros []|]. simpl.
  destruct (t ++ [a]) as [|b m] eqn:E; [destruct t; discriminate|]. simpl. intros H.
  apply chain_linked in H. destruct H as [H|[-> H]]; auto. simpl. rewrite H.
  rewrite <- (last_cons b m a), <- E. apply last_app.
Qed.

Lemma edges_update (F : pt -> pt -> pt -> pt -> R) (l : list (att RNum)) :
  total (fun e => F (corner (fst e)) (dl (fst e)) (r (fst e)) (corner (snd e))) (edges (update_segments l)) =
  total (fun e => F (fst e) (P (px (snd e) - px (fst e)) (py (snd e) - py (fst e)))
                    (P ((px (snd e) + px (fst e)) * (1 / 2)) ((py (snd e) + py (fst e)) * (1 / 2))) (snd e)) (edges (cs l)).
Proof.
  rewrite <- (update_corners l). unfold cs. rewrite edges_map, total_map.
  apply total_ext. intros [u v] H.
  unfold update_segments in H. rewrite nexts_edges, edges_map in H.
  apply in_map_iff in H. destruct H as ([e e'] & [= <- <-] & H). apply edges_linked in H.
  cbn [fst snd segment corner dl r]. rewrite H. reflexivity.
Qed.
