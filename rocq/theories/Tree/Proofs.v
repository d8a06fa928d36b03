(** Proofs about the search tree. *)

From Coq Require Import ZArith Bool List Permutation Lia PeanoNat.
From Verif.Base Require Import Num.
From Verif.Tree Require Import Model Spec.
Import ListNotations.

(** * The two-pointer partition *)

Section Partition.
Context {A : Type}.
Variables below above : A -> bool.
Hypothesis excl : forall e, above e = true -> below e = false.

Lemma set_nth_length (l : list A) k v : length (set_nth l k v) = length l.
Proof. revert k; induction l; destruct k; simpl; auto. Qed.

Lemma nth_set_nth (l : list A) k v i :
  nth_error (set_nth l k v) i = if Nat.eqb i k then (if Nat.ltb i (length l) then Some v else None) else nth_error l i.
Proof.
  revert k i; induction l; intros [|k] [|i]; simpl; auto.
  - destruct (Nat.eqb i k); auto.
  - rewrite IHl. destruct (Nat.eqb i k); auto.
Qed.

Lemma swap_length (l : list A) i j : length (swap l i j) = length l.
Proof. unfold swap. destruct (nth_error l i), (nth_error l j); auto. rewrite !set_nth_length; auto. Qed.

Lemma nth_swap (l : list A) i j k :
  i < length l -> j < length l ->
  nth_error (swap l i j) k =
    if Nat.eqb k j then nth_error l i else if Nat.eqb k i then nth_error l j else nth_error l k.
Proof.
  intros Hi Hj. unfold swap.
  destruct (nth_error l i) as [a|] eqn:Ei; [|apply nth_error_None in Ei; lia].
  destruct (nth_error l j) as [b|] eqn:Ej; [|apply nth_error_None in Ej; lia].
  rewrite !nth_set_nth, set_nth_length.
  destruct (Nat.eqb_spec k j).
  - replace (Nat.ltb k (length l)) with true by (symmetry; apply Nat.ltb_lt; lia). auto.
  - destruct (Nat.eqb_spec k i); auto.
    replace (Nat.ltb k (length l)) with true by (symmetry; apply Nat.ltb_lt; lia). auto.
Qed.

Lemma set_nth_middle (l1 l2 : list A) a v : set_nth (l1 ++ a :: l2) (length l1) v = l1 ++ v :: l2.
Proof. induction l1; simpl; congruence. Qed.

Lemma swap_perm (l : list A) i j : i < j -> j < length l -> Permutation l (swap l i j).
Proof.
  intros Hij Hj. unfold swap.
  destruct (nth_error l i) as [a|] eqn:Ei; auto.
  destruct (nth_error l j) as [b|] eqn:Ej; auto.
  destruct (nth_error_split _ _ Ei) as (l1 & l2 & -> & L1).
  rewrite nth_error_app2 in Ej by lia.
  destruct (j - length l1)%nat as [|d] eqn:D; [lia|]. simpl in Ej.
  destruct (nth_error_split _ _ Ej) as (m1 & m2 & -> & M1).
  subst i. rewrite set_nth_middle.
  replace j with (length (l1 ++ b :: m1)) by (rewrite app_length; simpl; lia).
  replace (l1 ++ b :: m1 ++ b :: m2) with ((l1 ++ b :: m1) ++ b :: m2) by (rewrite <- app_assoc; auto).
  rewrite set_nth_middle, <- app_assoc. simpl.
  apply Permutation_app_head.
  etransitivity; [apply perm_skip, Permutation_sym, Permutation_middle|].
  etransitivity; [apply perm_swap|].
  apply perm_skip, Permutation_middle.
Qed.

Definition lo (l : list A) n := forall k e, k < n -> nth_error l k = Some e -> below e = true.
Definition hi (l : list A) n := forall k e, n <= k -> nth_error l k = Some e -> below e = false.

Lemma scan_up_ok fuel (l : list A) p :
  p <= length l -> length l - p <= fuel -> lo l p ->
  let p' := scan_up below fuel l p in
  p <= p' <= length l /\ lo l p' /\ (forall e, nth_error l p' = Some e -> below e = false).
Proof.
  revert p; induction fuel; intros p Hp Hf L; simpl.
  - split; [lia|]. split; auto. intros e E. assert (p < length l) by (apply nth_error_Some; congruence). lia.
  - destruct (nth_error l p) as [e|] eqn:E.
    + assert (p < length l) by (apply nth_error_Some; congruence).
      destruct (below e) eqn:B.
      * specialize (IHfuel (S p) ltac:(lia) ltac:(lia)).
        destruct IHfuel as (H1 & H2 & H3).
        { intros k e' Hk Ek. destruct (Nat.eq_dec k p); [subst; congruence|]. apply (L k); auto; lia. }
        split; [lia|]. auto.
      * split; [lia|]. split; auto. intros; congruence.
    + split; [lia|]. split; auto. intros; congruence.
Qed.

Lemma scan_down_ok (l : list A) q :
  q <= length l -> hi l q ->
  let r := scan_down above l q in
  r <= q /\ hi l r.
Proof.
  induction q; intros Hq H; simpl; [auto|].
  destruct (nth_error l q) as [e|] eqn:E.
  - destruct (above e) eqn:B.
    + destruct IHq as (H1 & H2); [lia| |].
      * intros k e' Hk Ek. destruct (Nat.eq_dec k q); [subst|apply (H k); auto; lia].
        assert (e' = e) by congruence. subst. auto.
      * split; [lia|auto].
    + split; auto.
  - split; auto.
Qed.

Lemma partition_ok fuel (l : list A) p1 p2 :
  p2 <= length l -> p2 <= fuel -> p1 <= length l -> lo l p1 -> hi l p2 ->
  let '(l', p) := partition_loop below above fuel l p1 p2 in
  Permutation l l' /\ lo l' p /\ hi l' p /\ p <= length l'.
Proof.
  revert l p1 p2; induction fuel; intros l p1 p2 H2 Hf H1 L H; simpl.
  - assert (p2 = 0) by lia. subst. split; auto. split; auto. split; auto.
    intros k e Hk. apply H. lia.
  - destruct (Nat.ltb_spec p1 p2).
    2:{ split; auto. split; auto. split; auto. intros k e Hk. apply H. lia. }
    pose proof (scan_up_ok (length l) l p1 ltac:(lia) ltac:(lia) L) as (U1 & U2 & U3).
    pose proof (scan_down_ok l p2 H2 H) as (D1 & D2).
    set (p1' := scan_up below (length l) l p1) in *.
    set (r := scan_down above l p2) in *.
    destruct (Nat.ltb_spec p1' (pred r)).
    + assert (p1' < length l) by lia. assert (pred r < length l) by lia.
      pose proof (IHfuel (swap l p1' (pred r)) p1' (pred r)) as K.
      rewrite swap_length in K. specialize (K ltac:(lia) ltac:(lia) ltac:(lia)).
      destruct (partition_loop below above fuel (swap l p1' (pred r)) p1' (pred r)) as [l' p].
      destruct K as (K1 & K2).
      * intros k e Hk Ek. rewrite nth_swap in Ek by lia.
        destruct (Nat.eqb_spec k (pred r)); [lia|]. destruct (Nat.eqb_spec k p1'); [lia|]. apply (U2 k); auto.
      * intros k e Hk Ek. rewrite nth_swap in Ek by lia.
        destruct (Nat.eqb_spec k (pred r)); [apply U3; auto|].
        destruct (Nat.eqb_spec k p1'); [lia|]. apply (D2 k); auto. lia.
      * split; auto. etransitivity; [apply (swap_perm l p1' (pred r)); lia|auto].
    + split; auto. split; auto. split; [|lia].
      intros k e Hk Ek. destruct (Nat.eq_dec k p1').
      * subst k. auto.
      * apply (D2 k); auto. lia.
Qed.

Lemma lo_firstn (l : list A) p : lo l p -> Forall (fun e => below e = true) (firstn p l).
Proof.
  revert p; induction l; intros [|p] H; simpl; auto.
  constructor; [apply (H 0); auto; lia|]. apply IHl. intros k e Hk E. apply (H (S k)); auto. lia.
Qed.
Lemma hi_skipn (l : list A) p : hi l p -> Forall (fun e => below e = false) (skipn p l).
Proof.
  revert p; induction l; intros [|p] H; simpl; auto.
  - constructor; [apply (H 0); auto|]. apply (IHl 0). intros k e Hk E. apply (H (S k)); auto; lia.
  - apply IHl. intros k e Hk E. apply (H (S k)); auto; lia.
Qed.

Lemma distribute_ok (l l1 l2 : list A) : distribute below above l = (l1, l2) ->
  Permutation l (l1 ++ l2) /\ Forall (fun e => below e = true) l1 /\ Forall (fun e => below e = false) l2.
Proof.
  unfold distribute. intros E.
  pose proof (partition_ok (length l) l 0 (length l) ltac:(lia) ltac:(lia) ltac:(lia)) as K.
  destruct (partition_loop below above (length l) l 0 (length l)) as [l' p].
  injection E as <- <-.
  destruct K as (K1 & K2 & K3 & K4).
  - intros k e Hk; lia.
  - intros k e Hk Ek. assert (k < length l) by (apply nth_error_Some; congruence). lia.
  - rewrite firstn_skipn. split; auto. split; [apply lo_firstn|apply hi_skipn]; auto.
Qed.

Lemma distribute_list_ok (l l1 l2 : list A) : distribute_list below l = (l1, l2) ->
  Permutation l (l1 ++ l2) /\ Forall (fun e => below e = true) l1 /\ Forall (fun e => below e = false) l2.
Proof.
  unfold distribute_list. intros [= <- <-]. split; [|split].
  - induction l as [|x l IH]; simpl; auto. destruct (below x); simpl; auto.
    etransitivity; [apply perm_skip, IH|apply Permutation_middle].
  - apply Forall_forall. intros e H. apply filter_In in H. apply H.
  - apply Forall_forall. intros e H. apply filter_In in H. destruct H as [_ H].
    destruct (below e); auto; discriminate.
Qed.
End Partition.

(** The permutation does not even need the exclusion of the two tests. *)
Section Permutes.
Context {A : Type}.
Variables below above : A -> bool.

Lemma scan_down_le (l : list A) q : scan_down above l q <= q.
Proof. induction q; simpl; auto. destruct (nth_error l q); auto. destruct (above a); auto. Qed.

Lemma partition_perm fuel (l : list A) p1 p2 : p2 <= length l ->
  Permutation l (fst (partition_loop below above fuel l p1 p2)).
Proof.
  revert l p1 p2; induction fuel; intros l p1 p2 H; simpl; auto.
  destruct (Nat.ltb p1 p2); auto.
  set (p1' := scan_up below (length l) l p1). pose proof (scan_down_le l p2). set (r := scan_down above l p2) in *.
  destruct (Nat.ltb_spec p1' (pred r)); auto.
  etransitivity; [apply (swap_perm l p1' (pred r)); lia|].
  apply IHfuel. rewrite swap_length. lia.
Qed.

Lemma distribute_perm (l l1 l2 : list A) : distribute below above l = (l1, l2) -> Permutation l (l1 ++ l2).
Proof.
  unfold distribute. intros E.
  pose proof (partition_perm (length l) l 0 (length l) ltac:(lia)) as K.
  destruct (partition_loop below above (length l) l 0 (length l)) as [l' p]. injection E as <- <-.
  rewrite firstn_skipn. exact K.
Qed.
End Permutes.

(** * The tree *)

Section Tree.
Context {K : Num}.
Variables big minSize maxSize : K.
Notation div := (divide big minSize maxSize).

Ltac split_divide E :=
  cbn [divide] in E;
  match type of E with (if ?c then _ else _) = _ => destruct c eqn:?BOT end.

Lemma divide_perm fuel : forall n b v h s t, div fuel n b v h s = Some t ->
  Permutation b (flat_map leaf_b (leaves t)) /\
  Permutation v (flat_map leaf_v (leaves t)) /\
  Permutation h (flat_map leaf_h (leaves t)) /\
  Permutation s (flat_map leaf_s (leaves t)).
Proof.
  induction fuel as [|k IH]; intros n b v h s t E; cbn [divide] in E;
    destruct (is_bottom _ _ n b v h s) eqn:BOT.
  1,3: injection E as <-; simpl; rewrite !app_nil_r; auto.
  - discriminate.
  - destruct (distribute (below n) (above n) v) as [v1 v2] eqn:Ev.
    destruct (distribute (below n) (above n) h) as [h1 h2] eqn:Eh.
    destruct (distribute (below n) (above n) s) as [s1 s2] eqn:Es.
    destruct (distribute_list (below n) b) as [b1 b2] eqn:Eb.
    destruct (divide big minSize maxSize k (stretch big b1 v1 h1 s1) b1 v1 h1 s1) as [t1|] eqn:T1; [|discriminate].
    destruct (divide big minSize maxSize k (stretch big b2 v2 h2 s2) b2 v2 h2 s2) as [t2|] eqn:T2; [|discriminate].
    injection E as <-. cbn [leaves]. rewrite !flat_map_app.
    apply IH in T1. apply IH in T2.
    apply distribute_perm in Ev. apply distribute_perm in Eh. apply distribute_perm in Es.
    unfold distribute_list in Eb.
    pose proof (distribute_list_ok (below n) b b1 b2 Eb) as (Pb & _).
    destruct T1 as (? & ? & ? & ?), T2 as (? & ? & ? & ?).
    repeat split; (etransitivity; [eassumption|apply Permutation_app; assumption]).
Qed.

(** ** Lookup *)

Hypothesis excl : forall a x : K, (x <=? a)%num = true -> (a <? x)%num = false.

Lemma excl_node (n : node K) o : above n o = true -> below n o = false.
Proof. unfold above, below. destruct (nh n <? nw n)%num; apply excl. Qed.

Lemma find_below n t1 t2 (o : obj K) :
  find_node (Split n t1 t2) (rx o) (ry o) = if below n o then find_node t1 (rx o) (ry o) else find_node t2 (rx o) (ry o).
Proof. unfold below. simpl. destruct (nh n <? nw n)%num; auto. Qed.

Lemma divide_find fuel : forall n b v h s t, div fuel n b v h s = Some t ->
  (forall o, In o b -> In o (leaf_b (find_node t (rx o) (ry o)))) /\
  (forall o, In o v -> In o (leaf_v (find_node t (rx o) (ry o)))) /\
  (forall o, In o h -> In o (leaf_h (find_node t (rx o) (ry o)))) /\
  (forall o, In o s -> In o (leaf_s (find_node t (rx o) (ry o)))).
Proof.
  induction fuel as [|k IH]; intros n b v h s t E; cbn [divide] in E;
    destruct (is_bottom _ _ n b v h s) eqn:BOT.
  1,3: injection E as <-; simpl; auto.
  - discriminate.
  - destruct (distribute (below n) (above n) v) as [v1 v2] eqn:Ev.
    destruct (distribute (below n) (above n) h) as [h1 h2] eqn:Eh.
    destruct (distribute (below n) (above n) s) as [s1 s2] eqn:Es.
    destruct (distribute_list (below n) b) as [b1 b2] eqn:Eb.
    destruct (divide big minSize maxSize k (stretch big b1 v1 h1 s1) b1 v1 h1 s1) as [t1|] eqn:T1; [|discriminate].
    destruct (divide big minSize maxSize k (stretch big b2 v2 h2 s2) b2 v2 h2 s2) as [t2|] eqn:T2; [|discriminate].
    injection E as <-.
    apply IH in T1. apply IH in T2.
    apply distribute_ok in Ev; [|apply excl_node].
    apply distribute_ok in Eh; [|apply excl_node].
    apply distribute_ok in Es; [|apply excl_node].
    apply distribute_list_ok in Eb.
    destruct T1 as (A1 & A2 & A3 & A4), T2 as (B1 & B2 & B3 & B4).
    assert (G : forall (l l1 l2 : list (obj K)) (sel : tree K -> list (obj K)),
      Permutation l (l1 ++ l2) /\ Forall (fun e => below n e = true) l1 /\ Forall (fun e => below n e = false) l2 ->
      (forall o, In o l1 -> In o (sel (find_node t1 (rx o) (ry o)))) ->
      (forall o, In o l2 -> In o (sel (find_node t2 (rx o) (ry o)))) ->
      forall o, In o l -> In o (sel (find_node (Split n t1 t2) (rx o) (ry o)))).
    { intros l l1 l2 sel (P & F1 & F2) S1 S2 o Ho. rewrite find_below.
      apply (Permutation_in _ P) in Ho. apply in_app_or in Ho.
      rewrite Forall_forall in F1, F2.
      destruct Ho as [Ho|Ho]; [rewrite (F1 _ Ho)|rewrite (F2 _ Ho)]; auto. }
    split; [|split; [|split]].
    + eapply G; eauto.
    + eapply G; eauto.
    + eapply G; eauto.
    + eapply G; eauto.
Qed.

Lemma find_leaf (t : tree K) x y : In (find_node t x y) (leaves t).
Proof.
  induction t as [n b v h s|n t1 IH1 t2 IH2]; [simpl; auto|].
  simpl. apply in_or_app. destruct (nh n <? nw n)%num; [destruct (x <? nx n)%num|destruct (y <? ny n)%num]; auto.
Qed.

(** ** Termination *)

Definition total (b v h s : list (obj K)) := length b + length v + length h + length s.

(** Every node that is split has an object on either side. *)
Definition splits (P : obj K -> Prop) := forall b v h s,
  Forall P (b ++ v ++ h ++ s) ->
  let n := stretch big b v h s in
  is_bottom minSize maxSize n b v h s = false ->
  (exists o, In o (b ++ v ++ h ++ s) /\ below n o = true) /\ (exists o, In o (b ++ v ++ h ++ s) /\ below n o = false).

Lemma divide_terminates (P : obj K -> Prop) : splits P -> forall fuel b v h s,
  Forall P (b ++ v ++ h ++ s) -> total b v h s <= fuel -> exists t, div fuel (stretch big b v h s) b v h s = Some t.
Proof.
  intros SP. induction fuel as [|k IH]; intros b v h s F T; cbn [divide];
    destruct (is_bottom minSize maxSize (stretch big b v h s) b v h s) eqn:BOT; eauto.
  - destruct (SP b v h s F BOT) as [(o & Ho & _) _].
    unfold total in T. destruct b; [|simpl in T; lia]. destruct v; [|simpl in T; lia].
    destruct h; [|simpl in T; lia]. destruct s; [|simpl in T; lia]. destruct Ho.
  - destruct (SP b v h s F BOT) as [(o1 & Ho1 & B1) (o2 & Ho2 & B2)]. cbn zeta in *.
    set (n := stretch big b v h s) in *.
    destruct (distribute (below n) (above n) v) as [v1 v2] eqn:Ev.
    destruct (distribute (below n) (above n) h) as [h1 h2] eqn:Eh.
    destruct (distribute (below n) (above n) s) as [s1 s2] eqn:Es.
    destruct (distribute_list (below n) b) as [b1 b2] eqn:Eb.
    apply distribute_ok in Ev; [|apply excl_node].
    apply distribute_ok in Eh; [|apply excl_node].
    apply distribute_ok in Es; [|apply excl_node].
    apply distribute_list_ok in Eb.
    destruct Ev as (Pv & Fv1 & Fv2), Eh as (Ph & Fh1 & Fh2), Es as (Ps & Fs1 & Fs2), Eb as (Pb & Fb1 & Fb2).
    assert (PA : Permutation (b ++ v ++ h ++ s) ((b1 ++ v1 ++ h1 ++ s1) ++ (b2 ++ v2 ++ h2 ++ s2))).
    { transitivity ((b1 ++ b2) ++ (v1 ++ v2) ++ (h1 ++ h2) ++ (s1 ++ s2)).
      { repeat apply Permutation_app; auto. }
      rewrite <- !app_assoc. apply Permutation_app_head.
      transitivity (v1 ++ b2 ++ v2 ++ h1 ++ h2 ++ s1 ++ s2); [apply Permutation_app_swap_app|].
      apply Permutation_app_head.
      transitivity (h1 ++ (b2 ++ v2) ++ h2 ++ s1 ++ s2).
      { rewrite (app_assoc b2 v2). apply Permutation_app_swap_app. }
      apply Permutation_app_head.
      rewrite (app_assoc (b2 ++ v2)). etransitivity; [apply Permutation_app_swap_app|].
      rewrite <- !app_assoc. auto. }
    assert (F1 : Forall (fun e => below n e = true) (b1 ++ v1 ++ h1 ++ s1)).
    { repeat (apply Forall_app; split); auto. }
    assert (F2 : Forall (fun e => below n e = false) (b2 ++ v2 ++ h2 ++ s2)).
    { repeat (apply Forall_app; split); auto. }
    assert (FP : Forall P ((b1 ++ v1 ++ h1 ++ s1) ++ (b2 ++ v2 ++ h2 ++ s2))).
    { eapply Permutation_Forall; eauto. }
    apply Forall_app in FP. destruct FP as [FP1 FP2].
    assert (N1 : length (b2 ++ v2 ++ h2 ++ s2) <> 0).
    { intros Z. apply length_zero_iff_nil in Z. apply (Permutation_in _ PA) in Ho2. rewrite Z, app_nil_r in Ho2.
      rewrite Forall_forall in F1. rewrite (F1 _ Ho2) in B2. discriminate. }
    assert (N2 : length (b1 ++ v1 ++ h1 ++ s1) <> 0).
    { intros Z. apply length_zero_iff_nil in Z. apply (Permutation_in _ PA) in Ho1. rewrite Z in Ho1. simpl in Ho1.
      rewrite Forall_forall in F2. rewrite (F2 _ Ho1) in B1. discriminate. }
    pose proof (Permutation_length Pv) as Lv. pose proof (Permutation_length Ph) as Lh.
    pose proof (Permutation_length Ps) as Ls. pose proof (Permutation_length Pb) as Lb.
    rewrite app_length in Lv, Lh, Ls, Lb. rewrite !app_length in N1, N2. unfold total in T.
    destruct (IH b1 v1 h1 s1 FP1) as (t1 & ->); [unfold total; lia|].
    destruct (IH b2 v2 h2 s2 FP2) as (t2 & ->); [unfold total; lia|].
    eauto.
Qed.

(** A node that is split into nothing and itself. *)
Lemma divide_loops v n :
  n = stretch big [] v [] [] ->
  is_bottom minSize maxSize n [] v [] [] = false ->
  forallb (fun o => negb (below n o) && above n o) v = true ->
  forall fuel, div fuel n [] v [] [] = None.
Proof.
  intros En B F.
  assert (U : scan_up (below n) (length v) v 0 = 0).
  { destruct v; simpl in *; auto. destruct (below n o); auto. discriminate. }
  assert (D : forall q, q <= length v -> scan_down (above n) v q = 0).
  { induction q; simpl; intros; auto. destruct (nth_error v q) eqn:E.
    - rewrite forallb_forall in F. apply nth_error_In in E. specialize (F _ E).
      destruct (above n o); [apply IHq; lia|]. rewrite andb_false_r in F. discriminate.
    - apply nth_error_None in E. lia. }
  assert (V : distribute (below n) (above n) v = ([], v)).
  { assert (L : forall f, partition_loop (below n) (above n) f v 0 (length v) = (v, 0)).
    { intros [|f]; auto. cbn [partition_loop]. destruct (Nat.ltb 0 (length v)); auto. rewrite U, D by lia. auto. }
    unfold distribute. rewrite L. auto. }
  assert (N : distribute (below n) (above n) [] = ([] : list (obj K), [])) by reflexivity.
  induction fuel as [|k IH]; cbn [divide]; rewrite B; auto.
  rewrite V, N. cbn [distribute_list filter]. rewrite <- En, IH.
  match goal with |- match ?d with Some _ => _ | None => _ end = _ => destruct d end; auto.
Qed.
End Tree.

(** * Near and far nodes *)

Section Near.
Context {K : Num}.

Lemma subtree_app (t : tree K) p q : subtree t (p ++ q) = match subtree t p with Some u => subtree u q | None => None end.
Proof.
  revert t; induction p as [|[] p IH]; intros t; destruct t; simpl; auto.
Qed.

Lemma near_cover (root : tree K) is_far : forall t path near farr,
  subtree root path = Some t -> find_near is_far path t = (near, farr) ->
  Permutation (near ++ flat_map (leaves_below root) farr) (map (app path) (leaf_paths t)).
Proof.
  induction t as [n b v h s|n t1 IH1 t2 IH2]; intros path near farr S E; cbn [find_near node_of] in E.
  - destruct (is_far n); injection E as <- <-; simpl; unfold leaves_below; rewrite ?S; simpl; rewrite app_nil_r; auto.
  - destruct (is_far n).
    + injection E as <- <-. simpl. unfold leaves_below. rewrite S, app_nil_r. auto.
    + destruct (find_near is_far (path ++ [false]) t1) as [n1 f1] eqn:E1.
      destruct (find_near is_far (path ++ [true]) t2) as [n2 f2] eqn:E2.
      injection E as <- <-.
      apply IH1 in E1; [|rewrite subtree_app, S; destruct t1; auto].
      apply IH2 in E2; [|rewrite subtree_app, S; destruct t2; auto].
      rewrite !flat_map_app. cbn [leaf_paths]. rewrite map_app, !map_map.
      rewrite (map_ext (fun x => path ++ false :: x) (app (path ++ [false]))) by (intros; rewrite <- app_assoc; auto).
      rewrite (map_ext (fun x => path ++ true :: x) (app (path ++ [true]))) by (intros; rewrite <- app_assoc; auto).
      etransitivity; [|apply Permutation_app; [apply E1|apply E2]].
      rewrite <- !app_assoc. apply Permutation_app_head. apply Permutation_app_swap_app.
Qed.

Lemma leaf_paths_nodup (t : tree K) : NoDup (leaf_paths t).
Proof.
  induction t as [n b v h s|n t1 IH1 t2 IH2]; cbn [leaf_paths].
  - constructor; [intros []|constructor].
  - assert (C : forall c, FinFun.Injective (@cons bool c)) by (intros c a b E; congruence).
    assert (D : forall l1 l2 : list (list bool), NoDup l1 -> NoDup l2 ->
      (forall x, In x l1 -> ~ In x l2) -> NoDup (l1 ++ l2)).
    { induction l1; simpl; intros l2 N1 N2 X; auto. inversion N1; subst. constructor.
      - rewrite in_app_iff. intros [I|I]; auto. apply (X a); auto.
      - apply IHl1; auto. }
    apply D; try (apply FinFun.Injective_map_NoDup; auto).
    intros x H1 H2. apply in_map_iff in H1, H2. destruct H1 as (? & <- & _), H2 as (? & E & _). discriminate.
Qed.

Lemma leaf_paths_leaf (t : tree K) p : In p (leaf_paths t) <-> exists u, subtree t p = Some u /\ leaves u = [u].
Proof.
  revert p; induction t as [n b v h s|n t1 IH1 t2 IH2]; intros p; cbn [leaf_paths].
  - split.
    + intros [<-|[]]. eexists. split; reflexivity.
    + intros (u & E & _). destruct p as [|[] p]; simpl in *; auto; discriminate.
  - rewrite in_app_iff, !in_map_iff. split.
    + intros [(x & <- & H)|(x & <- & H)]; simpl; [apply IH1|apply IH2]; auto.
    + intros (u & E & L). destruct p as [|[] p]; simpl in E.
      * injection E as <-. exfalso. simpl in L.
        assert (LL : length (leaves t1 ++ leaves t2) = 1) by (rewrite L; auto).
        assert (N : forall t : tree K, length (leaves t) <> 0).
        { induction t; simpl; [lia|]. rewrite app_length. lia. }
        rewrite app_length in LL. pose proof (N t1). pose proof (N t2). lia.
      * right. exists p. split; auto. apply IH2. eauto.
      * left. exists p. split; auto. apply IH1. eauto.
Qed.

Lemma near_are_leaves (root : tree K) is_far : forall t path near farr,
  subtree root path = Some t -> find_near is_far path t = (near, farr) ->
  (forall p, In p near -> exists u, subtree root p = Some u /\ leaves u = [u] /\ is_far (node_of u) = false) /\
  (forall p, In p farr -> exists u, subtree root p = Some u /\ is_far (node_of u) = true).
Proof.
  induction t as [n b v h s|n t1 IH1 t2 IH2]; intros path near farr S E; cbn [find_near node_of] in E.
  - destruct (is_far n) eqn:F; injection E as <- <-; split; intros p Hp; try destruct Hp as [<-|[]];
      try destruct Hp; eexists; split; eauto.
  - destruct (is_far n) eqn:F.
    + injection E as <- <-. split; [intros p []|]. intros p [<-|[]]; eexists; split; eauto.
    + destruct (find_near is_far (path ++ [false]) t1) as [n1 f1] eqn:E1.
      destruct (find_near is_far (path ++ [true]) t2) as [n2 f2] eqn:E2.
      injection E as <- <-.
      apply IH1 in E1; [|rewrite subtree_app, S; destruct t1; auto].
      apply IH2 in E2; [|rewrite subtree_app, S; destruct t2; auto].
      destruct E1 as [A1 A2], E2 as [B1 B2].
      split; intros p Hp; apply in_app_or in Hp; destruct Hp; auto.
Qed.
End Near.
