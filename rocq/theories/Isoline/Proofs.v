From Coq Require Import ZArith Bool List Lia Arith.
From Flocq Require Import Core.Core IEEE754.BinarySingleNaN.
From Verif.Base Require Import Num.
From Verif.Isoline Require Import Model Spec.
Import ListNotations.

(** * Merging *)
Section Merge.
Context {P V : Type}.
Variable peq : P -> P -> bool.
Variable val : P -> V.
Variable eqV : forall a b : V, {a = b} + {a <> b}.
Hypothesis peq_val : forall a b, peq a b = true -> val a = val b.

Notation cnt := (count val eqV).

Lemma count_app u v a b : cnt u v (a ++ b) = cnt u v a + cnt u v b.
Proof. unfold count. rewrite filter_app, app_length. reflexivity. Qed.

Lemma count_cons u v e es : cnt u v (e :: es) = cnt u v [e] + cnt u v es.
Proof. apply (count_app u v [e] es). Qed.

Lemma count_val u v a b a' b' : val a = val a' -> val b = val b' ->
  cnt u v [(a, b)] = cnt u v [(a', b')].
Proof. intros E1 E2. unfold count. simpl. rewrite E1, E2. destruct (_ || _); reflexivity. Qed.

Lemma count_swap u v a b : cnt u v [(a, b)] = cnt u v [(b, a)].
Proof.
  unfold count. simpl.
  destruct (eqV (val a) u), (eqV (val b) v), (eqV (val a) v), (eqV (val b) u); reflexivity.
Qed.

Lemma count_degenerate u v a b : u <> v -> val a = val b -> cnt u v [(a, b)] = 0.
Proof.
  intros N E. unfold count. simpl. rewrite E.
  destruct (eqV (val b) u), (eqV (val b) v); simpl; try reflexivity.
  exfalso; apply N; congruence.
Qed.

(** edges of concatenations and reversals *)

Lemma back_app (l : list P) p : back (l ++ [p]) = Some p.
Proof.
  induction l as [|a l IH]; [reflexivity|]. simpl app.
  destruct (l ++ [p]) eqn:E; [destruct l; discriminate|]. simpl. rewrite <- IH. reflexivity.
Qed.

Lemma back_spec (l : list P) b : back l = Some b -> exists l', l = l' ++ [b].
Proof.
  destruct l as [|a l] using rev_ind; [discriminate|].
  rewrite back_app. intros E; injection E as ->. exists l. reflexivity.
Qed.

Lemma edges_app1 (l : list P) a b (r : list P) :
  edges ((l ++ [a]) ++ b :: r) = edges (l ++ [a]) ++ (a, b) :: edges (b :: r).
Proof.
  induction l as [|x l IH]; [reflexivity|].
  destruct l as [|y l].
  - simpl. reflexivity.
  - change (((x :: y :: l) ++ [a]) ++ b :: r) with (x :: (((y :: l) ++ [a]) ++ b :: r)).
    change (edges ((x :: y :: l) ++ [a])) with ((x, y) :: edges ((y :: l) ++ [a])).
    change (((x, y) :: edges ((y :: l) ++ [a])) ++ (a, b) :: edges (b :: r))
      with ((x, y) :: (edges ((y :: l) ++ [a]) ++ (a, b) :: edges (b :: r))).
    rewrite <- IH. reflexivity.
Qed.

Lemma count_rev u v (l : list P) : cnt u v (edges (rev l)) = cnt u v (edges l).
Proof.
  induction l as [|a l IH]; [reflexivity|].
  destruct l as [|b l]; [reflexivity|].
  change (rev (a :: b :: l)) with ((rev l ++ [b]) ++ [a]).
  rewrite edges_app1. change (edges [a]) with (@nil (P * P)).
  rewrite count_app. change (rev l ++ [b]) with (rev (b :: l)). rewrite IH.
  change (edges (a :: b :: l)) with ((a, b) :: edges (b :: l)).
  rewrite (count_cons u v (a, b)), (count_swap u v a b). lia.
Qed.

(** joining two lines at points that compare equal adds only a degenerate edge *)
Lemma count_join u v (l1 l2 : list P) a b : u <> v ->
  back l1 = Some a -> front l2 = Some b -> val a = val b ->
  cnt u v (edges (l1 ++ l2)) = cnt u v (edges l1) + cnt u v (edges l2).
Proof.
  intros N Ha Hb E. apply back_spec in Ha as (l1' & ->).
  destruct l2 as [|b' l2]; [discriminate|]. injection Hb as ->.
  rewrite edges_app1, count_app, count_cons, (count_degenerate u v a b N E). lia.
Qed.

Lemma front_rev (l : list P) : front (rev l) = back l.
Proof.
  destruct l as [|a l] using rev_ind; [reflexivity|].
  rewrite rev_app_distr, back_app. reflexivity.
Qed.
Lemma back_rev (l : list P) : back (rev l) = front l.
Proof. rewrite <- front_rev, rev_involutive. reflexivity. Qed.

Definition all_edges (ls : list (list P)) := flat_map edges ls.

Lemma count_all_app u v a b : cnt u v (all_edges (a ++ b)) = cnt u v (all_edges a) + cnt u v (all_edges b).
Proof. unfold all_edges. rewrite flat_map_app. apply count_app. Qed.
Lemma count_all_cons u v l ls : cnt u v (all_edges (l :: ls)) = cnt u v (edges l) + cnt u v (all_edges ls).
Proof. unfold all_edges. simpl. apply count_app. Qed.

Definition long (l : list P) := 2 <= length l.

Lemma long_front l : long l -> exists f, front l = Some f.
Proof. destruct l; unfold long; simpl; [lia|]. eexists; reflexivity. Qed.
Lemma long_back l : long l -> exists b, back l = Some b.
Proof.
  intros H. destruct l as [|a l _] using rev_ind; [unfold long in H; simpl in H; lia|].
  exists a. apply back_app.
Qed.

Lemma join_front_count u v (side : bool) dst l f p : u <> v ->
  front l = Some f -> peq f p = true ->
  (if side then front dst else back dst) = Some p ->
  cnt u v (edges (join_front side dst l)) = cnt u v (edges dst) + cnt u v (edges l).
Proof.
  intros N Hf E Hp. apply peq_val in E. unfold join_front. destruct side.
  - rewrite (count_join u v _ _ f p); try assumption.
    + rewrite count_rev. lia.
    + rewrite back_rev. assumption.
  - rewrite (count_join u v _ _ p f); try assumption; congruence.
Qed.

Lemma join_back_count u v (side : bool) dst l b p : u <> v ->
  back l = Some b -> peq b p = true ->
  (if side then front dst else back dst) = Some p ->
  cnt u v (edges (join_back side dst l)) = cnt u v (edges dst) + cnt u v (edges l).
Proof.
  intros N Hb E Hp. apply peq_val in E. unfold join_back. destruct side.
  - rewrite (count_join u v _ _ b p); try assumption. lia.
  - rewrite (count_join u v _ _ p b); try assumption; try congruence.
    + rewrite count_rev. lia.
    + rewrite front_rev. assumption.
Qed.

Lemma join_front_long side dst l : long dst -> long (join_front side dst l).
Proof. unfold long, join_front. destruct side; rewrite app_length; lia. Qed.
Lemma join_back_long side dst l : long dst -> long (join_back side dst l).
Proof. unfold long, join_back. destruct side; rewrite app_length; lia. Qed.

Lemma merge_into_spec p (side : bool) dst ls :
  long dst -> Forall long ls -> (if side then front dst else back dst) = Some p ->
  match merge_into peq p side dst ls with
  | UBm => False
  | NoMatch => True
  | Joined d o => long d /\ Forall long o /\
      forall u v, u <> v ->
        cnt u v (edges d) + cnt u v (all_edges o) = cnt u v (edges dst) + cnt u v (all_edges ls)
  end.
Proof.
  intros Hd Hls Hp. induction Hls as [|l ls Hl Hls IH]; [exact I|].
  cbn [merge_into]. destruct (long_front l Hl) as (f & Hf). destruct (long_back l Hl) as (b & Hb).
  rewrite Hf, Hb. destruct (peq f p) eqn:E1.
  - split; [apply join_front_long; assumption|]. split; [assumption|]. intros u v N.
    rewrite (join_front_count u v side dst l f p) by assumption. rewrite count_all_cons. lia.
  - destruct (peq b p) eqn:E2.
    + split; [apply join_back_long; assumption|]. split; [assumption|]. intros u v N.
      rewrite (join_back_count u v side dst l b p) by assumption. rewrite count_all_cons. lia.
    + destruct (merge_into peq p side dst ls) as [| |d o]; try assumption.
      destruct IH as (H1 & H2 & H3). split; [assumption|]. split; [constructor; assumption|].
      intros u v N. rewrite !count_all_cons. specialize (H3 u v N). lia.
Qed.

Lemma merge_lines_spec before dst after side :
  Forall long before -> long dst -> Forall long after ->
  exists r, merge_lines peq before dst after side = Some r /\ Forall long r /\
    forall u v, u <> v ->
      cnt u v (all_edges r) = cnt u v (all_edges before) + cnt u v (edges dst) + cnt u v (all_edges after).
Proof.
  intros Hb Hd Ha. unfold merge_lines.
  assert (exists p, (if side then front dst else back dst) = Some p) as (p & Hp).
  { destruct side; [apply long_front|apply long_back]; assumption. }
  rewrite Hp.
  pose proof (merge_into_spec p side dst before Hd Hb Hp) as M1.
  pose proof (merge_into_spec p side dst after Hd Ha Hp) as M2.
  destruct (merge_into peq p side dst before) as [| |d o]; [contradiction| |].
  - destruct (merge_into peq p side dst after) as [| |d o]; [contradiction| |].
    + eexists. split; [reflexivity|]. split.
      * apply Forall_app. split; [assumption|]. constructor; assumption.
      * intros u v N. rewrite count_all_app, count_all_cons. lia.
    + destruct M2 as (H1 & H2 & H3). eexists. split; [reflexivity|]. split.
      * apply Forall_app. split; [assumption|]. constructor; assumption.
      * intros u v N. rewrite count_all_app, count_all_cons. specialize (H3 u v N). lia.
  - destruct M1 as (H1 & H2 & H3). eexists. split; [reflexivity|]. split.
    + apply Forall_app. split; [assumption|]. constructor; assumption.
    + intros u v N. rewrite count_all_app, count_all_cons. specialize (H3 u v N). lia.
Qed.

Lemma edges_cons_front (p : P) l f : front l = Some f -> edges (p :: l) = (p, f) :: edges l.
Proof. destruct l; [discriminate|]. intros E; injection E as ->. reflexivity. Qed.
Lemma edges_snoc_back (p : P) l b : back l = Some b -> edges (l ++ [p]) = edges l ++ [(b, p)].
Proof. intros H. apply back_spec in H as (l' & ->). apply (edges_app1 l' b p []). Qed.

Lemma commit_from_spec p1 p2 all ls : forall before,
  Forall long before -> Forall long ls -> all = before ++ ls ->
  exists r, commit_from peq before ls all p1 p2 = Some r /\ Forall long r /\
    forall u v, u <> v ->
      cnt u v (all_edges r) = cnt u v [(p1, p2)] + cnt u v (all_edges all).
Proof.
  induction ls as [|l ls IH]; intros before Hb Hls Hall.
  - cbn [commit_from]. rewrite app_nil_r in Hall. subst all. eexists. split; [reflexivity|]. split.
    + constructor; [unfold long; simpl; lia|assumption].
    + intros u v N. rewrite count_all_cons. reflexivity.
  - inversion Hls as [|? ? Hl Hls']; subst.
    cbn [commit_from]. destruct (long_front l Hl) as (f & Hf). destruct (long_back l Hl) as (b & Hbk).
    rewrite Hf, Hbk.
    assert (Lc : forall p, long (p :: l)) by (unfold long in *; simpl; lia).
    assert (La : forall p, long (l ++ [p])) by (unfold long in *; intros; rewrite app_length; simpl; lia).
    destruct (peq f p1) eqn:E1; [|destruct (peq f p2) eqn:E2; [|destruct (peq b p1) eqn:E3; [|destruct (peq b p2) eqn:E4]]].
    + destruct (merge_lines_spec before (p2 :: l) ls true Hb (Lc _) Hls') as (r & R1 & R2 & R3).
      exists r. split; [assumption|]. split; [assumption|]. intros u v N. rewrite R3 by assumption.
      rewrite (edges_cons_front p2 l f Hf), (count_cons u v (p2, f)), count_all_app, count_all_cons.
      rewrite (count_swap u v p1 p2), (count_val u v p2 f p2 p1); auto. lia.
    + destruct (merge_lines_spec before (p1 :: l) ls true Hb (Lc _) Hls') as (r & R1 & R2 & R3).
      exists r. split; [assumption|]. split; [assumption|]. intros u v N. rewrite R3 by assumption.
      rewrite (edges_cons_front p1 l f Hf), (count_cons u v (p1, f)), count_all_app, count_all_cons.
      rewrite (count_val u v p1 f p1 p2); auto. lia.
    + destruct (merge_lines_spec before (l ++ [p2]) ls false Hb (La _) Hls') as (r & R1 & R2 & R3).
      exists r. split; [assumption|]. split; [assumption|]. intros u v N. rewrite R3 by assumption.
      rewrite (edges_snoc_back p2 l b Hbk), count_app, count_all_app, count_all_cons.
      rewrite (count_val u v b p2 p1 p2); auto. lia.
    + destruct (merge_lines_spec before (l ++ [p1]) ls false Hb (La _) Hls') as (r & R1 & R2 & R3).
      exists r. split; [assumption|]. split; [assumption|]. intros u v N. rewrite R3 by assumption.
      rewrite (edges_snoc_back p1 l b Hbk), count_app, count_all_app, count_all_cons.
      rewrite (count_swap u v b p1), (count_val u v p1 b p1 p2); auto. lia.
    + destruct (IH (before ++ [l])) as (r & R1 & R2 & R3).
      * apply Forall_app. split; [assumption|]. constructor; [assumption|constructor].
      * assumption.
      * rewrite <- app_assoc. reflexivity.
      * exists r. auto.
Qed.

Lemma commit_all_spec segs : forall ls,
  Forall long ls ->
  exists r, commit_all peq ls segs = Some r /\ Forall long r /\
    forall u v, u <> v -> cnt u v (all_edges r) = cnt u v segs + cnt u v (all_edges ls).
Proof.
  induction segs as [|(p1, p2) segs IH]; intros ls Hls.
  - exists ls. auto.
  - cbn [commit_all]. unfold commit_segment.
    destruct (commit_from_spec p1 p2 ls ls [] (Forall_nil _) Hls eq_refl) as (r & R1 & R2 & R3).
    rewrite R1. destruct (IH r R2) as (r' & Q1 & Q2 & Q3). exists r'.
    split; [assumption|]. split; [assumption|]. intros u v N.
    rewrite Q3, R3, (count_cons u v (p1, p2) segs) by assumption. lia.
Qed.

End Merge.

(** * Maximality: two lines never share an end point *)
Section Maximal.
Context {P : Type}.
Variable peq : P -> P -> bool.
Hypothesis peq_sym : forall a b, peq a b = true -> peq b a = true.
Hypothesis peq_trans : forall a b c, peq a b = true -> peq b c = true -> peq a c = true.

(** [p] compares equal to an end of [l]. *)
Definition touches (p : P) (l : list P) : Prop :=
  exists e, In e (ends l) /\ peq p e = true.

Definition apart (l1 l2 : list P) : Prop :=
  forall a b, In a (ends l1) -> In b (ends l2) -> peq a b = false.

Lemma apart_sym l1 l2 : apart l1 l2 -> apart l2 l1.
Proof.
  intros H a b Ha Hb. apply not_true_iff_false. intros E. apply peq_sym in E.
  rewrite (H b a Hb Ha) in E. discriminate.
Qed.

Inductive all_apart : list (list P) -> Prop :=
| aa_nil : all_apart []
| aa_cons l ls : Forall (apart l) ls -> all_apart ls -> all_apart (l :: ls).

Lemma all_apart_app a b : all_apart (a ++ b) <->
  all_apart a /\ all_apart b /\ Forall (fun l => Forall (apart l) b) a.
Proof.
  induction a as [|l a IH]; simpl.
  - split; [intros H; repeat split; [constructor|assumption|constructor]|tauto].
  - split.
    + intros H. inversion H as [|? ? H1 H2]; subst. apply IH in H2 as (A & B & C).
      apply Forall_app in H1 as (H1 & H3).
      repeat split; try assumption; constructor; assumption.
    + intros (A & B & C). inversion A; subst. inversion C; subst. constructor.
      * apply Forall_app; auto.
      * apply IH; auto.
Qed.

Lemma all_apart_mid a d b : all_apart (a ++ d :: b) <->
  all_apart (a ++ b) /\ Forall (apart d) (a ++ b).
Proof.
  rewrite !all_apart_app, Forall_app. split.
  - intros (A & B & C). inversion B; subst.
    repeat split; try assumption.
    + eapply Forall_impl; [|exact C]. intros l H. inversion H; assumption.
    + eapply Forall_impl; [|exact C]. intros l H. inversion H; subst. apply apart_sym; assumption.
  - intros ((A & B & C) & D & E). repeat split; try assumption.
    + constructor; assumption.
    + rewrite Forall_forall in *. intros l Hl. constructor; [apply apart_sym; auto|apply C; assumption].
Qed.

Lemma last_default (t : list P) a b : t <> [] -> last t a = last t b.
Proof. induction t as [|x t IH]; [congruence|]. intros _. simpl. destruct t; [reflexivity|apply IH; congruence]. Qed.

Lemma last_back (a : P) t : back (a :: t) = Some (last t a).
Proof.
  revert a. induction t as [|b t IH]; intros a; [reflexivity|].
  change (back (a :: b :: t)) with (back (b :: t)). rewrite IH.
  destruct t as [|c t]; [reflexivity|]. f_equal.
  change (last (b :: c :: t) a) with (last (c :: t) a). apply last_default. discriminate.
Qed.

Lemma ends_spec (l : list P) f b : front l = Some f -> back l = Some b -> ends l = [f; b].
Proof.
  destruct l as [|a t]; [discriminate|]. intros E1. injection E1 as ->.
  rewrite last_back. intros E2. injection E2 as <-. reflexivity.
Qed.

Lemma front_app_ne (l r : list P) : l <> [] -> front (l ++ r) = front l.
Proof. destruct l; [congruence|reflexivity]. Qed.
Lemma back_app_ne (l r : list P) : r <> [] -> back (l ++ r) = back r.
Proof.
  intros H. destruct r as [|a r _] using rev_ind; [congruence|].
  rewrite app_assoc, !back_app. reflexivity.
Qed.

Lemma front_ne (l : list P) f : front l = Some f -> l <> [].
Proof. destruct l; [discriminate|congruence]. Qed.

(** the far end of [dst] *)
Definition far (side : bool) (dst : list P) := if side then back dst else front dst.

(** ends of the joined line: the far end of dst and the other end of l *)
Lemma ends_join_front side (dst l : list P) f b e :
  dst <> [] -> front l = Some f -> back l = Some b -> far side dst = Some e ->
  forall x, In x (ends (join_front side dst l)) -> x = e \/ x = b.
Proof.
  intros Nd Hf Hb He x Hx. pose proof (front_ne l f Hf) as Nl. unfold join_front, far in *.
  assert (Nr : rev l <> []) by (intros K; apply Nl; rewrite <- (rev_involutive l), K; reflexivity).
  destruct side.
  - rewrite (ends_spec _ b e) in Hx.
    + simpl in Hx. intuition.
    + rewrite front_app_ne, front_rev by assumption. assumption.
    + rewrite back_app_ne by assumption. assumption.
  - rewrite (ends_spec _ e b) in Hx.
    + simpl in Hx. intuition.
    + rewrite front_app_ne by assumption. assumption.
    + rewrite back_app_ne by assumption. assumption.
Qed.

Lemma ends_join_back side (dst l : list P) f b e :
  dst <> [] -> front l = Some f -> back l = Some b -> far side dst = Some e ->
  forall x, In x (ends (join_back side dst l)) -> x = e \/ x = f.
Proof.
  intros Nd Hf Hb He x Hx. pose proof (front_ne l f Hf) as Nl. unfold join_back, far in *.
  assert (Nr : rev l <> []) by (intros K; apply Nl; rewrite <- (rev_involutive l), K; reflexivity).
  destruct side.
  - rewrite (ends_spec _ f e) in Hx.
    + simpl in Hx. intuition.
    + rewrite front_app_ne by assumption. assumption.
    + rewrite back_app_ne by assumption. assumption.
  - rewrite (ends_spec _ e f) in Hx.
    + simpl in Hx. intuition.
    + rewrite front_app_ne by assumption. assumption.
    + rewrite back_app_ne, back_rev by assumption. assumption.
Qed.

(** What [merge_into] does to ends: no match means that the point touches no
    line; a match replaces one line [l]. *)
Lemma merge_into_shape p side dst (ls : list (list P)) :
  Forall long ls ->
  match merge_into peq p side dst ls with
  | UBm => False
  | NoMatch => forall l e, In l ls -> In e (ends l) -> peq e p = false
  | Joined d o => exists a l b, ls = a ++ l :: b /\ o = a ++ b /\
      exists f k, front l = Some f /\ back l = Some k /\
        ((peq f p = true /\ d = join_front side dst l) \/
         (peq k p = true /\ d = join_back side dst l))
  end.
Proof.
  induction 1 as [|l ls Hl Hls IH]; simpl; [intros ? ? []|].
  destruct (long_front l Hl) as (f & Hf). destruct (long_back l Hl) as (b & Hb).
  rewrite Hf, Hb. destruct (peq f p) eqn:E1.
  - exists [], l, ls. repeat split. exists f, b. auto.
  - destruct (peq b p) eqn:E2.
    + exists [], l, ls. repeat split. exists f, b. auto.
    + destruct (merge_into peq p side dst ls) as [| |d o]; try assumption.
      * intros l' e [<-|Hin] He.
        -- rewrite (ends_spec l f b Hf Hb) in He. destruct He as [<-|[<-|[]]]; assumption.
        -- eapply IH; eassumption.
      * destruct IH as (a & l' & c & -> & -> & K). exists (l :: a), l', c. auto.
Qed.

Lemma apart_front (l : list P) f b m : front l = Some f -> back l = Some b -> apart l m ->
  forall y, In y (ends m) -> peq f y = false /\ peq b y = false.
Proof.
  intros Hf Hb H y Hy. split; apply H; auto; rewrite (ends_spec l f b Hf Hb); simpl; auto.
Qed.

(** Merging keeps lines apart, when the lines other than [dst] are apart from
    one another and from the far end of [dst]. *)
Lemma merge_apart before dst after side e r :
  Forall long before -> Forall long after -> long dst ->
  all_apart (before ++ after) ->
  far side dst = Some e ->
  (forall l y, In l (before ++ after) -> In y (ends l) -> peq e y = false) ->
  merge_lines peq before dst after side = Some r -> all_apart r.
Proof.
  intros Lb La Ld Hap He Hfar Hm.
  assert (Nd : dst <> []) by (destruct dst; [unfold long in Ld; simpl in Ld; lia|congruence]).
  unfold merge_lines in Hm.
  destruct (if side then front dst else back dst) as [p|] eqn:Hp; [|discriminate].
  assert (JOINED : forall a l b d o,
    before ++ after = a ++ l :: b -> o = a ++ b -> long l ->
    (exists f k, front l = Some f /\ back l = Some k /\
        ((peq f p = true /\ d = join_front side dst l) \/
         (peq k p = true /\ d = join_back side dst l))) ->
    all_apart o /\ Forall (apart d) o).
  { intros a l b d o E -> Hl (f & k & Hf & Hk & Hd).
    rewrite E in Hap. apply all_apart_mid in Hap as (H1 & H2). split; [assumption|].
    rewrite Forall_forall in *. intros m Hm'. specialize (H2 m Hm').
    intros x y Hx Hy.
    destruct (apart_front l f k m Hf Hk H2 y Hy) as (A & B).
    assert (C : peq e y = false).
    { apply (Hfar m y); [|assumption]. rewrite E. apply in_app_iff in Hm'. apply in_app_iff. simpl. tauto. }
    destruct Hd as [(_ & ->)|(_ & ->)].
    - destruct (ends_join_front side dst l f k e Nd Hf Hk He x Hx) as [->| ->]; assumption.
    - destruct (ends_join_back side dst l f k e Nd Hf Hk He x Hx) as [->| ->]; assumption. }
  pose proof (merge_into_shape p side dst before Lb) as S1.
  pose proof (merge_into_shape p side dst after La) as S2.
  destruct (merge_into peq p side dst before) as [| |d o]; [discriminate| |].
  - destruct (merge_into peq p side dst after) as [| |d o]; [discriminate| |].
    + injection Hm as <-. apply all_apart_mid. split; [assumption|].
      rewrite Forall_forall. intros l Hl x y Hx Hy.
      assert (Hpx : x = p \/ x = e).
      { unfold far in He. destruct side.
        - rewrite (ends_spec dst p e Hp He) in Hx. destruct Hx as [<-|[<-|[]]]; auto.
        - rewrite (ends_spec dst e p He Hp) in Hx. destruct Hx as [<-|[<-|[]]]; auto. }
      destruct Hpx as [->| ->].
      * apply not_true_iff_false. intros K. apply peq_sym in K.
        apply in_app_iff in Hl as [Hl|Hl].
        -- rewrite (S1 l y Hl Hy) in K. discriminate.
        -- rewrite (S2 l y Hl Hy) in K. discriminate.
      * eapply Hfar; eassumption.
    + injection Hm as <-. destruct S2 as (a & l & b & E1 & -> & K).
      destruct (JOINED (before ++ a) l b d (before ++ a ++ b)) as (J1 & J2).
      * rewrite E1, <- app_assoc. reflexivity.
      * rewrite app_assoc. reflexivity.
      * rewrite E1 in La. apply Forall_app in La as (_ & La). inversion La; assumption.
      * assumption.
      * apply all_apart_mid. split; assumption.
  - injection Hm as <-. destruct S1 as (a & l & b & E1 & -> & K).
    destruct (JOINED a l (b ++ after) d ((a ++ b) ++ after)) as (J1 & J2).
    + rewrite E1, <- app_assoc. reflexivity.
    + rewrite app_assoc. reflexivity.
    + rewrite E1 in Lb. apply Forall_app in Lb as (_ & Lb). inversion Lb; assumption.
    + assumption.
    + apply all_apart_mid. split; assumption.
Qed.

Lemma commit_apart p1 p2 all ls : forall before r,
  Forall long before -> Forall long ls -> all = before ++ ls -> all_apart all ->
  (forall l e, In l before -> In e (ends l) -> peq e p1 = false /\ peq e p2 = false) ->
  commit_from peq before ls all p1 p2 = Some r -> all_apart r.
Proof.
  induction ls as [|l ls IH]; intros before r Hb Hls Hall Hap Hno Hc.
  - simpl in Hc. injection Hc as <-. rewrite app_nil_r in Hall. subst all. constructor; [|assumption].
    rewrite Forall_forall. intros m Hm x y Hx Hy. destruct (Hno m y Hm Hy) as (A & B).
    apply not_true_iff_false. intros K. apply peq_sym in K.
    destruct Hx as [<-|[<-|[]]]; simpl in K; congruence.
  - inversion Hls as [|? ? Hl Hls']; subst. simpl in Hc.
    destruct (long_front l Hl) as (f & Hf). destruct (long_back l Hl) as (b & Hbk).
    rewrite Hf, Hbk in Hc.
    pose proof Hap as Hap'. apply all_apart_mid in Hap' as (A1 & A2).
    rewrite Forall_forall in A2.
    assert (Ne : l <> []) by (eapply front_ne; eassumption).
    assert (Lc : forall p, long (p :: l)) by (unfold long in *; simpl; lia).
    assert (La : forall p, long (l ++ [p])) by (unfold long in *; intros; rewrite app_length; simpl; lia).
    assert (Bc : forall p, back (p :: l) = Some b) by (intros p; change (back ([p] ++ l) = Some b); rewrite back_app_ne by assumption; assumption).
    assert (Fa : forall p, front (l ++ [p]) = Some f) by (intros p; rewrite front_app_ne by assumption; assumption).
    assert (FB : forall m y, In m (before ++ ls) -> In y (ends m) -> peq f y = false /\ peq b y = false).
    { intros m y Hm Hy. apply (apart_front l f b m); auto. }
    destruct (peq f p1) eqn:E1; [|destruct (peq f p2) eqn:E2; [|destruct (peq b p1) eqn:E3; [|destruct (peq b p2) eqn:E4]]].
    + eapply merge_apart with (side := true) (e := b); [exact Hb|exact Hls'|apply Lc|exact A1|apply Bc| |exact Hc].
      intros m y Hm Hy. apply (FB m y Hm Hy).
    + eapply merge_apart with (side := true) (e := b); [exact Hb|exact Hls'|apply Lc|exact A1|apply Bc| |exact Hc].
      intros m y Hm Hy. apply (FB m y Hm Hy).
    + eapply merge_apart with (side := false) (e := f); [exact Hb|exact Hls'|apply La|exact A1|apply Fa| |exact Hc].
      intros m y Hm Hy. apply (FB m y Hm Hy).
    + eapply merge_apart with (side := false) (e := f); [exact Hb|exact Hls'|apply La|exact A1|apply Fa| |exact Hc].
      intros m y Hm Hy. apply (FB m y Hm Hy).
    + apply (IH (before ++ [l]) r); [| |rewrite <- app_assoc; reflexivity|exact Hap| |exact Hc].
      * apply Forall_app. split; [assumption|]. constructor; [assumption|constructor].
      * assumption.
      * intros m e Hm He. apply in_app_iff in Hm as [Hm|[<-|[]]]; [apply (Hno m e Hm He)|].
        rewrite (ends_spec l f b Hf Hbk) in He. destruct He as [<-|[<-|[]]]; auto.
Qed.

Lemma commit_all_apart segs : forall ls r,
  Forall long ls -> all_apart ls -> commit_all peq ls segs = Some r -> all_apart r.
Proof.
  induction segs as [|(p1, p2) segs IH]; intros ls r Hl Ha H; cbn [commit_all] in H.
  - injection H as <-. assumption.
  - unfold commit_segment in H.
    destruct (commit_from peq [] ls ls p1 p2) as [ls'|] eqn:E; [|discriminate].
    apply (IH ls' r); try assumption.
    + destruct (commit_from_spec peq (fun _ : P => tt) (fun a b : unit => left (match a, b with tt, tt => eq_refl end))
                 (fun _ _ _ => eq_refl) p1 p2 ls ls [] (Forall_nil _) Hl eq_refl) as (r' & R1 & R2 & _).
      congruence.
    + eapply commit_apart; [| | | | |exact E]; auto. intros l e [].
Qed.

End Maximal.
