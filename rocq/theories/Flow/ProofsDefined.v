(** When the motion step is defined, for any numbers. *)

From Coq Require Import ZArith Bool List Lia.
From Verif.Base Require Import Num.
From Verif.Body Require Import Model.
From Verif.Flow Require Import Model Spec Proofs.
Import ListNotations.

Section Defined.
Context {K : Num}.
Variables inf dbl_max : K.
Variables cosf sinf : K -> K.
Variable eps : K.

Definition sizes (b : fbody K) : nat * nat := (length (segs b), length (alist (geo b))).
Definition sound (b : fbody K) : Prop := alist (geo b) <> [] /\ wf b.
Definition fine (q : nat * nat) : Prop := snd q <> O /\ fst q = snd q.

Lemma sound_fine bs : Forall sound bs <-> Forall fine (map sizes bs).
Proof.
  rewrite Forall_map. split; apply Forall_impl; intros b; unfold sound, fine, sizes, wf; cbn [fst snd];
    destruct (alist (geo b)); simpl; intuition congruence.
Qed.
Lemma sizes_sound bs bs' : map sizes bs' = map sizes bs -> Forall sound bs -> Forall sound bs'.
Proof. rewrite !sound_fine. intros ->. auto. Qed.

Lemma contour_def (b : body K) p l : l <> [] -> in_contour dbl_max b p l <> None.
Proof. unfold in_contour. intros N. destruct (_ && _); [discriminate|]. destruct l; [congruence|]. destruct (parity _ _ _); discriminate. Qed.
Lemma invalid_def b p : alist b <> [] -> is_point_invalid dbl_max b p <> None.
Proof. intros N. apply contour_def. destruct (alist b); simpl; congruence. Qed.
Lemma layer_def b p : alist b <> [] -> snd (is_point_in_heat_layer dbl_max b p) <> None.
Proof.
  intros N. unfold is_point_in_heat_layer. cbn [snd]. apply contour_def. destruct (heat_layer b); [|discriminate].
  unfold layer. destruct (alist b); simpl; congruence.
Qed.

Lemma first_hit_def : forall bs i p, Forall sound bs -> first_hit dbl_max i bs p <> None.
Proof.
  induction bs as [|b t IH]; intros i p F; cbn [first_hit]; [discriminate|]. inversion F as [|? ? [N W] F']; subst.
  pose proof (invalid_def (geo b) p N). destruct (is_point_invalid dbl_max (geo b) p) as [[k|]|]; [discriminate|auto|congruence].
Qed.
Lemma first_layer_def : forall bs p, Forall sound bs ->
  exists bs' h, first_layer dbl_max bs p = Some (bs', h) /\ map sizes bs' = map sizes bs /\
  match h with None => True | Some (i, k) => exists b, nth_error bs' i = Some b /\ (k < length (alist (geo b)))%nat end.
Proof.
  induction bs as [|b t IH]; intros p F; cbn [first_layer]; [exists [], None; auto|]. inversion F as [|? ? [N W] F']; subst.
  pose proof (layer_def (geo b) p N) as X.
  destruct (is_point_in_heat_layer dbl_max (geo b) p) as [x q] eqn:Q. cbn [snd] in X.
  assert (A : alist x = alist (geo b)) by (unfold is_point_in_heat_layer in Q; injection Q as <- _; reflexivity).
  assert (B : sizes (set_geo x b) = sizes b) by (unfold sizes; cbn [segs geo set_geo]; rewrite A; reflexivity).
  destruct q as [[k|]|]; [| |congruence].
  - do 2 eexists. split; [reflexivity|]. cbn [map]. rewrite B. split; auto. exists (set_geo x b). split; [reflexivity|].
    cbn [geo set_geo]. rewrite A. eapply layer_bound. rewrite Q. reflexivity.
  - destruct (IH p F') as (t' & h & E & S & H). rewrite E. destruct h as [[i k]|].
    + do 2 eexists. split; [reflexivity|]. cbn [map]. rewrite B, S. auto.
    + do 2 eexists. split; [reflexivity|]. cbn [map]. rewrite B, S. auto.
Qed.

Lemma absorb_sizes (o : obj K) i k bs : map sizes (change i (absorb o k) bs) = map sizes bs.
Proof. apply change_map. intros b. unfold sizes. cbn [segs geo absorb set_dead]. rewrite change_length. reflexivity. Qed.
Lemma seg_sizes i k f (bs : list (fbody K)) : map sizes (change_seg i k f bs) = map sizes bs.
Proof. apply change_map. intros b. unfold sizes. cbn [segs geo set_segs]. rewrite change_length. reflexivity. Qed.

Lemma clean_vort_def : forall l bs, Forall sound bs -> exists bs' l' n, clean_vort dbl_max bs l = Some (bs', l', n) /\ map sizes bs' = map sizes bs.
Proof.
  induction l as [|o t IH]; intros bs F; cbn [clean_vort]; [do 3 eexists; eauto|].
  pose proof (first_hit_def bs 0 (pos o) F). destruct (first_hit dbl_max 0 bs (pos o)) as [[[i k]|]|]; [| |congruence].
  - destruct (IH (change i (absorb o k) bs)) as (bs' & l' & n & E & S); [eapply sizes_sound; [apply absorb_sizes|auto]|].
    rewrite E. do 3 eexists. split; [reflexivity|]. rewrite S. apply absorb_sizes.
  - destruct (IH bs F) as (bs' & l' & n & E & S). rewrite E. do 3 eexists. split; [reflexivity|]. auto.
Qed.
Lemma clean_heat_def : forall l n bs, Forall sound bs -> exists bs' l', clean_heat dbl_max n bs l = Some (bs', l') /\ map sizes bs' = map sizes bs.
Proof.
  induction l as [|o t IH]; intros n bs F; cbn [clean_heat]; [do 2 eexists; eauto|].
  pose proof (first_hit_def bs 0 (pos o) F). destruct (first_hit dbl_max 0 bs (pos o)) as [[[i k]|]|]; [| |congruence].
  - destruct (IH n (change_seg i k (take_h (og o)) bs)) as (bs' & l' & E & S); [eapply sizes_sound; [apply seg_sizes|auto]|].
    rewrite E. do 2 eexists. split; [reflexivity|]. rewrite S. apply seg_sizes.
  - destruct (first_layer_def bs (pos o) F) as (bs1 & h & E & S & P). rewrite E.
    pose proof (sizes_sound _ _ S F) as F1.
    assert (KEEP : forall bs2 m, map sizes bs2 = map sizes bs1 -> exists bs' l',
      match clean_heat dbl_max m bs2 t with Some (bs', l') => Some (bs', o :: l') | None => None end = Some (bs', l') /\ map sizes bs' = map sizes bs).
    { intros bs2 m S2. destruct (IH m bs2 (sizes_sound _ _ S2 F1)) as (bs' & l' & E' & S'). rewrite E'. do 2 eexists. split; [reflexivity|congruence]. }
    destruct h as [[i k]|]; [|apply KEEP; reflexivity].
    destruct P as (b & N & L). unfold layer_taken. rewrite N.
    assert (Wb : wf b) by (rewrite Forall_forall in F1; apply F1; eapply nth_error_In; eauto).
    unfold wf in Wb. rewrite <- Wb in L. apply nth_error_Some in L. destruct (nth_error (segs b) k) as [s|]; [|congruence].
    destruct (obj_no s), (cond b); try (apply KEEP; rewrite ?seg_sizes; reflexivity).
    destruct (IH n (change_seg i k (take_h (og o)) bs1)) as (bs' & l' & E' & S'); [eapply sizes_sound; [apply seg_sizes|auto]|].
    rewrite E'. do 2 eexists. split; [reflexivity|]. rewrite S', seg_sizes. auto.
Qed.
Lemma clean_streak_def bs : Forall sound bs -> forall l, clean_streak dbl_max bs l <> None.
Proof.
  intros F. induction l as [|o t IH]; cbn [clean_streak]; [discriminate|].
  pose proof (first_hit_def bs 0 (pos o) F). destruct (first_hit dbl_max 0 bs (pos o)) as [[[i k]|]|]; [| |congruence];
    destruct (clean_streak dbl_max bs t); congruence.
Qed.

Lemma segments_length (l : list (att K)) : length (update_segments l) = length l.
Proof.
  unfold update_segments, nexts. rewrite map_length. destruct l as [|a t]; auto.
  rewrite combine_length, app_length. cbn [length]. lia.
Qed.
Lemma refresh_length (b : body K) : length (alist (refresh inf b)) = length (alist b).
Proof.
  rewrite <- (segments_length (alist b)).
  unfold refresh, fill_properties. cbn [set_alist alist].
  destruct (update_segments (alist b)); [reflexivity|]. destruct (fill_cofm _). reflexivity.
Qed.
Lemma move_sizes fuel bs dt b b' : move_body inf cosf sinf fuel bs dt b = Some b' -> sizes b' = sizes b.
Proof.
  unfold move_body. destruct (deltas _ _ _ _ _ _) as [[dh db]|]; [|discriminate]. intros E. injection E as <-.
  unfold sizes. cbn [segs geo set_geo fst snd]. unfold move. rewrite refresh_length. cbn [alist]. rewrite map_length. reflexivity.
Qed.

Lemma chain_fuel bs dt : forall fuel (b : fbody K) e k, chain_error cosf sinf fuel bs dt b = Some e ->
  chain_error cosf sinf (fuel + k) bs dt b = Some e.
Proof.
  induction fuel as [|fuel IH]; intros b e k E; cbn [chain_error] in E.
  - destruct (root b) eqn:R; [discriminate|]. destruct k; cbn [chain_error plus]; rewrite R; exact E.
  - cbn [chain_error plus]. destruct (root b); [|exact E]. destruct (nth_error bs n); [|discriminate].
    destruct (chain_error cosf sinf fuel bs dt f) eqn:C; [|discriminate]. rewrite (IH _ _ k C). exact E.
Qed.

(** Chains that go down in some rank end. *)
Lemma chain_ends bs dt (rank : nat -> nat) :
  (forall i b j, nth_error bs i = Some b -> root b = Some j -> (rank j < rank i)%nat /\ nth_error bs j <> None) ->
  forall n i b, nth_error bs i = Some b -> (rank i <= n)%nat -> chain_error cosf sinf n bs dt b <> None.
Proof.
  intros A. induction n as [|n IH]; intros i b N L.
  - cbn [chain_error]. destruct (root b) as [j|] eqn:R; [|discriminate]. destruct (A i b j N R). lia.
  - cbn [chain_error]. destruct (root b) as [j|] eqn:R; [|discriminate]. destruct (A i b j N R) as [A1 A2].
    destruct (nth_error bs j) as [rt|] eqn:NJ; [|congruence].
    assert (C : chain_error cosf sinf n bs dt rt <> None) by (apply (IH j); [exact NJ|lia]).
    destruct (chain_error cosf sinf n bs dt rt); [discriminate|congruence].
Qed.

(** A body on a ring of roots never ends. *)
Lemma chain_ring bs dt (ring : nat -> Prop) :
  (forall j b, ring j -> nth_error bs j = Some b -> exists k, root b = Some k /\ ring k) ->
  forall fuel j b, ring j -> nth_error bs j = Some b -> chain_error cosf sinf fuel bs dt b = None.
Proof.
  intros A. induction fuel as [|fuel IH]; intros j b R N; cbn [chain_error]; destruct (A j b R N) as (k & -> & R'); [reflexivity|].
  destruct (nth_error bs k) as [rt|] eqn:NK; [|reflexivity]. rewrite (IH k rt R' NK). reflexivity.
Qed.

Lemma all_some_none {A B} (f : A -> option B) : forall l a, In a l -> f a = None -> all_some f l = None.
Proof.
  induction l as [|b t IH]; intros a I E; [destruct I|destruct I as [->|I]]; cbn [all_some].
  - rewrite E. reflexivity.
  - rewrite (IH a I E). destruct (f b); reflexivity.
Qed.

Theorem move_and_clean_ring fuel dt S (ring : nat -> Prop) i b :
  ring i -> nth_error (bodies S) i = Some b ->
  (forall j b, ring j -> nth_error (bodies S) j = Some b -> exists k, root b = Some k /\ ring k) ->
  move_and_clean inf dbl_max cosf sinf eps fuel dt S = None.
Proof.
  intros R N A. unfold move_and_clean. destruct (detect _ _ _ _) as [c p].
  assert (M : move_bodies inf cosf sinf fuel c (bodies S) = None).
  { apply (all_some_none _ _ b); [eapply nth_error_In; eauto|]. unfold move_body, deltas.
    rewrite (chain_ring (bodies S) c ring A fuel i b R N). destruct (match root b with None => _ | _ => _ end); reflexivity. }
  rewrite M. reflexivity.
Qed.

Theorem move_and_clean_def dt S (rank : nat -> nat) :
  Forall sound (bodies S) ->
  (forall i b j, nth_error (bodies S) i = Some b -> root b = Some j -> (rank j < rank i)%nat /\ nth_error (bodies S) j <> None) ->
  forall fuel, (forall i, (i < length (bodies S))%nat -> (rank i <= fuel)%nat) ->
  move_and_clean inf dbl_max cosf sinf eps fuel dt S <> None.
Proof.
  intros F A fuel L. unfold move_and_clean. destruct (detect _ _ _ _) as [c p].
  assert (M : move_bodies inf cosf sinf fuel c (bodies S) <> None).
  { apply all_some_total. intros b I. apply In_nth_error in I. destruct I as [i N]. unfold move_body, deltas.
    assert (C : chain_error cosf sinf fuel (bodies S) c b <> None).
    { eapply chain_ends; eauto. apply L. apply nth_error_Some. congruence. }
    destruct (chain_error cosf sinf fuel (bodies S) c b); [|congruence].
    destruct (root b) as [j|] eqn:R; [|discriminate]. destruct (A i b j N R) as [_ A2].
    destruct (nth_error (bodies S) j); [discriminate|congruence]. }
  destruct (move_bodies inf cosf sinf fuel c (bodies S)) as [bs|] eqn:E; [|congruence].
  assert (S1 : map sizes bs = map sizes (bodies S)).
  { apply all_some_spec in E.
    assert (Y : forall all l l', Forall2 (fun a b => move_body inf cosf sinf fuel all c a = Some b) l l' -> map sizes l' = map sizes l);
      [|eapply Y; exact E]. clear. intros all l l' E. induction E; auto. cbn [map]. rewrite IHE. f_equal. eapply move_sizes; eauto. }
  cbv zeta. destruct (clean_vort_def (filter (fun o => negb (small eps (og o))) (map (move_obj c) (vort S))) bs (sizes_sound _ _ S1 F)) as (bs1 & vl & n & -> & S2).
  assert (F1 : Forall sound bs1) by (eapply sizes_sound; [|exact F]; congruence).
  destruct (clean_heat_def (filter (fun o => negb (small eps (og o))) (map (move_obj c) (heat S))) 0 bs1 F1) as (bs2 & hl & -> & S3).
  assert (F2 : Forall sound bs2) by (eapply sizes_sound; [|exact F]; congruence).
  pose proof (clean_streak_def bs2 F2 (map (move_obj c) (streak S))).
  destruct (clean_streak dbl_max bs2 (map (move_obj c) (streak S))); [discriminate|congruence].
Qed.

(** Without isothermal bodies heat is treated like vortices. *)
Lemma clean_heat_plain : forall l n bs bs' l', clean_heat dbl_max n bs l = Some (bs', l') ->
  Forall (fun b : fbody K => cond b <> ConstT) bs ->
  l' = filter (fun o => negb (in_body dbl_max bs (pos o))) l.
Proof.
  induction l as [|o t IH]; intros n bs bs' l' E F; cbn [clean_heat] in E; [injection E as <- <-; auto|].
  pose proof (first_hit_spec dbl_max bs 0 (pos o)) as X.
  destruct (first_hit dbl_max 0 bs (pos o)) as [[[i k]|]|]; try discriminate; cbn [filter].
  - destruct X as [X _]. rewrite X. cbn [negb]. apply IH in E.
    + rewrite E. apply filter_ext. intros. f_equal. apply in_body_shape. apply change_seg_shape.
    + apply change_Forall; auto.
  - rewrite X. cbn [negb]. destruct (first_layer dbl_max bs (pos o)) as [[bs1 h]|] eqn:FL; [|discriminate].
    pose proof (first_layer_shape _ _ _ _ _ FL) as S1.
    assert (F1 : Forall (fun b : fbody K => cond b <> ConstT) bs1).
    { clear - FL F. revert bs1 h FL. induction bs as [|b t IH]; intros bs1 h E; cbn [first_layer] in E; [injection E as <- <-; constructor|].
      inversion F; subst. destruct (is_point_in_heat_layer dbl_max (geo b) (pos o)) as [x q].
      destruct q as [[k|]|]; try discriminate; [injection E as <- <-; constructor; auto|].
      destruct (first_layer dbl_max t (pos o)) as [[t' [[i k]|]]|]; try discriminate; injection E as <- <-; constructor; eauto. }
    assert (KEEP : match clean_heat dbl_max (S n) bs1 t with Some (bs', l') => Some (bs', o :: l') | None => None end = Some (bs', l') ->
      l' = o :: filter (fun o => negb (in_body dbl_max bs (pos o))) t).
    { destruct (clean_heat dbl_max (S n) bs1 t) as [[b2 l2]|] eqn:C; [|discriminate]. intros E'. injection E' as <- <-.
      apply IH in C; auto. rewrite C. f_equal. apply filter_ext. intros. f_equal. apply in_body_shape. exact S1. }
    destruct h as [[i k]|]; auto. unfold layer_taken in E. destruct (nth_error bs1 i) as [b|] eqn:N; [|discriminate].
    destruct (nth_error (segs b) k) as [s|]; [|discriminate].
    assert (cond b <> ConstT) by (rewrite Forall_forall in F1; apply F1; eapply nth_error_In; eauto).
    destruct (obj_no s), (cond b); auto; congruence.
Qed.
End Defined.
