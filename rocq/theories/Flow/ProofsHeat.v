(** The particles remembered by isothermal segments, for any numbers. *)

From Coq Require Import ZArith Bool List Lia.
From Verif.Base Require Import Num.
From Verif.Body Require Import Model.
From Verif.Flow Require Import Model Spec Proofs.
Import ListNotations.

Section Heat.
Context {K : Num}.
Variables inf dbl_max : K.
Variables cosf sinf : K -> K.
Variable eps : K.

(** Geometry with the layer filled in. *)
Definition filled (b : body K) : body K := fst (is_point_in_heat_layer dbl_max b vzero).
Definition seen (b : fbody K) : body K := filled (geo b).

Lemma asked_filled b p : filled (fst (is_point_in_heat_layer dbl_max b p)) = filled b.
Proof.
  unfold filled, is_point_in_heat_layer. cbn [fst heat_layer alist]. unfold layer at 1. cbn [alist].
  destruct (heat_layer b) as [|v l]; [|reflexivity]. fold (layer b).
  destruct (layer b) eqn:E; unfold layer in *; cbn [alist]; rewrite ?E; reflexivity.
Qed.
Lemma ask_filled b p : snd (is_point_in_heat_layer dbl_max (filled b) p) = snd (is_point_in_heat_layer dbl_max b p).
Proof.
  unfold filled, is_point_in_heat_layer. cbn [fst snd heat_layer]. unfold layer at 1 2. cbn [alist].
  destruct (heat_layer b) as [|v l]; [|reflexivity]. fold (layer b).
  destruct (layer b) eqn:E; unfold layer in *; cbn [alist]; rewrite ?E; reflexivity.
Qed.

Lemma owner_seen : forall bs bs' i p, map seen bs = map seen bs' -> owner dbl_max i bs p = owner dbl_max i bs' p.
Proof.
  induction bs as [|b t IH]; intros [|b' t'] i p E; try discriminate; auto.
  pose proof (f_equal (hd (seen b)) E) as E1. pose proof (f_equal (@tl _) E) as E2. cbn [map hd tl] in E1, E2.
  cbn [owner]. rewrite <- (ask_filled (geo b)), <- (ask_filled (geo b')). unfold seen in E1. rewrite E1.
  rewrite (IH t' (S i) p E2). reflexivity.
Qed.

Definition data (b : fbody K) : heat_cond * list (seg K) := (cond b, segs b).

Lemma first_layer_owner : forall bs p bs' h i, first_layer dbl_max bs p = Some (bs', h) ->
  map seen bs' = map seen bs /\ map data bs' = map data bs /\
  owner dbl_max i bs p = option_map (fun q => (i + fst q, snd q)%nat) h.
Proof.
  induction bs as [|b t IH]; intros p bs' h i E; cbn [first_layer] in E; [injection E as <- <-; auto|].
  destruct (is_point_in_heat_layer dbl_max (geo b) p) as [x q] eqn:Q.
  assert (X : seen (set_geo x b) = seen b).
  { unfold seen. cbn [geo set_geo]. replace x with (fst (is_point_in_heat_layer dbl_max (geo b) p)) by (rewrite Q; reflexivity). apply asked_filled. }
  cbn [owner]. rewrite Q. cbn [snd].
  destruct q as [[k|]|]; try discriminate.
  - injection E as <- <-. cbn [map option_map fst snd]. rewrite X, Nat.add_0_r. auto.
  - destruct (first_layer dbl_max t p) as [[t' [[j k]|]]|] eqn:F; try discriminate; injection E as <- <-;
      destruct (IH p t' _ (S i) F) as (A & B & C); cbn [map]; rewrite X, A, B, C; cbn [option_map fst snd];
      repeat split; auto. do 2 f_equal. lia.
Qed.

(** Every remembered number is that of an object in the layer. *)
Definition good (bs : list (fbody K)) (l : list (obj K)) : Prop :=
  forall i k b s n, at_seg bs i k b s -> obj_no s = Some n ->
    cond b = ConstT /\ exists o, nth_error l n = Some o /\ owner dbl_max 0 bs (pos o) = Some (i, k).

Lemma good_same bs bs' l : map seen bs' = map seen bs -> map data bs' = map data bs -> good bs l -> good bs' l.
Proof.
  intros A B Gd i k b' s n [N M] O.
  pose proof (f_equal (fun l => nth_error l i) B) as X. cbn beta in X. rewrite !nth_error_map, N in X.
  destruct (nth_error bs i) as [b|] eqn:N'; [|discriminate]. cbn [option_map] in X. unfold data in X. injection X as X1 X2.
  destruct (Gd i k b s n) as (C & o & Y & Z); [split; congruence|auto|]. split; [congruence|]. exists o. split; auto.
  rewrite (owner_seen bs' bs 0 (pos o) A). exact Z.
Qed.
Lemma good_more bs l l' : good bs l -> good bs (l ++ l').
Proof.
  intros Gd i k b s n A O. destruct (Gd i k b s n A O) as (C & o & Y & Z). split; auto. exists o. split; auto.
  rewrite nth_error_app1; auto. apply nth_error_Some. congruence.
Qed.

Lemma change_other {A} (f : A -> A) : forall l i j, i <> j -> nth_error (change i f l) j = nth_error l j.
Proof. induction l as [|a t IH]; intros [|i] [|j] E; simpl; auto; lia. Qed.

Lemma change_seg_at (bs : list (fbody K)) i k f j m b' s' : at_seg (change_seg i k f bs) j m b' s' ->
  exists b s, at_seg bs j m b s /\ cond b' = cond b /\ (s' = s \/ (i = j /\ k = m /\ s' = f s)).
Proof.
  intros [N M]. unfold change_seg in N. destruct (Nat.eq_dec i j) as [->|D].
  - rewrite change_nth in N. destruct (nth_error bs j) as [b|] eqn:E; [|discriminate]. injection N as <-. cbn [segs set_segs cond] in *.
    destruct (Nat.eq_dec k m) as [->|D].
    + rewrite change_nth in M. destruct (nth_error (segs b) m) as [s|] eqn:E'; [|discriminate]. injection M as <-.
      exists b, s. split; [split; auto|]. auto.
    + rewrite change_other in M; auto. exists b, s'. split; [split; auto|]. auto.
  - rewrite change_other in N; auto. exists b', s'. split; [split; auto|]. auto.
Qed.
Lemma change_seg_seen i k f (bs : list (fbody K)) : map seen (change_seg i k f bs) = map seen bs.
Proof. apply change_map. reflexivity. Qed.

Lemma good_seg bs l i k f : (forall s, obj_no (f s) = obj_no s) -> good bs l -> good (change_seg i k f bs) l.
Proof.
  intros F Gd j m b' s' n A O. apply change_seg_at in A. destruct A as (b & s & A & C & D).
  assert (O' : obj_no s = Some n) by (destruct D as [->|(_ & _ & ->)]; [auto|rewrite F in O; auto]).
  destruct (Gd j m b s n A O') as (C' & o & Y & Z). split; [congruence|]. exists o. split; auto.
  rewrite (owner_seen _ bs 0 (pos o) (change_seg_seen i k f bs)). exact Z.
Qed.

Lemma clean_heat_good : forall l n bs bs' l' done, clean_heat dbl_max n bs l = Some (bs', l') ->
  length done = n -> good bs done -> good bs' (done ++ l') /\ map seen bs' = map seen bs.
Proof.
  induction l as [|o t IH]; intros n bs bs' l' done E L Gd; cbn [clean_heat] in E.
  - injection E as <- <-. rewrite app_nil_r. auto.
  - assert (KEEP : forall bs1, map seen bs1 = map seen bs -> good bs1 (done ++ [o]) ->
      match clean_heat dbl_max (S n) bs1 t with Some (bs', l') => Some (bs', o :: l') | None => None end = Some (bs', l') ->
      good bs' (done ++ l') /\ map seen bs' = map seen bs).
    { intros bs1 A B E1. destruct (clean_heat dbl_max (S n) bs1 t) as [[bs2 l2]|] eqn:C; [|discriminate].
      injection E1 as <- <-. apply (IH _ _ _ _ (done ++ [o])) in C; auto.
      - rewrite <- app_assoc in C. destruct C as [C1 C2]. split; [exact C1|congruence].
      - rewrite app_length. simpl. lia. }
    assert (DROP : forall bs1 i k, map seen bs1 = map seen bs -> good bs1 done ->
      clean_heat dbl_max n (change_seg i k (take_h (og o)) bs1) t = Some (bs', l') ->
      good bs' (done ++ l') /\ map seen bs' = map seen bs).
    { intros bs1 i k A B C. apply (IH _ _ _ _ done) in C; auto.
      - destruct C as [C1 C2]. split; [exact C1|]. rewrite C2, change_seg_seen. exact A.
      - apply good_seg; auto. }
    destruct (first_hit dbl_max 0 bs (pos o)) as [[[i k]|]|]; try discriminate; [eapply DROP; eauto|].
    destruct (first_layer dbl_max bs (pos o)) as [[bs1 h]|] eqn:F; [|discriminate].
    destruct (first_layer_owner _ _ _ _ 0 F) as (A & B & C).
    pose proof (good_same bs bs1 done A B Gd) as G1.
    destruct h as [[i k]|]; [|apply (KEEP bs1); auto; apply good_more; auto].
    unfold layer_taken in E. destruct (nth_error bs1 i) as [b|] eqn:N; [|discriminate].
    destruct (nth_error (segs b) k) as [s|] eqn:NS; [|discriminate].
    destruct (obj_no s) as [m|] eqn:O, (cond b) eqn:CB; try (apply (KEEP bs1); auto; apply good_more; auto; fail); [eapply DROP; eauto|].
    apply (KEEP (change_seg i k (set_obj_no n) bs1)); [rewrite change_seg_seen; auto| |exact E].
    intros j m b' s' n' At O'. apply change_seg_at in At. destruct At as (b2 & s2 & At & C2 & D).
    destruct D as [->|(<- & <- & ->)].
    + destruct (good_more bs1 done [o] G1 j m b2 s2 n' At O') as (X & o' & Y & Z). split; [congruence|]. exists o'. split; auto.
      rewrite (owner_seen _ bs1 0 (pos o') (change_seg_seen i k _ bs1)). exact Z.
    + cbn [set_obj_no obj_no] in O'. injection O' as <-. destruct At as [At1 At2]. rewrite N in At1. injection At1 as <-.
      split; [congruence|]. exists o. split; [rewrite nth_error_app2, L, Nat.sub_diag; [reflexivity|lia]|].
      rewrite (owner_seen _ bs 0 (pos o)); [rewrite C; reflexivity|]. rewrite change_seg_seen. exact A.
Qed.

Lemma bury_obj_no (b : fbody K) k s : nth_error (segs (bury eps b)) k = Some s ->
  exists s0, nth_error (segs b) k = Some s0 /\ obj_no s0 = obj_no s.
Proof.
  intros E. unfold bury in E. destruct (fold_left _ _ _) as [[s1 f] d] eqn:F. cbn [segs set_dead] in E.
  assert (Y : forall axis l out f0 d0 s1 f d, fold_left (bury1 eps axis) l (out, f0, d0) = (s1, f, d) ->
    map (fun s : seg K => obj_no s) s1 = map (fun s : seg K => obj_no s) out ++ map (fun e : att K * seg K => obj_no (snd e)) l).
  { clear. induction l as [|[a s] l IH]; intros out f0 d0 s1 f d E; cbn [fold_left] in E.
    - injection E as <- <- <-. rewrite app_nil_r. reflexivity.
    - unfold bury1 at 2 in E. destruct (_ || _); apply IH in E; rewrite E, map_app, <- app_assoc; reflexivity. }
  apply Y in F. cbn [map app] in F.
  pose proof (f_equal (fun l => nth_error l k) F) as Z. cbn beta in Z. rewrite !nth_error_map, E in Z.
  assert (W : forall (al : list (att K)) (sl : list (seg K)) k e, nth_error (combine al sl) k = Some e -> nth_error sl k = Some (snd e)).
  { clear. induction al; intros [|s sl] [|k] e E; simpl in *; try discriminate; auto. injection E as <-. reflexivity. }
  destruct (nth_error (combine (alist (geo b)) (segs b)) k) as [e|] eqn:Q; [|discriminate]. injection Z as Z.
  exists (snd e). split; [eapply W; eauto|auto].
Qed.

(** ** The shedding that follows *)

Lemma heat_seg_length c (a : att K) s l s' l' : heat_seg c a s l = Some (s', l') -> (length l <= length l')%nat.
Proof.
  unfold heat_seg. destruct c; [|destruct (neqb _ _)|destruct (obj_no s) as [n|]; [destruct (nth_error l n)|]|]; intros E; try discriminate;
    injection E as <- <-; rewrite ?app_length, ?change_length; simpl; lia.
Qed.
Lemma heat_segs_length c : forall (al : list (att K)) sl l sl' l', heat_segs c al sl l = Some (sl', l') -> (length l <= length l')%nat.
Proof.
  induction al as [|a al IH]; intros [|s sl] l sl' l' E; cbn [heat_segs] in E; try (injection E as <- <-; lia).
  destruct (heat_seg c a s l) as [[s1 l1]|] eqn:A; [|discriminate]. destruct (heat_segs c al sl l1) as [[s2 l2]|] eqn:B; [|discriminate].
  injection E as <- <-. apply heat_seg_length in A. apply IH in B. lia.
Qed.

Lemma heat_seg_total c (a : att K) s l : (forall n, c = ConstT -> obj_no s = Some n -> (n < length l)%nat) -> heat_seg c a s l <> None.
Proof.
  intros V. unfold heat_seg. destruct c; try discriminate; [destruct (neqb _ _); discriminate|].
  destruct (obj_no s) as [n|] eqn:O; [|discriminate]. specialize (V n eq_refl eq_refl). apply nth_error_Some in V.
  destruct (nth_error l n); [discriminate|congruence].
Qed.
Lemma heat_segs_total c : forall (al : list (att K)) sl l,
  (forall k s n, nth_error sl k = Some s -> c = ConstT -> obj_no s = Some n -> (n < length l)%nat) ->
  heat_segs c al sl l <> None.
Proof.
  induction al as [|a al IH]; intros [|s sl] l V; cbn [heat_segs]; try discriminate.
  assert (X : heat_seg c a s l <> None) by (apply heat_seg_total; intros n C O; apply (V 0%nat s n); auto).
  destruct (heat_seg c a s l) as [[s1 l1]|] eqn:A; [|congruence]. apply heat_seg_length in A.
  assert (Y : heat_segs c al sl l1 <> None).
  { apply IH. intros k s' n N C O. pose proof (V (S k) s' n N C O). lia. }
  destruct (heat_segs c al sl l1) as [[s2 l2]|]; congruence.
Qed.
Lemma heat_bodies_total : forall (bs : list (fbody K)) l,
  (forall i k b s n, at_seg bs i k b s -> cond b = ConstT -> obj_no s = Some n -> (n < length l)%nat) ->
  heat_bodies bs l <> None.
Proof.
  induction bs as [|b t IH]; intros l V; cbn [heat_bodies]; [discriminate|].
  assert (X : heat_segs (cond b) (alist (geo b)) (segs b) l <> None).
  { apply heat_segs_total. intros k s n N C O. apply (V 0%nat k b s n); auto. split; auto. }
  destruct (heat_segs (cond b) (alist (geo b)) (segs b) l) as [[s1 l1]|] eqn:A; [|congruence]. apply heat_segs_length in A.
  assert (Y : heat_bodies t l1 <> None).
  { apply IH. intros i k b' s n [N M] C O. pose proof (V (S i) k b' s n (conj N M) C O). lia. }
  destruct (heat_bodies t l1) as [[t2 l2]|]; congruence.
Qed.

(** Objects are changed only by the segments that remember them. *)
Lemma heat_seg_other c a (s : seg K) l s' l' n : heat_seg c a s l = Some (s', l') -> (n < length l)%nat ->
  (c = ConstT -> obj_no s <> Some n) -> nth_error l' n = nth_error l n.
Proof.
  unfold heat_seg. intros E L D.
  destruct c; [|destruct (neqb _ _)|destruct (obj_no s) as [m|]; [destruct (nth_error l m)|]|]; try discriminate;
    injection E as <- <-; auto; try (apply nth_error_app1; auto; fail).
  apply change_other. intros ->. apply D; reflexivity.
Qed.
Lemma heat_segs_other c : forall (al : list (att K)) sl l sl' l' n, heat_segs c al sl l = Some (sl', l') -> (n < length l)%nat ->
  (forall k s, nth_error sl k = Some s -> c = ConstT -> obj_no s <> Some n) -> nth_error l' n = nth_error l n.
Proof.
  induction al as [|a al IH]; intros [|s sl] l sl' l' n E L D; cbn [heat_segs] in E; try (injection E as <- <-; auto; fail).
  destruct (heat_seg c a s l) as [[s1 l1]|] eqn:A; [|discriminate]. destruct (heat_segs c al sl l1) as [[s2 l2]|] eqn:B; [|discriminate].
  injection E as <- <-. pose proof (heat_seg_length _ _ _ _ _ _ A).
  rewrite (IH _ _ _ _ n B); [|lia|intros k s' N; apply (D (S k) s' N)].
  apply (heat_seg_other _ _ _ _ _ _ n A L). apply (D 0%nat s eq_refl).
Qed.
Lemma heat_bodies_other : forall (bs : list (fbody K)) l bs' l' n, heat_bodies bs l = Some (bs', l') -> (n < length l)%nat ->
  (forall i k b s, at_seg bs i k b s -> cond b = ConstT -> obj_no s <> Some n) -> nth_error l' n = nth_error l n.
Proof.
  induction bs as [|b t IH]; intros l bs' l' n E L D; cbn [heat_bodies] in E; [injection E as <- <-; auto|].
  destruct (heat_segs (cond b) (alist (geo b)) (segs b) l) as [[s1 l1]|] eqn:A; [|discriminate].
  destruct (heat_bodies t l1) as [[t2 l2]|] eqn:B; [|discriminate]. injection E as <- <-.
  pose proof (heat_segs_length _ _ _ _ _ _ A).
  rewrite (IH _ _ _ n B); [|lia|intros i k b' s [N M]; apply (D (S i) k b' s); split; auto].
  apply (heat_segs_other _ _ _ _ _ _ n A L). intros k s N. apply (D 0%nat k b s). split; auto.
Qed.

Definition warm (a : att K) (s : seg K) (o : obj K) : obj K := mkObj (pos o) (abs2 (dl a) * heat_const s)%num (vel o).

Lemma heat_segs_this : forall (al : list (att K)) sl l sl' l' k a s n o, heat_segs ConstT al sl l = Some (sl', l') ->
  nth_error al k = Some a -> nth_error sl k = Some s -> obj_no s = Some n -> nth_error l n = Some o ->
  (forall j s', nth_error sl j = Some s' -> j <> k -> obj_no s' <> Some n) ->
  nth_error l' n = Some (warm a s o).
Proof.
  induction al as [|a0 al IH]; intros [|s0 sl] l sl' l' k a s n o E Na Ns O No D; try (destruct k; discriminate).
  cbn [heat_segs] in E.
  destruct (heat_seg ConstT a0 s0 l) as [[s1 l1]|] eqn:A; [|discriminate]. destruct (heat_segs ConstT al sl l1) as [[s2 l2]|] eqn:B; [|discriminate].
  injection E as <- <-. pose proof (heat_seg_length _ _ _ _ _ _ A) as L1.
  assert (L : (n < length l)%nat) by (apply nth_error_Some; congruence).
  destruct k as [|k]; simpl in Na, Ns.
  - injection Na as ->. injection Ns as ->. rewrite (heat_segs_other _ _ _ _ _ _ n B); [|lia|].
    + unfold heat_seg in A. rewrite O, No in A. injection A as <- <-. rewrite change_nth, No. reflexivity.
    + intros j s' N _. apply (D (S j) s' N). lia.
  - eapply IH; eauto.
    + rewrite (heat_seg_other _ _ _ _ _ _ n A L); auto. intros _. apply (D 0%nat s0 eq_refl). lia.
    + intros j s' N J. apply (D (S j) s' N). lia.
Qed.
Lemma heat_bodies_this : forall (bs : list (fbody K)) l bs' l' i k b a s n o, heat_bodies bs l = Some (bs', l') ->
  at_seg bs i k b s -> nth_error (alist (geo b)) k = Some a -> cond b = ConstT -> obj_no s = Some n -> nth_error l n = Some o ->
  (forall i' k' b' s', at_seg bs i' k' b' s' -> cond b' = ConstT -> obj_no s' = Some n -> i' = i /\ k' = k) ->
  nth_error l' n = Some (warm a s o).
Proof.
  induction bs as [|b0 t IH]; intros l bs' l' i k b a s n o E [N M] Na C O No D; [destruct i; discriminate|].
  cbn [heat_bodies] in E.
  destruct (heat_segs (cond b0) (alist (geo b0)) (segs b0) l) as [[s1 l1]|] eqn:A; [|discriminate].
  destruct (heat_bodies t l1) as [[t2 l2]|] eqn:B; [|discriminate]. injection E as <- <-.
  pose proof (heat_segs_length _ _ _ _ _ _ A) as L1.
  assert (L : (n < length l)%nat) by (apply nth_error_Some; congruence).
  destruct i as [|i]; simpl in N.
  - injection N as ->. rewrite (heat_bodies_other _ _ _ _ n B); [|lia|].
    + rewrite C in A. eapply heat_segs_this; eauto. intros j s' N' J O'.
      destruct (D 0%nat j b s' (conj eq_refl N') C O'). lia.
    + intros i' k' b' s' [N' M'] C' O'. destruct (D (S i') k' b' s' (conj N' M') C' O'). lia.
  - eapply IH; [exact B|split; [exact N|exact M]|exact Na|exact C|exact O| |].
    + rewrite (heat_segs_other _ _ _ _ _ _ n A L); auto. intros j s' N' C' O'.
      destruct (D 0%nat j b0 s' (conj eq_refl N') C' O'). lia.
    + intros i' k' b' s' [N' M'] C' O'. destruct (D (S i') k' b' s' (conj N' M') C' O'). lia.
Qed.

(** ** The whole *)

Definition forgotten (bs : list (fbody K)) : Prop := forall i k b s, at_seg bs i k b s -> obj_no s = None.

Lemma move_data fuel dt bs bs' : move_bodies inf cosf sinf fuel dt bs = Some bs' -> map data bs' = map data bs.
Proof.
  intros E. apply all_some_spec in E.
  assert (Y : forall all l l', Forall2 (fun a b => move_body inf cosf sinf fuel all dt a = Some b) l l' -> map data l' = map data l);
    [|eapply Y; exact E]. clear. intros all l l' E. induction E as [|b b' t t' A E IH]; auto. cbn [map]. rewrite IH. f_equal.
  unfold move_body in A. destruct (deltas _ _ _ _ _ _); [|discriminate]. injection A as <-. reflexivity.
Qed.
Lemma clean_vort_obj_no : forall l bs bs' l' n, clean_vort dbl_max bs l = Some (bs', l', n) -> forgotten bs -> forgotten bs'.
Proof.
  induction l as [|o t IH]; intros bs bs' l' n E F; cbn [clean_vort] in E; [injection E as <- <- <-; auto|].
  destruct (first_hit dbl_max 0 bs (pos o)) as [[[i k]|]|]; try discriminate.
  - destruct (clean_vort dbl_max (change i (absorb o k) bs) t) as [[[bs1 l1] n1]|] eqn:C; [|discriminate]. injection E as <- <- <-.
    apply IH in C; auto. intros j m b' s' [N M]. destruct (Nat.eq_dec i j) as [->|D].
    + rewrite change_nth in N. destruct (nth_error bs j) as [b|] eqn:E; [|discriminate]. injection N as <-. cbn [segs absorb set_dead] in M.
      destruct (Nat.eq_dec k m) as [->|D].
      * rewrite change_nth in M. destruct (nth_error (segs b) m) as [s|] eqn:E'; [|discriminate]. injection M as <-.
        cbn [obj_no take_g]. apply (F j m b s). split; auto.
      * rewrite change_other in M; auto. apply (F j m b s'). split; auto.
    + rewrite change_other in N; auto. apply (F j m b' s'). split; auto.
  - destruct (clean_vort dbl_max bs t) as [[[bs1 l1] n1]|] eqn:C; [|discriminate]. injection E as <- <- <-. apply IH in C; auto.
Qed.

Lemma bury_seen b : seen (bury eps b) = seen b /\ cond (bury eps b) = cond b.
Proof. unfold bury. destruct (fold_left _ _ _) as [[s f] d]. split; reflexivity. Qed.

Theorem move_good fuel dt S S' cdt ptr n : move_and_clean inf dbl_max cosf sinf eps fuel dt S = Some (S', cdt, ptr, n) ->
  forgotten (bodies S) -> good (bodies S') (heat S').
Proof.
  unfold move_and_clean. destruct (detect _ _ _ _) as [c p] eqn:D. intros E F.
  destruct (move_bodies inf cosf sinf fuel c (bodies S)) as [bs|] eqn:M; [|discriminate].
  destruct (clean_vort dbl_max bs _) as [[[bs1 vl] m]|] eqn:C1; [|discriminate].
  destruct (clean_heat dbl_max 0 bs1 _) as [[bs2 hl]|] eqn:C2; [|discriminate].
  destruct (clean_streak dbl_max bs2 (map (move_obj c) (streak S))) as [sl|] eqn:C3; [|discriminate].
  injection E as <- <- <- <-. cbn [bodies heat].
  assert (F0 : forgotten bs).
  { intros i k b' s [N1 N2]. apply move_data in M. pose proof (f_equal (fun l => nth_error l i) M) as X. cbn beta in X.
    rewrite !nth_error_map, N1 in X. destruct (nth_error (bodies S) i) as [b|] eqn:N; [|discriminate]. cbn [option_map] in X.
    unfold data in X. injection X as X1 X2. apply (F i k b s). split; congruence. }
  pose proof (clean_vort_obj_no _ _ _ _ _ C1 F0) as F1.
  apply (clean_heat_good _ _ _ _ _ []) in C2; auto.
  2:{ intros i k b s n' A O. rewrite (F1 i k b s A) in O. discriminate. }
  destruct C2 as [Gd _]. cbn [app] in Gd.
  intros i k b' s' n' [N1 N2] O. rewrite nth_error_map in N1. destruct (nth_error bs2 i) as [b|] eqn:N; [|discriminate].
  cbn [option_map] in N1. assert (b' = bury eps b) by congruence. subst b'.
  apply bury_obj_no in N2. destruct N2 as (s0 & N2 & O2).
  destruct (Gd i k b s0 n' (conj N N2)) as (C & o & Y & Z); [congruence|].
  split; [rewrite (proj2 (bury_seen b)); exact C|]. exists (stop o). rewrite nth_error_map, Y. split; [reflexivity|].
  cbn [pos stop]. rewrite (owner_seen _ bs2 0 (pos o)); [exact Z|].
  rewrite map_map. apply map_ext. intros a. apply (proj1 (bury_seen a)).
Qed.

(** Shedding right after that is defined and warms exactly the remembered objects. *)
Theorem shed_good S : good (bodies S) (heat S) ->
  exists S', heat_shed S = Some S' /\
  forall i k b a s n, at_seg (bodies S) i k b s -> nth_error (alist (geo b)) k = Some a -> obj_no s = Some n ->
    exists o, nth_error (heat S) n = Some o /\ nth_error (heat S') n = Some (warm a s o).
Proof.
  intros Gd. unfold heat_shed.
  assert (X : heat_bodies (bodies S) (heat S) <> None).
  { apply heat_bodies_total. intros i k b s n A C O. destruct (Gd i k b s n A O) as (_ & o & Y & _). apply nth_error_Some. congruence. }
  destruct (heat_bodies (bodies S) (heat S)) as [[bs l]|] eqn:E; [|congruence].
  eexists. split; [reflexivity|]. cbn [heat]. intros i k b a s n A Na O.
  destruct (Gd i k b s n A O) as (C & o & Y & Z). exists o. split; auto.
  eapply heat_bodies_this; eauto. intros i' k' b' s' A' C' O'.
  destruct (Gd i' k' b' s' n A' O') as (_ & o' & Y' & Z'). rewrite Y in Y'. injection Y' as <-. rewrite Z in Z'. injection Z' as <- <-. auto.
Qed.
End Heat.
