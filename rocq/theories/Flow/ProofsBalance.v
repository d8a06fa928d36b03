(** Balances of circulation and heat, over the reals. *)

From Coq Require Import ZArith Bool List Reals Lra Lia Permutation.
From Verif.Base Require Import Num.
From Verif.Body Require Import Model Spec ProofsGeom ProofsBody.
From Verif.Flow Require Import Model Spec Proofs ProofsReal.
Import ListNotations.
Local Open Scope R_scope.

Section Balance.
Variables inf dbl_max eps gap : R.

Lemma total_app {A} (f : A -> R) l m : total f (l ++ m) = total f l + total f m.
Proof. unfold total. induction l; simpl; [lra|]. rewrite IHl. lra. Qed.
Lemma total_map {A B} (f : B -> R) (h : A -> B) l : total f (map h l) = total (fun a => f (h a)) l.
Proof. unfold total. induction l; simpl; auto. rewrite IHl. auto. Qed.
Lemma total_ext {A} (f h : A -> R) l : (forall a, In a l -> f a = h a) -> total f l = total h l.
Proof. unfold total. induction l; intros E; simpl; auto. rewrite (E a), IHl; auto; intros; try apply E; simpl; auto. Qed.
Lemma total_add {A} (f h : A -> R) l : total (fun a => f a + h a) l = total f l + total h l.
Proof. unfold total. induction l; simpl; [lra|]. rewrite IHl. lra. Qed.
Lemma total_perm {A} (f : A -> R) l m : Permutation l m -> total f l = total f m.
Proof. unfold total. induction 1; simpl; lra. Qed.
Lemma total_filter {A} (f : A -> R) p l : total f l = total f (filter p l) + total f (filter (fun a => negb (p a)) l).
Proof. unfold total. induction l; simpl; [lra|]. destruct (p a); simpl; lra. Qed.
Lemma total_0 {A} (f : A -> R) l : (forall a, In a l -> f a = 0) -> total f l = 0.
Proof. unfold total. induction l; intros E; simpl; auto. rewrite (E a), IHl; auto; intros; try apply E; simpl; auto; lra. Qed.

(** What absorbing does to a body: circulation moves to [g_dead]. *)
Record same (b b' : fbodyR) : Prop := {
  same_wf : wf b -> wf b';
  same_slip : map slip (alist (geo b')) = map slip (alist (geo b));
  same_sg : map (fun s : seg RNum => sg s) (segs b') = map (fun s : seg RNum => sg s) (segs b);
  same_sum : g_dead b' + gsums b' = g_dead b + gsums b }.

Lemma same_refl b : same b b.
Proof. split; auto. Qed.
Lemma same_trans a b c : same a b -> same b c -> same a c.
Proof. intros [A1 A2 A3 A4] [B1 B2 B3 B4]. split; auto; congruence. Qed.
Lemma all_same_refl l : Forall2 same l l.
Proof. induction l; constructor; auto using same_refl. Qed.
Lemma all_same_trans : forall a b c, Forall2 same a b -> Forall2 same b c -> Forall2 same a c.
Proof.
  induction a; intros b c A B; inversion A; subst; inversion B; subst; constructor; [eapply same_trans; eauto|eauto].
Qed.
Lemma all_same_wf l l' : Forall2 same l l' -> Forall wf l -> Forall wf l'.
Proof. induction 1; intros F; inversion F; subst; constructor; auto. apply (same_wf _ _ H). auto. Qed.
Lemma all_same_sum l l' : Forall2 same l l' -> total (fun b : fbodyR => g_dead b + gsums b) l' = total (fun b : fbodyR => g_dead b + gsums b) l.
Proof. intros F. apply total_forall2. induction F; constructor; auto. apply (same_sum _ _ H). Qed.

Lemma change_same (f : fbodyR -> fbodyR) : forall l i, (forall b, nth_error l i = Some b -> same b (f b)) -> Forall2 same l (change i f l).
Proof.
  induction l as [|a t IH]; intros [|i] E; simpl; constructor; auto using same_refl, all_same_refl.
Qed.

Lemma take_total g : forall (l : list (seg RNum)) k, (k < length l)%nat ->
  total (fun s : seg RNum => gsum s) (change k (take_g (K:=RNum) g) l) = total (fun s : seg RNum => gsum s) l - g.
Proof.
  intros l k L. destruct (nth_error l k) as [s|] eqn:E; [|apply nth_error_None in E; lia].
  rewrite (change_total _ _ l k s E). simpl. lra.
Qed.
Lemma change_keep {A} (f : A -> R) (h : A -> A) : (forall a, f (h a) = f a) -> forall l k, total f (change k h l) = total f l.
Proof. unfold total. intros E. induction l as [|a t IH]; intros [|k]; simpl; auto; rewrite ?E, ?IH; auto. Qed.

Lemma absorb_same o k b : wf b -> (k < length (alist (geo b)))%nat ->
  same b (absorb (K:=RNum) o k b) /\ gsums (absorb (K:=RNum) o k b) = gsums b - og o /\ hsums (absorb (K:=RNum) o k b) = hsums b.
Proof.
  intros W L. unfold wf in W. rewrite <- W in L. unfold absorb, gsums, hsums. cbn [segs geo g_dead set_dead].
  assert (T := take_total (og o) (segs b) k L).
  split; [|split; [exact T|apply change_keep; reflexivity]].
  split; unfold wf, gsums; cbn [segs geo g_dead set_dead].
  - intros _. rewrite change_length. exact W.
  - reflexivity.
  - apply change_map. reflexivity.
  - rewrite T. cbn [nadd RNum]. lra.
Qed.

Lemma first_hit_wf bs p i k : first_hit (K:=RNum) dbl_max 0 bs p = Some (Some (i, k)) ->
  exists b, nth_error bs i = Some b /\ (k < length (alist (geo b)))%nat.
Proof.
  intros E. pose proof (first_hit_spec (K:=RNum) dbl_max bs 0 p) as F. rewrite E in F.
  destruct F as (_ & b & n & -> & N & V). exists b. split; [exact N|]. eapply invalid_bound; exact V.
Qed.

Lemma clean_vort_sums : forall l bs bs' l' n, clean_vort (K:=RNum) dbl_max bs l = Some (bs', l', n) -> Forall wf bs ->
  Forall2 same bs bs' /\ total gsums bs' = total gsums bs - (circ l - circ l') /\ total hsums bs' = total hsums bs.
Proof.
  induction l as [|o t IH]; intros bs bs' l' n E W; cbn [clean_vort] in E.
  - injection E as <- <- <-. split; [apply all_same_refl|]. split; lra.
  - destruct (first_hit (K:=RNum) dbl_max 0 bs (pos o)) as [[[i k]|]|] eqn:F; try discriminate.
    + destruct (clean_vort (K:=RNum) dbl_max (change i (absorb (K:=RNum) o k) bs) t) as [[[bs1 l1] n1]|] eqn:C; [|discriminate].
      injection E as <- <- <-. apply first_hit_wf in F. destruct F as (b & N & L).
      assert (Wb : wf b) by (rewrite Forall_forall in W; apply W; eapply nth_error_In; eauto).
      destruct (absorb_same o k b Wb L) as (A1 & A2 & A3).
      assert (A : Forall2 same bs (change i (absorb (K:=RNum) o k) bs)).
      { apply change_same. intros b' N'. rewrite N in N'. injection N' as <-. exact A1. }
      destruct (IH _ _ _ _ C (all_same_wf _ _ A W)) as (B1 & B2 & B3).
      split; [eapply all_same_trans; eauto|].
      rewrite B2, B3, (change_total gsums _ _ _ _ N), (change_total hsums _ _ _ _ N), A2, A3.
      change (circ (o :: t)) with (og o + circ t). split; lra.
    + destruct (clean_vort (K:=RNum) dbl_max bs t) as [[[bs1 l1] n1]|] eqn:C; [|discriminate].
      injection E as <- <- <-. destruct (IH _ _ _ _ C W) as (B1 & B2 & B3). split; [exact B1|].
      change (circ (o :: t)) with (og o + circ t). change (circ (o :: l1)) with (og o + circ l1). split; lra.
Qed.

(** The same for heat; here only [hsum] changes. *)
Lemma seg_same i k f bs :
  (forall s : seg RNum, sg (f s) = sg s /\ gsum (f s) = gsum s) ->
  Forall2 same bs (change_seg (K:=RNum) i k f bs) /\ total gsums (change_seg (K:=RNum) i k f bs) = total gsums bs.
Proof.
  intros Ef. unfold change_seg. split.
  - apply change_same. intros b _. split; unfold wf, gsums; cbn [segs geo g_dead set_segs].
    + rewrite change_length. auto.
    + reflexivity.
    + apply change_map. intros; apply Ef.
    + f_equal. apply change_keep. intros; apply Ef.
  - apply change_keep. intros b. unfold gsums. cbn [segs set_segs]. apply change_keep. intros; apply Ef.
Qed.
Lemma seg_h i k o bs b : nth_error bs i = Some b -> (k < length (segs b))%nat ->
  total hsums (change_seg (K:=RNum) i k (take_h (K:=RNum) (og o)) bs) = total hsums bs - og o.
Proof.
  intros N L. unfold change_seg. rewrite (change_total hsums _ _ _ _ N). unfold hsums. cbn [segs set_segs].
  destruct (nth_error (segs b) k) as [s|] eqn:E; [|apply nth_error_None in E; lia].
  rewrite (change_total _ _ _ _ _ E). simpl. lra.
Qed.

Lemma first_layer_same : forall bs p bs' h, first_layer (K:=RNum) dbl_max bs p = Some (bs', h) ->
  Forall2 same bs bs' /\ total gsums bs' = total gsums bs /\ total hsums bs' = total hsums bs.
Proof.
  induction bs as [|b t IH]; intros p bs' h E; cbn [first_layer] in E.
  - injection E as <- <-. repeat split; constructor.
  - destruct (is_point_in_heat_layer (K:=RNum) dbl_max (geo b) p) as [x q] eqn:Q.
    assert (X : same b (set_geo x b)).
    { unfold is_point_in_heat_layer in Q. injection Q as <- _. split; auto. }
    destruct q as [[k|]|]; try discriminate.
    + injection E as <- <-. split; [constructor; auto using all_same_refl|]. split; reflexivity.
    + destruct (first_layer (K:=RNum) dbl_max t p) as [[t' [[i k]|]]|] eqn:F; try discriminate;
        injection E as <- <-; destruct (IH _ _ _ F) as (A & B & C); (split; [constructor; auto|]);
        unfold total in *; cbn [fold_right] in *; rewrite B, C; auto.
Qed.

Lemma clean_heat_sums : forall l n bs bs' l', clean_heat (K:=RNum) dbl_max n bs l = Some (bs', l') -> Forall wf bs ->
  Forall2 same bs bs' /\ total gsums bs' = total gsums bs /\ total hsums bs' = total hsums bs - (circ l - circ l').
Proof.
  induction l as [|o t IH]; intros n bs bs' l' E W; cbn [clean_heat] in E.
  - injection E as <- <-. split; [apply all_same_refl|]. split; lra.
  - assert (KEEP : forall bs1 n, Forall2 same bs bs1 -> total gsums bs1 = total gsums bs -> total hsums bs1 = total hsums bs ->
       match clean_heat (K:=RNum) dbl_max n bs1 t with Some (bs', l') => Some (bs', o :: l') | None => None end = Some (bs', l') ->
       Forall2 same bs bs' /\ total gsums bs' = total gsums bs /\ total hsums bs' = total hsums bs - (circ (o :: t) - circ l')).
    { intros bs1 m A1 A2 A3 E1. destruct (clean_heat (K:=RNum) dbl_max m bs1 t) as [[bs2 l2]|] eqn:C; [|discriminate].
      injection E1 as <- <-. destruct (IH _ _ _ _ C (all_same_wf _ _ A1 W)) as (B1 & B2 & B3).
      split; [eapply all_same_trans; eauto|]. change (circ (o :: t)) with (og o + circ t). change (circ (o :: l2)) with (og o + circ l2).
      split; lra. }
    assert (DROP : forall bs1 i k b, Forall2 same bs bs1 -> total gsums bs1 = total gsums bs -> total hsums bs1 = total hsums bs ->
       nth_error bs1 i = Some b -> (k < length (segs b))%nat ->
       clean_heat (K:=RNum) dbl_max n (change_seg (K:=RNum) i k (take_h (K:=RNum) (og o)) bs1) t = Some (bs', l') ->
       Forall2 same bs bs' /\ total gsums bs' = total gsums bs /\ total hsums bs' = total hsums bs - (circ (o :: t) - circ l')).
    { intros bs1 i k b A1 A2 A3 N L C.
      destruct (seg_same i k (take_h (K:=RNum) (og o)) bs1) as [D1 D2]; [intros; split; reflexivity|].
      assert (A4 : Forall2 same bs (change_seg (K:=RNum) i k (take_h (K:=RNum) (og o)) bs1)) by (eapply all_same_trans; eauto).
      destruct (IH _ _ _ _ C (all_same_wf _ _ A4 W)) as (B1 & B2 & B3).
      split; [eapply all_same_trans; eauto|]. rewrite (seg_h i k o bs1 b N L) in B3.
      change (circ (o :: t)) with (og o + circ t). split; lra. }
    destruct (first_hit (K:=RNum) dbl_max 0 bs (pos o)) as [[[i k]|]|] eqn:F; try discriminate.
    + apply first_hit_wf in F. destruct F as (b & N & L).
      assert (Wb : wf b) by (rewrite Forall_forall in W; apply W; eapply nth_error_In; eauto).
      unfold wf in Wb. rewrite <- Wb in L.
      apply (DROP bs i k b); auto using all_same_refl.
    + destruct (first_layer (K:=RNum) dbl_max bs (pos o)) as [[bs1 [[i k]|]]|] eqn:FL; try discriminate;
        apply first_layer_same in FL; destruct FL as (A1 & A2 & A3); [|eapply KEEP; eauto].
      unfold layer_taken in E. destruct (nth_error bs1 i) as [b|] eqn:N; [|discriminate].
      destruct (nth_error (segs b) k) as [s|] eqn:NS; [|discriminate].
      assert (L : (k < length (segs b))%nat) by (apply nth_error_Some; congruence).
      destruct (obj_no s), (cond b); try (eapply KEEP; eauto; fail); [eapply DROP; eauto|].
      destruct (seg_same i k (set_obj_no (K:=RNum) n) bs1) as [D1 D2]; [intros; split; reflexivity|].
      apply (KEEP (change_seg (K:=RNum) i k (set_obj_no (K:=RNum) n) bs1) (S n)); auto.
      * eapply all_same_trans; eauto.
      * congruence.
      * rewrite <- A3. unfold change_seg. apply change_keep. intros b1. unfold hsums. cbn [segs set_segs]. apply change_keep. reflexivity.
Qed.

(** Circulation of segments that no vortex carries away. *)
Definition unshed1 (e : bool * R) : R := if small (K:=RNum) eps (snd e) || fst e then snd e else 0.
Definition unshed (b : fbodyR) : R :=
  total unshed1 (combine (map slip (alist (geo b))) (map (fun s : seg RNum => sg s) (segs b))).

Lemma same_unshed b b' : same b b' -> unshed b' = unshed b.
Proof. intros [_ A B _]. unfold unshed. rewrite A, B. reflexivity. Qed.

Lemma bury_fold axis : forall (al : list (att RNum)) (sl : list (seg RNum)) out f d out' f' d',
  length sl = length al ->
  fold_left (bury1 (K:=RNum) eps axis) (combine al sl) (out, f, d) = (out', f', d') ->
  let u := total unshed1 (combine (map slip al) (map (fun s : seg RNum => sg s) sl)) in
  length out' = (length out + length sl)%nat /\
  d' = d + u /\
  total (fun s : seg RNum => gsum s) out' = total (fun s : seg RNum => gsum s) out + total (fun s : seg RNum => gsum s) sl - u /\
  total (fun s : seg RNum => hsum s) out' = total (fun s : seg RNum => hsum s) out + total (fun s : seg RNum => hsum s) sl /\
  map (fun s : seg RNum => sg s) out' = map (fun s : seg RNum => sg s) out ++ map (fun s : seg RNum => sg s) sl.
Proof.
  induction al as [|a al IH]; intros [|s sl] out f d out' f' d' L E; try discriminate L.
  - cbn [combine fold_left] in E. injection E as <- <- <-. cbn [combine map]. unfold total. cbn [fold_right length]. rewrite app_nil_r.
    repeat split; auto; lra.
  - cbn [combine fold_left] in E. unfold bury1 at 2 in E. cbn [length] in L. injection L as L.
    cbn [combine map].
    change (total unshed1 ((slip a, sg s) :: ?l)) with (unshed1 (slip a, sg s) + total unshed1 l).
    change (total ?f (s :: sl)) with (f s + total f sl). unfold unshed1 at 1 3. cbn [fst snd].
    destruct (small (K:=RNum) eps (sg s) || slip a); apply IH in E; auto; destruct E as (E1 & E2 & E3 & E4 & E5);
      rewrite app_length in E1; rewrite map_app, <- app_assoc in E5; rewrite total_app in E3, E4; cbn [length] in *;
      set (u := total unshed1 _) in *; clearbody u; cbv zeta;
      (split; [lia|]); (split; [rewrite E2; cbn [nadd RNum]; lra|]);
      (split; [rewrite E3; unfold total; cbn [fold_right gsum take_g nsub RNum]; lra|]);
      (split; [rewrite E4; unfold total; cbn [fold_right hsum take_g nsub RNum]; lra|]); exact E5.
Qed.

Lemma bury_same b : wf b -> same b (bury (K:=RNum) eps b) /\ gsums (bury (K:=RNum) eps b) = gsums b - unshed b /\
  hsums (bury (K:=RNum) eps b) = hsums b.
Proof.
  intros W. unfold bury. destruct (fold_left _ _ _) as [[s f] d] eqn:E. apply bury_fold in E; [|exact W].
  destruct E as (E1 & E2 & E3 & E4 & E5). fold (unshed b) in E2, E3. cbn [total fold_right app map length] in *.
  change (total ?f []) with 0 in E3, E4.
  split; [split|split]; unfold wf, gsums, hsums; cbn [segs geo g_dead set_dead]; auto.
  - intros _. rewrite E1. exact W.
  - rewrite E3, E2. unfold gsums. lra.
  - rewrite E3. unfold gsums. lra.
  - rewrite E4. unfold hsums. lra.
Qed.

Lemma buries bs : Forall wf bs ->
  Forall2 same bs (map (bury (K:=RNum) eps) bs) /\
  total gsums (map (bury (K:=RNum) eps) bs) = total gsums bs - total unshed bs /\
  total hsums (map (bury (K:=RNum) eps) bs) = total hsums bs.
Proof.
  induction 1 as [|b t W F IH]; [repeat split; [constructor|unfold total; simpl; lra]|].
  destruct IH as (A & B & C). destruct (bury_same b W) as (D & D2 & D3).
  cbn [map]. split; [constructor; auto|]. unfold total in *. cbn [fold_right]. rewrite D2, D3, B, C. split; lra.
Qed.

(** ** Motion *)

Lemma nexts_slip : forall l : list (att RNum), map slip (update_segments (K:=RNum) l) = map slip l.
Proof.
  intros l. unfold update_segments. rewrite map_map.
  assert (X : map (fun a => slip (segment (K:=RNum) a)) (nexts l) = map (fun p => slip (fst p)) (nexts l))
    by (apply map_ext; intros [a b]; reflexivity).
  rewrite X. unfold nexts.
  assert (L : forall (l m : list (att RNum)), (length l <= length m)%nat -> map (fun p => slip (fst p)) (combine l m) = map slip l).
  { clear. induction l; intros [|b m] L; simpl in *; auto; [lia|]. rewrite IHl; auto. lia. }
  destruct l as [|a t]; auto. apply L. rewrite app_length. simpl. lia.
Qed.

Lemma refresh_slip (b : body RNum) : map slip (alist (refresh (K:=RNum) inf b)) = map slip (alist b).
Proof.
  assert (X : alist (refresh (K:=RNum) inf b) = update_segments (K:=RNum) (alist b)).
  { unfold refresh, fill_properties. cbn [set_alist alist]. destruct (update_segments _); [reflexivity|].
    destruct (fill_cofm _). reflexivity. }
  rewrite X. apply nexts_slip.
Qed.

Lemma move_same fuel bs dt b b' : move_body (K:=RNum) inf cos sin fuel bs dt b = Some b' ->
  same b b' /\ gsums b' = gsums b /\ hsums b' = hsums b.
Proof.
  unfold move_body. destruct (deltas _ _ _ _ _ _) as [[dh db]|]; [|discriminate].
  intros E. injection E as <-. cbn [fst snd].
  assert (X : map slip (alist (move (K:=RNum) inf cos sin dh db (geo b))) = map slip (alist (geo b))).
  { unfold move. rewrite refresh_slip. cbn [alist]. rewrite map_map. reflexivity. }
  split; [|split; reflexivity]. split; auto.
  unfold wf. cbn [segs geo set_geo]. intros W. rewrite W. apply (f_equal (@length _)) in X. rewrite !map_length in X. auto.
Qed.

Lemma moves fuel dt bs bs' : move_bodies (K:=RNum) inf cos sin fuel dt bs = Some bs' ->
  Forall2 same bs bs' /\ total gsums bs' = total gsums bs /\ total hsums bs' = total hsums bs.
Proof.
  intros E. apply all_some_spec in E.
  assert (X : Forall2 (fun b b' => same b b' /\ gsums b' = gsums b /\ hsums b' = hsums b) bs bs').
  { induction E; constructor; auto. eapply move_same; eauto. }
  clear E. split; [|split; apply total_forall2]; induction X; constructor; tauto.
Qed.

Lemma circ_move c l : circ (map (move_obj (K:=RNum) c) l) = circ l.
Proof. unfold circ. rewrite total_map. reflexivity. Qed.
Lemma circ_stop l : circ (map (stop (K:=RNum)) l) = circ l.
Proof. unfold circ. rewrite total_map. reflexivity. Qed.
Lemma circ_keep l : circ (keep (K:=RNum) eps l) = circ l - circ (weak eps l).
Proof.
  unfold circ. rewrite (total_filter _ (fun o : obj RNum => if Rlt_dec (Rabs (og o)) eps then true else false) l).
  fold (weak eps l). unfold keep.
  rewrite (filter_ext (fun o : obj RNum => negb (small (K:=RNum) eps (og o))) (fun o : obj RNum => negb (if Rlt_dec (Rabs (og o)) eps then true else false))).
  - lra.
  - intros o. unfold small. change (@nltb RNum) with Rltb. unfold Rltb. cbn [nabs RNum]. destruct (Rlt_dec _ _); auto.
Qed.
Lemma weak_move c l : circ (weak eps (map (move_obj (K:=RNum) c) l)) = circ (weak eps l).
Proof.
  unfold circ, weak, total. induction l as [|o t IH]; auto. cbn [map filter]. cbn [og move_obj].
  destruct (Rlt_dec _ _); cbn [fold_right]; rewrite ?IH; auto.
Qed.

Lemma move_and_clean_sums fuel dt S S' cdt ptr n :
  move_and_clean (K:=RNum) inf dbl_max cos sin eps fuel dt S = Some (S', cdt, ptr, n) -> Forall wf (bodies S) ->
  Forall2 same (bodies S) (bodies S') /\
  G S' = G S - (circ (vort S) - circ (weak eps (vort S)) - circ (vort S')) - total unshed (bodies S) /\
  H S' = H S - (circ (heat S) - circ (weak eps (heat S)) - circ (heat S')).
Proof.
  unfold move_and_clean. destruct (detect _ _ _ _) as [c p] eqn:D. intros E W.
  destruct (move_bodies (K:=RNum) inf cos sin fuel c (bodies S)) as [bs|] eqn:M; [|discriminate].
  fold (keep (K:=RNum) eps) in E. cbv zeta in E.
  destruct (clean_vort (K:=RNum) dbl_max bs (keep (K:=RNum) eps (map (move_obj (K:=RNum) c) (vort S)))) as [[[bs1 vl] m]|] eqn:C1; [|discriminate].
  destruct (clean_heat (K:=RNum) dbl_max 0 bs1 (keep (K:=RNum) eps (map (move_obj (K:=RNum) c) (heat S)))) as [[bs2 hl]|] eqn:C2; [|discriminate].
  destruct (clean_streak (K:=RNum) dbl_max bs2 (map (move_obj (K:=RNum) c) (streak S))) as [sl|] eqn:C3; [|discriminate].
  injection E as <- <- <- <-. unfold G, H. cbn [bodies vort heat].
  apply moves in M. destruct M as (M1 & M2 & M3).
  pose proof (all_same_wf _ _ M1 W) as W1.
  destruct (clean_vort_sums _ _ _ _ _ C1 W1) as (A1 & A2 & A3). pose proof (all_same_wf _ _ A1 W1) as W2.
  destruct (clean_heat_sums _ _ _ _ _ C2 W2) as (B1 & B2 & B3). pose proof (all_same_wf _ _ B1 W2) as W3.
  destruct (buries bs2 W3) as (E1 & E2 & E3).
  pose proof (all_same_trans _ _ _ M1 (all_same_trans _ _ _ A1 B1)) as Z.
  split; [eapply all_same_trans; eauto|].
  rewrite !circ_stop, E2, E3, B2, B3, A2, A3, M2, M3, !circ_keep, !circ_move, !weak_move.
  assert (U : total unshed bs2 = total unshed (bodies S)).
  { apply total_forall2. clear -Z. induction Z; constructor; auto. apply same_unshed. auto. }
  rewrite U. split; lra.
Qed.

(** ** Shedding *)

Lemma shed_segs : forall (al : list (att RNum)) (sl : list (seg RNum)), length sl = length al ->
  circ (flat_map (shed1 (K:=RNum) eps gap) (combine al sl)) =
  total (fun s : seg RNum => sg s) sl - total unshed1 (combine (map slip al) (map (fun s : seg RNum => sg s) sl)).
Proof.
  induction al as [|a al IH]; intros [|s sl] L; try discriminate L.
  - unfold circ, total. simpl. lra.
  - injection L as L. cbn [combine flat_map map]. unfold circ in *. rewrite total_app, (IH sl L).
    change (total ?f (s :: sl)) with (f s + total f sl).
    change (total unshed1 ((slip a, sg s) :: ?l)) with (unshed1 (slip a, sg s) + total unshed1 l).
    unfold unshed1 at 2. cbn [fst snd]. unfold shed1, small. change (@nltb RNum) with Rltb. change (@nleb RNum) with Rleb. cbn [nabs RNum].
    destruct (Rltb (Rabs (sg s)) eps) eqn:E1, (Rleb eps (Rabs (sg s))) eqn:E2; rbool; try lra;
      destruct (slip a); unfold total; simpl; lra.
Qed.

Lemma vortex_shed_sums S : Forall wf (bodies S) ->
  let S' := vortex_shed (K:=RNum) eps gap S in
  Forall wf (bodies S') /\ heat S' = heat S /\ H S' = H S /\
  total unshed (bodies S') = total unshed (bodies S) /\
  circ (vort S') - circ (vort S) = G S' - G S - total unshed (bodies S).
Proof.
  intros W S'. unfold S', vortex_shed, G, H. cbn [bodies vort heat].
  split; [|split; [reflexivity|]].
  { rewrite Forall_forall in *. intros b I. apply in_map_iff in I. destruct I as (b0 & <- & I). unfold wf. cbn [segs geo set_segs].
    rewrite map_length. apply W. exact I. }
  rewrite !total_map. split; [apply total_ext; intros b I; unfold hsums; cbn [segs set_segs]; rewrite total_map; reflexivity|].
  split.
  { apply total_ext. intros b I. unfold unshed. cbn [segs geo set_segs]. rewrite map_map. reflexivity. }
  unfold circ. rewrite total_app.
  assert (X : total (fun b : fbodyR => gsums (set_segs (map (count_g (K:=RNum)) (segs b)) b)) (bodies S) =
     total gsums (bodies S) + total (fun b : fbodyR => total (fun s : seg RNum => sg s) (segs b)) (bodies S)).
  { rewrite <- total_add. apply total_ext. intros b I. unfold gsums. cbn [segs set_segs]. rewrite total_map. cbn [gsum count_g nadd RNum].
    apply total_add. }
  rewrite X. clear X.
  assert (X : total (fun o : obj RNum => og o) (flat_map (fun b => flat_map (shed1 (K:=RNum) eps gap) (combine (alist (geo b)) (segs b))) (bodies S)) =
    total (fun b : fbodyR => total (fun s : seg RNum => sg s) (segs b)) (bodies S) - total unshed (bodies S)).
  { induction (bodies S) as [|b t IH]; [unfold total; simpl; lra|]. inversion W as [|? ? Wb Wt]; subst.
    cbn [flat_map]. rewrite total_app, IH; auto. pose proof (shed_segs (alist (geo b)) (segs b) Wb) as Y. unfold circ in Y. rewrite Y.
    change (total ?f (b :: t)) with (f b + total f t). fold (unshed b). cbv beta. lra. }
  rewrite X. lra.
Qed.

Lemma heat_seg_sums c a s l s' l' : heat_seg (K:=RNum) c a s l = Some (s', l') ->
  gsum s' = gsum s /\ sg s' = sg s /\ circ l' - circ l = hsum s' - hsum s.
Proof.
  unfold heat_seg. destruct c.
  - intros E. injection E as <- <-. repeat split; lra.
  - destruct (neqb _ _).
    + intros E. injection E as <- <-. repeat split; lra.
    + intros E. injection E as <- <-. split; [reflexivity|]. split; [reflexivity|]. unfold circ. rewrite total_app. unfold total at 2. cbn [fold_right og hsum set_h nopp nofZ RNum IZR]. lra.
  - destruct (obj_no s) as [n|].
    + destruct (nth_error l n) as [o|] eqn:N; [|discriminate]. intros E. injection E as <- <-.
      split; [reflexivity|]. split; [reflexivity|]. unfold circ. rewrite (change_total _ _ _ _ _ N). cbn [og hsum set_h nadd nsub RNum]. lra.
    + intros E. injection E as <- <-. split; [reflexivity|]. split; [reflexivity|]. unfold circ. rewrite total_app. unfold total at 2. cbn [fold_right og hsum set_h nadd RNum]. lra.
  - intros E. injection E as <- <-. split; [reflexivity|]. split; [reflexivity|]. unfold circ. rewrite total_app. unfold total at 2. cbn [fold_right og hsum set_h nadd RNum]. lra.
Qed.

Lemma heat_segs_sums c : forall al sl l sl' l', heat_segs (K:=RNum) c al sl l = Some (sl', l') ->
  total (fun s : seg RNum => gsum s) sl' = total (fun s : seg RNum => gsum s) sl /\
  map (fun s : seg RNum => sg s) sl' = map (fun s : seg RNum => sg s) sl /\
  circ l' - circ l = total (fun s : seg RNum => hsum s) sl' - total (fun s : seg RNum => hsum s) sl.
Proof.
  induction al as [|a al IH]; intros sl l sl' l' E.
  - assert (X : heat_segs (K:=RNum) c [] sl l = Some (sl, l)) by (destruct sl; reflexivity). rewrite X in E.
    injection E as <- <-. repeat split; lra.
  - destruct sl as [|s sl]; cbn [heat_segs] in E; [injection E as <- <-; repeat split; lra|].
    destruct (heat_seg (K:=RNum) c a s l) as [[s1 l1]|] eqn:HS; [|discriminate].
    destruct (heat_segs (K:=RNum) c al sl l1) as [[sl2 l2]|] eqn:HT; [|discriminate].
    injection E as <- <-. apply heat_seg_sums in HS. destruct HS as (A & B & C). apply IH in HT. destruct HT as (A' & B' & C').
    cbn [map]. rewrite B, B'.
    change (total ?f (s :: sl)) with (f s + total f sl). change (total ?f (s1 :: sl2)) with (f s1 + total f sl2).
    split; [lra|]. split; [reflexivity|]. lra.
Qed.

Lemma heat_bodies_sums : forall bs l bs' l', heat_bodies (K:=RNum) bs l = Some (bs', l') -> Forall wf bs ->
  Forall2 same bs bs' /\ total gsums bs' = total gsums bs /\ circ l' - circ l = total hsums bs' - total hsums bs.
Proof.
  induction bs as [|b t IH]; intros l bs' l' E W; cbn [heat_bodies] in E.
  - injection E as <- <-. repeat split; [constructor|lra].
  - destruct (heat_segs (K:=RNum) (cond b) (alist (geo b)) (segs b) l) as [[s1 l1]|] eqn:HS; [|discriminate].
    destruct (heat_bodies (K:=RNum) t l1) as [[t2 l2]|] eqn:HT; [|discriminate].
    injection E as <- <-. inversion W; subst. apply IH in HT; auto. destruct HT as (A & B & C).
    apply heat_segs_sums in HS. destruct HS as (D1 & D2 & D3).
    assert (X : gsums (set_segs s1 b) = gsums b).
    { exact D1. }
    split; [constructor; auto; split|].
    + unfold wf. cbn [segs geo set_segs]. apply (f_equal (@length _)) in D2. rewrite !map_length in D2. congruence.
    + reflexivity.
    + exact D2.
    + cbn [g_dead set_segs]. rewrite X. reflexivity.
    + change (total ?f (b :: t)) with (f b + total f t). change (total ?f (?a :: t2)) with (f a + total f t2). rewrite X.
      split; [lra|]. change (hsums (set_segs s1 b)) with (total (fun s : seg RNum => hsum s) s1). unfold hsums at 2. lra.
Qed.

(** ** One step *)

Definition balanced (b : fbodyR) : Prop := g_dead b = - gsums b.

Lemma zero_sums S : Forall wf (bodies S) ->
  let S' := zero_forces (K:=RNum) S in
  Forall wf (bodies S') /\ G S' = 0 /\ H S' = 0 /\ vort S' = vort S /\ heat S' = heat S /\
  total unshed (bodies S') = total unshed (bodies S) /\ Forall (fun b : fbodyR => g_dead b + gsums b = 0) (bodies S').
Proof.
  intros W S'. unfold S', zero_forces, G, H. cbn [bodies vort heat].
  assert (Z : forall b : fbodyR, total (fun s : seg RNum => gsum s) (map (zero_seg (K:=RNum)) (segs b)) = 0).
  { intros b. rewrite total_map. apply total_0. reflexivity. }
  split.
  { rewrite Forall_forall in *. intros b I. apply in_map_iff in I. destruct I as (b0 & <- & I). unfold wf. cbn [segs geo set_dead].
    rewrite map_length. apply W. exact I. }
  rewrite !total_map.
  split; [apply total_0; intros b I; apply Z|].
  split; [apply total_0; intros b I; unfold hsums; cbn [segs set_dead]; rewrite total_map; apply total_0; reflexivity|].
  split; [reflexivity|]. split; [reflexivity|].
  split; [apply total_ext; intros b I; unfold unshed; cbn [segs geo set_dead]; rewrite map_map; reflexivity|].
  rewrite Forall_forall. intros b I. apply in_map_iff in I. destruct I as (b0 & <- & I). unfold gsums. cbn [segs g_dead set_dead].
  rewrite Z. cbn [nofZ RNum]. lra.
Qed.

Lemma forall2_segs (f : seg RNum -> R) l l' : Forall2 (fun s s' => f s' = f s) l l' -> total f l' = total f l.
Proof. apply total_forall2. Qed.

Lemma solved_sums S S' : solved S S' -> Forall wf (bodies S) ->
  Forall wf (bodies S') /\ G S' = G S /\ H S' = H S /\ circ (vort S') = circ (vort S) /\ circ (heat S') = circ (heat S).
Proof.
  intros (A & B & C) W.
  split; [|split; [|split; [|split]]].
  - induction C as [|b b' t t' (C1 & C2 & C3) C IH]; constructor; inversion W; subst; auto.
    unfold wf in *. rewrite C1. transitivity (length (segs b)); auto. clear - C3. induction C3; simpl; auto.
  - unfold G. apply total_forall2. clear - C. induction C as [|b b' t t' (C1 & C2 & C3) C IH]; constructor; auto.
    unfold gsums. apply total_forall2. clear - C3. induction C3; constructor; tauto.
  - unfold H. apply total_forall2. clear - C. induction C as [|b b' t t' (C1 & C2 & C3) C IH]; constructor; auto.
    unfold hsums. apply total_forall2. clear - C3. induction C3; constructor; tauto.
  - rewrite A. reflexivity.
  - unfold circ. symmetry. apply total_perm. exact B.
Qed.

Theorem step_sums fuel dt scale S a S' : step inf dbl_max eps gap fuel dt scale S a S' -> Forall wf (bodies S) ->
  Forall wf (bodies S') /\ Forall balanced (bodies S') /\
  circ (vort S') - circ (vort S) + lost_g a = read_g a + G S' - G S /\
  circ (heat S') - circ (heat S) + lost_h a = read_h a + H S' - H S.
Proof.
  intros st W. destruct st as [S1 S2 S4 S5 cdt ptr n HS HH S3 HE HM S6].
  destruct (solved_sums _ _ HS W) as (W1 & G1 & H1 & V1 & T1).
  unfold heat_shed in HH. destruct (heat_bodies (K:=RNum) (bodies S1) (heat S1)) as [[bs l]|] eqn:HB; [|discriminate].
  injection HH as <-. destruct (heat_bodies_sums _ _ _ _ HB W1) as (A1 & A2 & A3).
  pose proof (all_same_wf _ _ A1 W1) as W2.
  destruct (vortex_shed_sums (mkSpace bs (vort S1) l (streak S1)) W2) as (W3 & B2 & B3 & B4 & B5). fold S3 in W3, B2, B3, B4, B5.
  destruct (zero_sums S3 W3) as (W4 & C2 & C3 & C4 & C5 & C6 & C7).
  destruct HE as (D1 & D2 & D3). rewrite <- D3 in W4, C6, C7.
  destruct (move_and_clean_sums _ _ _ _ _ _ _ HM W4) as (E1 & E2 & E3).
  assert (G4 : G S4 = 0) by (unfold G in *; rewrite D3; exact C2).
  assert (H4 : H S4 = 0) by (unfold H in *; rewrite D3; exact C3).
  split; [exact (all_same_wf _ _ E1 W4)|]. split.
  { change (bodies S6) with (bodies S5). clear - E1 C7. induction E1; constructor; inversion C7; subst; auto.
    pose proof (same_sum _ _ H). unfold balanced. lra. }
  cbn [lost_g lost_h read_g read_h]. change (vort S6) with (vort S5). change (G S6) with (G S5). change (H S6) with (H S5).
  change (G (mkSpace bs (vort S1) l (streak S1))) with (total gsums bs) in B5.
  change (H (mkSpace bs (vort S1) l (streak S1))) with (total hsums bs) in B3.
  cbn [vort heat bodies] in B2, B4, B5.
  unfold G in G1, G4. unfold H in H1, H4. fold (G S) in G1. fold (H S) in H1.
  rewrite C4 in D1. rewrite C5, B2 in D2. unfold G at 2 in E2. unfold H at 2 in E3. rewrite G4, C6, B4 in E2. rewrite H4 in E3.
  split; lra.
Qed.

Theorem steps_sums fuel dt scale S l S' : steps inf dbl_max eps gap fuel dt scale S l S' -> Forall wf (bodies S) ->
  Forall wf (bodies S') /\
  circ (vort S') - circ (vort S) + total lost_g l = total read_g l + G S' - G S /\
  circ (heat S') - circ (heat S) + total lost_h l = total read_h l + H S' - H S.
Proof.
  induction 1 as [S|S a S1 l S2 A B IH]; intros W.
  - unfold total. simpl. split; [exact W|]. split; lra.
  - destruct (step_sums _ _ _ _ _ _ A W) as (W1 & _ & B1 & B2). destruct (IH W1) as (W2 & C1 & C2). split; [exact W2|].
    change (total ?f (a :: l)) with (f a + total f l). split; lra.
Qed.
End Balance.
