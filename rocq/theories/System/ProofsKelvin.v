(** Circulation over whole steps. *)

From Coq Require Import ZArith Bool List Lia Reals Lra Permutation.
From Verif.Base Require Import Num.
From Verif.Body Require Import Model Spec ProofsBody.
From Verif.Flow Require Import Model Spec Proofs ProofsReal ProofsBalance.
From Verif.System Require Import Model Spec ProofsSolve ProofsLaws SpecKelvin.
Import ListNotations.
Local Open Scope R_scope.

Notation fbodyR := (fbody RNum).
Notation segR := (seg RNum).
Notation fshape := Flow.Proofs.shape.

(** ** Lists *)

Lemma combine_maps {A B C D} (f : A -> C) (g : B -> D) : forall l m,
  combine (map f l) (map g m) = map (fun e => (f (fst e), g (snd e))) (combine l m).
Proof. induction l as [|a l IH]; intros [|b m]; simpl; auto. rewrite IH. reflexivity. Qed.
Lemma combine_snd {A B} (f : B -> R) : forall (l : list A) (m : list B), length m = length l ->
  total (fun e => f (snd e)) (combine l m) = total f m.
Proof. induction l as [|a l IH]; intros [|b m] L; try discriminate; auto. unfold total in *. simpl. rewrite IH; auto. Qed.
Lemma indexed_map {A B} (f : A -> B) l : indexed (map f l) = map (fun e => (fst e, f (snd e))) (indexed l).
Proof.
  unfold indexed. rewrite map_length. generalize 0%nat. induction l as [|a l IH]; intros s; simpl; auto. rewrite IH. reflexivity.
Qed.
Lemma indexed_nth {A} (l : list A) : forall i, nth_error (indexed l) i = option_map (fun a => (i, a)) (nth_error l i).
Proof.
  unfold indexed. assert (X : forall s i, nth_error (combine (seq s (length l)) l) i = option_map (fun a => ((s + i)%nat, a)) (nth_error l i)).
  { induction l as [|a l IH]; intros s [|i]; simpl; auto; [rewrite Nat.add_0_r; reflexivity|]. rewrite IH. destruct (nth_error l i); simpl; auto. do 2 f_equal. lia. }
  intros i. apply X.
Qed.
Lemma indexed_fst {A} (f : nat -> R) (l : list A) : total (fun e => f (fst e)) (indexed l) = total f (seq 0 (length l)).
Proof.
  unfold indexed. generalize 0%nat. induction l as [|a l IH]; intros s; auto. unfold total in *. simpl. rewrite IH. reflexivity.
Qed.
Lemma map_nth_eq {A B} (f : A -> B) l l' i a : map f l = map f l' -> nth_error l i = Some a ->
  exists a', nth_error l' i = Some a' /\ f a' = f a.
Proof.
  intros E N. pose proof (f_equal (fun m => nth_error m i) E) as X. cbv beta in X. rewrite !nth_error_map, N in X.
  destruct (nth_error l' i) as [a'|]; [|discriminate]. exists a'. split; auto. simpl in X. congruence.
Qed.
Lemma change_other {A} (f : A -> A) : forall l i j, i <> j -> nth_error (change i f l) j = nth_error l j.
Proof. induction l as [|a l IH]; intros [|i] [|j] N; simpl; auto; try congruence. Qed.

Lemma list_ext {A} : forall l m : list A, (forall i, nth_error l i = nth_error m i) -> l = m.
Proof.
  induction l as [|a l IH]; intros [|b m] E; auto; try (specialize (E 0%nat); discriminate).
  pose proof (E 0%nat) as X. cbn in X. injection X as ->. f_equal. apply IH. intros i. apply (E (S i)).
Qed.

Section Kelvin.
Variables inf dbl_max eps gap : R.
Notation held := (held eps).
Notation shed := (shed eps).
Notation unshed := (unshed eps).
Notation inside := (inside dbl_max).

Lemma held_unshed b : held b = unshed b.
Proof.
  unfold SpecKelvin.held, ProofsBalance.unshed. rewrite combine_maps, total_map. apply total_ext. intros [a s] _.
  unfold keeps, unshed1, small. cbn [fst snd]. change (@nltb RNum) with Rltb. unfold Rltb. cbn [nabs RNum].
  destruct (Rlt_dec _ _), (slip a); reflexivity.
Qed.

Lemma shed_held b : wf b -> shed b + held b = total (fun s : segR => sg s) (segs b).
Proof.
  intros W. unfold SpecKelvin.shed, SpecKelvin.held. rewrite <- total_add.
  rewrite <- (combine_snd (fun s : segR => sg s) (alist (geo b)) (segs b) W). apply total_ext. intros e _.
  destruct (keeps eps e); lra.
Qed.

(** The circulation of a body and what it has absorbed. *)
Definition core (b : fbodyR) : body RNum * list R * R := (fshape b, map (fun s : segR => sg s) (segs b), g_dead b).

Lemma shape_alist (b b' : fbodyR) : fshape b = fshape b' -> alist (geo b) = alist (geo b') /\ area (geo b) = area (geo b') /\
  speed_slae (geo b) = speed_slae (geo b') /\ speed_slae_prev (geo b) = speed_slae_prev (geo b').
Proof. unfold fshape, strip. intros E. injection E. intros. repeat split; assumption. Qed.

Lemma core_held b b' : core b = core b' -> held b = held b'.
Proof.
  intros E. pose proof (f_equal (fun x => snd (fst x)) E) as S. pose proof (f_equal (fun x => fst (fst x)) E) as A.
  cbn [core fst snd] in S, A.
  apply shape_alist in A. destruct A as (A & _). rewrite !held_unshed. unfold ProofsBalance.unshed. rewrite A, S. reflexivity.
Qed.
Lemma core_wf b b' : core b = core b' -> wf b -> wf b'.
Proof.
  intros E. pose proof (f_equal (fun x => snd (fst x)) E) as S. pose proof (f_equal (fun x => fst (fst x)) E) as A.
  cbn [core fst snd] in S, A.
  apply shape_alist in A. destruct A as (A & _). unfold wf. rewrite A. apply (f_equal (@length _)) in S. rewrite !map_length in S. congruence.
Qed.

Lemma heat_core : forall bs l bs' l', heat_bodies (K:=RNum) bs l = Some (bs', l') -> map core bs' = map core bs.
Proof.
  induction bs as [|b t IH]; intros l bs' l' E; cbn [heat_bodies] in E; [injection E as <- <-; reflexivity|].
  destruct (heat_segs (K:=RNum) (cond b) (alist (geo b)) (segs b) l) as [[s1 l1]|] eqn:HS; [|discriminate].
  destruct (heat_bodies (K:=RNum) t l1) as [[t2 l2]|] eqn:HT; [|discriminate].
  injection E as <- <-. apply heat_segs_sums in HS. destruct HS as (_ & D & _). cbn [map]. rewrite (IH _ _ _ HT). f_equal.
  unfold core, fshape. cbn [geo segs set_segs g_dead]. rewrite D. reflexivity.
Qed.

Lemma seg_core i k f bs : (forall s : segR, sg (f s) = sg s) -> map core (change_seg (K:=RNum) i k f bs) = map core bs.
Proof.
  intros E. unfold change_seg. apply change_map. intros b. unfold core, fshape. cbn [geo segs set_segs g_dead].
  rewrite (change_map f (fun s : segR => sg s) E). reflexivity.
Qed.
Lemma layer_core : forall bs p bs' h, first_layer (K:=RNum) dbl_max bs p = Some (bs', h) -> map core bs' = map core bs.
Proof.
  induction bs as [|b t IH]; intros p bs' h E; cbn [first_layer] in E; [injection E as <- <-; reflexivity|].
  destruct (is_point_in_heat_layer (K:=RNum) dbl_max (geo b) p) as [x q] eqn:Q.
  assert (X : core (set_geo x b) = core b).
  { unfold is_point_in_heat_layer in Q. injection Q as <- _. reflexivity. }
  destruct q as [[k|]|]; [injection E as <- <-; cbn [map]; rewrite X; reflexivity| |discriminate].
  destruct (first_layer (K:=RNum) dbl_max t p) as [[t' [[i k]|]]|] eqn:F; [| |discriminate]; injection E as <- <-; cbn [map]; rewrite X, (IH _ _ _ F); reflexivity.
Qed.
Lemma clean_heat_core : forall l n bs bs' l', clean_heat (K:=RNum) dbl_max n bs l = Some (bs', l') -> map core bs' = map core bs.
Proof.
  induction l as [|o t IH]; intros n bs bs' l' E; cbn [clean_heat] in E; [injection E as <- <-; reflexivity|].
  assert (KEEP : forall bs1 n, map core bs1 = map core bs ->
     match clean_heat (K:=RNum) dbl_max n bs1 t with Some (bs', l') => Some (bs', o :: l') | None => None end = Some (bs', l') ->
     map core bs' = map core bs).
  { intros bs1 m C X. destruct (clean_heat (K:=RNum) dbl_max m bs1 t) as [[bs2 l2]|] eqn:Y; [|discriminate]. injection X as <- _.
    rewrite (IH _ _ _ _ Y). exact C. }
  destruct (first_hit (K:=RNum) dbl_max 0 bs (pos o)) as [[[i k]|]|]; [| |discriminate].
  - rewrite (IH _ _ _ _ E). apply seg_core. reflexivity.
  - destruct (first_layer (K:=RNum) dbl_max bs (pos o)) as [[bs1 [[i k]|]]|] eqn:L; [| |discriminate]; apply layer_core in L.
    + destruct (layer_taken (K:=RNum) i k bs1) as [[[m|] []]|]; try discriminate;
        try (eapply KEEP; [|exact E]; [exact L]);
        try (eapply KEEP; [|exact E]; rewrite seg_core; [exact L|reflexivity]);
        try (rewrite (IH _ _ _ _ E), seg_core by reflexivity; exact L).
    + eapply KEEP; [exact L|exact E].
Qed.

(** ** Absorbing *)

Lemma inside_hit : forall bs i p r, first_hit (K:=RNum) dbl_max i bs p = Some r -> inside i bs p = option_map fst r.
Proof.
  induction bs as [|b t IH]; intros i p r E; cbn [first_hit SpecKelvin.inside] in *; [injection E as <-; reflexivity|].
  destruct (is_point_invalid (K:=RNum) dbl_max (geo b) p) as [[k|]|]; [injection E as <-; reflexivity|apply IH; exact E|discriminate].
Qed.
Lemma inside_shape : forall bs bs' i p, map fshape bs = map fshape bs' -> inside i bs p = inside i bs' p.
Proof.
  induction bs as [|b t IH]; intros [|b' t'] i p E; try discriminate; auto.
  pose proof (f_equal (hd (fshape b)) E) as E1. pose proof (f_equal (@tl _) E) as E2. cbn [map hd tl] in E1, E2.
  cbn [SpecKelvin.inside]. rewrite (IH t' (S i) p E2).
  rewrite <- (invalid_strip (K:=RNum) dbl_max (geo b)), <- (invalid_strip (K:=RNum) dbl_max (geo b')). unfold fshape in E1. rewrite E1. reflexivity.
Qed.

Definition into (bs : list fbodyR) (i : nat) (o : obj RNum) : R :=
  if match inside 0 bs (pos o) with Some j => Nat.eqb i j | None => false end then og o else 0.

Lemma clean_vort_dead : forall l bs bs' l' n, clean_vort (K:=RNum) dbl_max bs l = Some (bs', l', n) ->
  forall i b, nth_error bs i = Some b -> exists b', nth_error bs' i = Some b' /\
    geo b' = geo b /\ map (fun s : segR => sg s) (segs b') = map (fun s : segR => sg s) (segs b) /\
    g_dead b' = g_dead b + total (into bs i) l.
Proof.
  induction l as [|o t IH]; intros bs bs' l' n E i b N; cbn [clean_vort] in E.
  - injection E as <- <- <-. exists b. repeat split; auto. unfold total. simpl. lra.
  - change (total ?f (o :: t)) with (f o + total f t).
    destruct (first_hit (K:=RNum) dbl_max 0 bs (pos o)) as [[[j k]|]|] eqn:F; [| |discriminate].
    + destruct (clean_vort (K:=RNum) dbl_max (change j (absorb (K:=RNum) o k) bs) t) as [[[bs1 l1] n1]|] eqn:C; [|discriminate].
      injection E as <- <- <-.
      assert (X : total (into (change j (absorb (K:=RNum) o k) bs) i) t = total (into bs i) t).
      { apply total_ext. intros a _. unfold into. rewrite (inside_shape _ bs) by (apply change_map; reflexivity). reflexivity. }
      apply inside_hit in F. cbn [option_map fst] in F.
      assert (Y : into bs i o = if Nat.eqb i j then og o else 0) by (unfold into; rewrite F; reflexivity).
      rewrite Y. specialize (IH _ _ _ _ C i). rewrite X in IH. destruct (Nat.eqb_spec i j) as [->|D].
      * rewrite change_nth, N in IH. destruct (IH _ eq_refl) as (b' & N' & G & SG & D). exists b'. split; auto. split; [exact G|].
        split.
        { rewrite SG. cbn [segs absorb set_dead]. apply (change_map (take_g (K:=RNum) (og o)) (fun s : segR => sg s)). reflexivity. }
        { rewrite D. cbn [g_dead absorb set_dead nadd RNum]. lra. }
      * rewrite change_other in IH by congruence. destruct (IH _ N) as (b' & N' & G & SG & D'). exists b'. repeat split; auto. lra.
    + destruct (clean_vort (K:=RNum) dbl_max bs t) as [[[bs1 l1] n1]|] eqn:C; [|discriminate]. injection E as <- <- <-.
      apply inside_hit in F. assert (Y : into bs i o = 0) by (unfold into; rewrite F; reflexivity). rewrite Y.
      destruct (IH _ _ _ _ C i b N) as (b' & N' & G & SG & D). exists b'. repeat split; auto. lra.
Qed.

Lemma bury_dead b : wf b -> fshape (bury (K:=RNum) eps b) = fshape b /\ g_dead (bury (K:=RNum) eps b) = g_dead b + held b /\
  wf (bury (K:=RNum) eps b).
Proof.
  intros W. split; [apply bury_shape|]. destruct (bury_same eps b W) as ([A _ _ B] & C & _). split; [|apply A; exact W].
  rewrite held_unshed. lra.
Qed.

(** ** Motion *)

Lemma refresh_speed (b : body RNum) : speed_slae (refresh (K:=RNum) inf b) = speed_slae b /\
  speed_slae_prev (refresh (K:=RNum) inf b) = speed_slae_prev b.
Proof.
  unfold refresh, fill_properties. cbn [set_alist alist]. destruct (update_segments _); [split; reflexivity|].
  destruct (fill_cofm _). split; reflexivity.
Qed.

Lemma move_facts fuel bs dt b b' : move_body (K:=RNum) inf cos sin fuel bs dt b = Some b' ->
  segs b' = segs b /\ g_dead b' = g_dead b /\ map slip (alist (geo b')) = map slip (alist (geo b)) /\
  area (geo b') = shoelace (corners (geo b)) /\ area_right b' /\ speed_slae_prev (geo b') = speed_slae (geo b).
Proof.
  unfold move_body. destruct (deltas _ _ _ _ _ _) as [[dh db]|]; [|discriminate]. intros E. injection E as <-.
  cbn [fst snd segs g_dead geo set_geo].
  assert (C := move_corners inf dh db (geo b)).
  assert (A : area (move (K:=RNum) inf cos sin dh db (geo b)) = shoelace (corners (move (K:=RNum) inf cos sin dh db (geo b)))).
  { unfold move. rewrite (proj1 (refresh_area inf _)), corners_refresh. reflexivity. }
  assert (B : shoelace (corners (move (K:=RNum) inf cos sin dh db (geo b))) = shoelace (corners (geo b))).
  { rewrite C. unfold motion. apply shoelace_rigid, sin_cos_unit. }
  repeat split.
  - unfold move. rewrite refresh_slip. cbn [alist]. rewrite map_map. reflexivity.
  - rewrite A. exact B.
  - exact A.
  - unfold move. rewrite (proj2 (refresh_speed _)). reflexivity.
Qed.

(** ** One step *)

Variables (S S' : sspace RNum) (F F3 F4 F5 F' : space RNum) (cdt : R).
Hypothesis st : kstep inf dbl_max eps gap S F F3 F4 F5 cdt S' F'.
Hypothesis W : Forall wf (bodies F).

Lemma wf_nth i b : nth_error (bodies F) i = Some b -> wf b.
Proof. intros N. rewrite Forall_forall in W. apply W. eapply nth_error_In; exact N. Qed.

(** The space after shedding holds the solution. *)
Lemma after_shedding : exists p v, solution S p v /\
  map core (bodies F3) = map (fun e => core (written_body v e)) (indexed (bodies F)) /\
  circ (vort F3) = circ (vort F) + total shed (bodies F3) /\ Forall wf (bodies F3).
Proof.
  destruct st as [Ag (p & v & F1 & F2 & Sol & B1 & V1 & H & ->) _ _ _ _ _]. exists p, v. split; [exact Sol|].
  assert (C1 : map core (bodies F2) = map core (bodies F1) /\ vort F2 = vort F1).
  { unfold heat_shed in H. destruct (heat_bodies _ _) as [[bs l]|] eqn:E; [|discriminate]. injection H as <-. cbn [bodies vort].
    split; [eapply heat_core; exact E|reflexivity]. }
  destruct C1 as (C1 & VE).
  assert (C2 : map core (bodies (vortex_shed (K:=RNum) eps gap F2)) = map core (bodies F2)).
  { cbn [bodies vortex_shed]. rewrite map_map. apply map_ext. intros b. unfold core, fshape. cbn [geo segs set_segs g_dead].
    rewrite map_map. reflexivity. }
  assert (CC : map core (bodies (vortex_shed (K:=RNum) eps gap F2)) = map (fun e => core (written_body v e)) (indexed (bodies F))).
  { rewrite C2, C1, B1, map_map. reflexivity. }
  split; [exact CC|].
  assert (W1 : Forall wf (bodies F1)).
  { rewrite B1. rewrite Forall_forall. intros x I. apply in_map_iff in I. destruct I as ([i b] & <- & I). unfold wf. cbn [written_body segs geo set_segs set_geo].
    rewrite map_length. unfold indexed. rewrite combine_length, seq_length, Nat.min_id. cbn [alist set_speed].
    apply in_combine_r in I. rewrite Forall_forall in W. apply W. exact I. }
  assert (W2 : Forall wf (bodies F2)).
  { clear - C1 W1. revert C1. generalize (bodies F2). induction W1 as [|b t X Y IH]; intros [|b' t'] E; try discriminate; constructor.
    - pose proof (f_equal (hd (core b)) E) as E0. cbn [map hd] in E0. eapply core_wf; [|exact X]. congruence.
    - apply IH. exact (f_equal (@tl _) E). }
  destruct (vortex_shed_sums eps gap F2 W2) as (W3 & _ & _ & _ & _).
  split; [|exact W3].
  assert (X : circ (vort F) = circ (vort F2)) by (rewrite VE; apply total_perm; exact V1). rewrite X. cbn [vort vortex_shed]. unfold circ at 1. rewrite total_app. fold (circ (vort F2)). f_equal.
  cbn [bodies vortex_shed]. rewrite total_map. clear - W2. induction W2 as [|b t Wb Wt IH]; [reflexivity|].
  cbn [flat_map]. rewrite total_app, IH. change (total ?f (b :: t)) with (f b + total f t). f_equal.
  pose proof (shed_segs eps gap (alist (geo b)) (segs b) Wb) as Y. unfold circ in Y. rewrite Y. fold (unshed b).
  rewrite <- held_unshed, <- (shed_held b Wb).
  assert (Z : shed (set_segs (map (count_g (K:=RNum)) (segs b)) b) = shed b).
  { unfold SpecKelvin.shed. cbn [geo segs set_segs]. rewrite <- (map_id (alist (geo b))) at 1. rewrite combine_maps, total_map. reflexivity. }
  cbv beta. rewrite Z. lra.
Qed.

(** From shedding to the next step. *)
Lemma rest_of_step i b3 : nth_error (bodies F3) i = Some b3 -> wf b3 ->
  exists b', nth_error (bodies F') i = Some b' /\ wf b' /\
    g_dead b' = held b3 + taken dbl_max eps F4 F5 cdt i /\
    area (geo b') = shoelace (corners (geo b3)) /\ area_right b' /\ speed_slae_prev (geo b') = speed_slae (geo b3).
Proof.
  intros N3 W3. destruct st as [_ _ Ev (fuel & dt & ptr & n & M) (Re & _) _ _].
  unfold move_and_clean in M. destruct (detect _ _ _ _) as [c q]. cbv zeta in M.
  destruct (move_bodies (K:=RNum) inf cos sin fuel c (bodies F4)) as [bs|] eqn:MB; [|discriminate].
  fold (keep (K:=RNum) eps) in M.
  destruct (clean_vort (K:=RNum) dbl_max bs (keep (K:=RNum) eps (map (move_obj (K:=RNum) c) (vort F4)))) as [[[bs1 vl] m]|] eqn:C1; [|discriminate].
  destruct (clean_heat (K:=RNum) dbl_max 0 bs1 (keep (K:=RNum) eps (map (move_obj (K:=RNum) c) (heat F4)))) as [[bs2 hl]|] eqn:C2; [|discriminate].
  destruct (clean_streak (K:=RNum) dbl_max bs2 (map (move_obj (K:=RNum) c) (streak F4))) as [sl|] eqn:C3; [|discriminate].
  injection M as M5 Mc _ _.
  (* the bodies with their forces set to zero *)
  destruct Ev as (_ & _ & B4).
  set (b4 := set_dead (map (zero_seg (K:=RNum)) (segs b3)) (@mkVec3 RNum (vzero) 0) 0 b3).
  assert (N4 : nth_error (bodies F4) i = Some b4).
  { rewrite B4. cbn [bodies zero_forces]. rewrite nth_error_map, N3. reflexivity. }
  assert (W4 : wf b4) by (unfold wf, b4; cbn [segs geo set_dead]; rewrite map_length; exact W3).
  assert (H4 : held b4 = held b3).
  { rewrite !held_unshed. unfold ProofsBalance.unshed, b4. cbn [segs geo set_dead]. rewrite map_map. reflexivity. }
  (* the motion *)
  apply all_some_spec in MB. destruct (forall2_nth _ _ _ MB i b4 N4) as (bm & Nm & Mv).
  apply move_facts in Mv. destruct Mv as (Ms & Md & Msl & Ma & Mr & Mp).
  assert (Wm : wf bm).
  { unfold wf. rewrite Ms. apply (f_equal (@length _)) in Msl. rewrite !map_length in Msl. rewrite Msl. exact W4. }
  assert (Hm : held bm = held b4) by (rewrite !held_unshed; unfold ProofsBalance.unshed; rewrite Ms, Msl; reflexivity).
  (* absorbing *)
  destruct (clean_vort_dead _ _ _ _ _ C1 i bm Nm) as (b1 & N1 & G1 & S1 & D1).
  pose proof (clean_vort_spec (K:=RNum) dbl_max _ _ _ _ _ C1) as (_ & _ & Sh1).
  apply clean_heat_core in C2. symmetry in C2. destruct (map_nth_eq core _ _ i b1 C2 N1) as (b2 & N2 & K2).
  assert (W1 : wf b1).
  { unfold wf. rewrite G1. apply (f_equal (@length _)) in S1. rewrite !map_length in S1. rewrite S1. exact Wm. }
  assert (H1 : held b1 = held bm) by (rewrite !held_unshed; unfold ProofsBalance.unshed; rewrite G1, S1; reflexivity).
  assert (W2 : wf b2) by (eapply core_wf; [symmetry; exact K2|exact W1]).
  assert (H2 : held b2 = held b1) by (apply core_held; exact K2).
  destruct (bury_dead b2 W2) as (Sb & Db & Wb).
  (* the next step *)
  assert (N5 : nth_error (bodies F5) i = Some (bury (K:=RNum) eps b2)).
  { rewrite <- M5. cbn [bodies]. rewrite nth_error_map, N2. reflexivity. }
  destruct (forall2_nth _ _ _ Re i _ N5) as (b' & N' & (o & ->)).
  eexists. split; [exact N'|].
  pose proof (f_equal (fun x => fst (fst x)) K2) as Q1. pose proof (f_equal snd K2) as Q2. cbn [core fst snd] in Q1, Q2.
  assert (SS : fshape (bury (K:=RNum) eps b2) = fshape bm) by (rewrite Sb, Q1; unfold fshape; rewrite G1; reflexivity).
  apply shape_alist in SS. destruct SS as (SA & SB & _ & SD).
  split; [exact Wb|]. cbn [g_dead geo].
  split; [|split; [|split]].
  - rewrite Db, Q2, D1, Md, H2, H1, Hm, H4. cbn [b4 g_dead set_dead]. unfold taken.
    match goal with |- 0 + ?a + _ = _ + ?b => assert (T : a = b); [|rewrite T; lra] end.
    assert (ShF : map fshape (bodies F5) = map fshape bs).
    { rewrite <- M5. cbn [bodies]. rewrite map_map, <- Sh1.
      transitivity (map fshape bs2); [apply map_ext; intros; apply bury_shape|].
      pose proof (f_equal (map (fun x => fst (fst x))) C2) as Z. rewrite !map_map in Z. symmetry. exact Z. }
    rewrite <- Mc. clear - ShF. unfold keep. induction (vort F4) as [|a t IH]; [reflexivity|].
    cbn [map filter]. change (total ?f (a :: t)) with (f a + total f t). rewrite <- IH. clear IH.
    unfold small. change (@nltb RNum) with Rltb. unfold Rltb. cbn [nabs RNum og move_obj].
    destruct (Rlt_dec (Rabs (og a)) eps); cbn [negb]; [rewrite Rplus_0_l; reflexivity|].
    change (total ?f (?x :: ?l)) with (f x + total f l). f_equal.
    unfold into. cbn [pos og move_obj]. rewrite (inside_shape (bodies F5) bs 0 _ ShF). reflexivity.
  - rewrite SB. exact Ma.
  - unfold area_right in *. cbn [geo]. unfold corners. rewrite SB, SA. exact Mr.
  - rewrite SD, Mp. reflexivity.
Qed.

Lemma same_count : length (bodies F3) = length (bodies F) /\ length (bodies F') = length (bodies F).
Proof.
  destruct after_shedding as (p & v & _ & C & _). apply (f_equal (@length _)) in C. rewrite !map_length in C.
  unfold indexed in C. rewrite combine_length, seq_length, Nat.min_id in C. split; [exact C|].
  destruct st as [[A _] _ _ _ _ [A' _] [K _]]. apply (f_equal (@length _)) in A, A'. rewrite map_length in A, A'.
  apply ProofsReuse.forall2_len in K. congruence.
Qed.

(** What the segments and the rotation of a body hold, from its core. *)
Definition amount (x : body RNum * list R * R) : R :=
  total (fun g => g) (snd (fst x)) + 2 * area (fst (fst x)) * o3 (speed_slae (fst (fst x))).
Lemma amount_core b : wf b -> shed b + held b + rotation b = amount (core b).
Proof.
  intros Wb. rewrite (shed_held b Wb). unfold amount, core. cbn [fst snd]. rewrite total_map. reflexivity.
Qed.
Lemma amount_written v i b : wf b ->
  amount (core (written_body v (i, b))) =
    total (fun k => v (UG i k)) (seq 0 (length (alist (geo b)))) + 2 * area (geo b) * v (UV i CO).
Proof.
  intros Wb. unfold amount, core. cbn [fst snd written_body segs set_segs set_geo geo fshape]. rewrite map_map, total_map. cbn [sg set_sg].
  rewrite (indexed_fst (fun k => v (UG i k))). rewrite <- Wb. reflexivity.
Qed.

Lemma total_after_shedding : (exists b, In b (sbodies S) /\ kutta_ b = false) ->
  circ (vort F3) + total held (bodies F3) + total rotation (bodies F3) = - inf_g S.
Proof.
  intros K. destruct after_shedding as (p & v & Sol & C & V & W3). rewrite V.
  assert (T : total shed (bodies F3) + total held (bodies F3) + total rotation (bodies F3) =
              total (body_circulation v) (indexed (sbodies S))).
  { rewrite <- !total_add.
    transitivity (total (fun b => amount (core b)) (bodies F3)).
    { apply total_ext. intros b I. apply amount_core. rewrite Forall_forall in W3. apply W3. exact I. }
    rewrite <- (total_map amount core), C, total_map. destruct st as [[A _] _ _ _ _ _ _]. rewrite <- A, indexed_map, total_map.
    apply total_ext. intros [i b] I. cbn [fst snd]. rewrite amount_written; [reflexivity|].
    apply in_combine_r in I. rewrite Forall_forall in W. apply W. rewrite <- A. apply in_map. exact I. }
  destruct st as [[A G] _ _ _ _ _ _]. pose proof (circulation_at_infinity S p v Sol K) as Z. rewrite G in Z. rewrite Z in T. change (Num.T RNum) with R in *. lra.
Qed.

Hypothesis right : Forall area_right (bodies F).

Lemma one_body i b : nth_error (bodies F) i = Some b ->
  exists v p b3 b', solution S p v /\ nth_error (bodies F3) i = Some b3 /\ nth_error (bodies F') i = Some b' /\
    wf b' /\ area_right b' /\ area (geo b') = area (geo b) /\
    shed b3 + held b3 = total (fun k => v (UG i k)) (seq 0 (length (alist (geo b)))) /\
    rotation b3 = 2 * area (geo b) * v (UV i CO) /\ rotation_prev b' = rotation b3 /\
    load b' = held b3 + taken dbl_max eps F4 F5 cdt i + rotation b3.
Proof.
  intros N. destruct after_shedding as (p & v & Sol & C & V & W3). exists v, p.
  pose proof (f_equal (fun l => nth_error l i) C) as X. cbv beta in X. rewrite !nth_error_map, indexed_nth, N in X. cbn [option_map] in X.
  destruct (nth_error (bodies F3) i) as [b3|] eqn:N3; [|discriminate]. cbn [option_map] in X.
  assert (X' : core b3 = core (written_body v (i, b))) by congruence. clear X.
  assert (Wb3 : wf b3) by (rewrite Forall_forall in W3; apply W3; eapply nth_error_In; exact N3).
  pose proof (wf_nth i b N) as Wb.
  destruct (rest_of_step i b3 N3 Wb3) as (b' & N' & W' & D & A & Rt & P). exists b3, b'.
  assert (Sh : fshape b3 = fshape (written_body v (i, b))) by exact (f_equal (fun x => fst (fst x)) X').
  apply shape_alist in Sh. destruct Sh as (Sa & Sb & Sc & _). cbn [written_body geo set_segs set_geo alist area speed_slae set_speed] in Sa, Sb, Sc.
  assert (Ar : area (geo b') = area (geo b)).
  { rewrite A. unfold corners. rewrite Sa. rewrite Forall_forall in right. symmetry. apply right. eapply nth_error_In. exact N. }
  assert (Rot : rotation b3 = 2 * area (geo b) * v (UV i CO)) by (unfold rotation; rewrite Sb, Sc; reflexivity).
  repeat split; auto.
  - rewrite shed_held by exact Wb3. pose proof (f_equal (fun x => snd (fst x)) X') as Q. cbn [core fst snd] in Q.
    transitivity (total (fun g : Num.T RNum => g) (map (fun s : segR => sg s) (segs b3))); [rewrite total_map; reflexivity|]. rewrite Q. cbn [written_body segs set_segs set_geo]. rewrite map_map, total_map. cbn [sg set_sg].
    rewrite (indexed_fst (fun k => v (UG i k))), Wb. reflexivity.
  - unfold rotation_prev. rewrite Ar, P, Sc. rewrite Rot. reflexivity.
  - unfold load. rewrite D. unfold rotation_prev. rewrite Ar, P, Sc. rewrite Rot. reflexivity.
Qed.

(** A steady body behind another one. *)
Lemma body_gives i c : nth_error (sbodies S) i = Some c -> kutta_ c = false ->
  existsb (fun d => negb (kutta_ d)) (firstn i (sbodies S)) = true ->
  exists b b', nth_error (bodies F) i = Some b /\ nth_error (bodies F') i = Some b' /\
    given dbl_max eps F3 F4 F5 cdt i = load b - load b'.
Proof.
  intros N K E. destruct st as [[A _] _ _ _ _ _ _].
  assert (NF : nth_error (bodies F) i = Some (fb c)) by (rewrite <- A, nth_error_map, N; reflexivity).
  destruct (one_body i (fb c) NF) as (v & p & b3 & b' & Sol & N3 & N' & _ & _ & _ & SH & Rot & _ & L).
  exists (fb c), b'. repeat split; auto. unfold given. rewrite N3.
  pose proof (special_rows S p v Sol i c N) as Z. rewrite K, E in Z. unfold body_circulation in Z. cbn [fst snd] in Z. fold (geo (fb c)) in Z.
  unfold load, rotation_prev in *. unfold g_of in Z. change (Num.T RNum) with R in *. lra.
Qed.

(** After the step. *)
Lemma total_after_step : (exists b, In b (sbodies S) /\ kutta_ b = false) ->
  circ (vort F') + total load (bodies F') = - inf_g S - circ (weak eps (vort F4)).
Proof.
  intros K. pose proof (total_after_shedding K) as Z. destruct after_shedding as (p & v & _ & _ & _ & W3).
  destruct (zero_sums eps F3 W3) as (W4 & G4 & _ & V4 & _ & U4 & B4).
  destruct st as [_ _ Ev (fuel & dt & ptr & n & M) (Re & VF) _ _].
  destruct Ev as (C4 & _ & BE). rewrite V4 in C4.
  rewrite <- BE in W4, U4, B4. destruct (move_and_clean_sums _ _ _ _ _ _ _ _ _ _ M W4) as (Sm & GG & _).
  assert (G4' : G F4 = 0) by (unfold G in *; rewrite BE; exact G4).
  assert (D : total (fun b : fbodyR => g_dead b) (bodies F') = - G F5).
  { assert (Q : total (fun b : fbodyR => g_dead b) (bodies F') = total (fun b : fbodyR => g_dead b) (bodies F5)).
    { clear - Re. induction Re as [|x y l l' (o & ->) R IH]; [reflexivity|].
      change (total ?f (?a :: ?t)) with (f a + total f t). rewrite IH. reflexivity. }
    rewrite Q. unfold G. clear - Sm B4.
    induction Sm as [|x y l l' X Sm IH]; [unfold total; simpl; lra|]. inversion B4; subst.
    change (total ?f (?a :: ?t)) with (f a + total f t). rewrite IH by assumption. pose proof (same_sum _ _ X). change (Num.T RNum) with R in *. lra. }
  assert (Rp : total rotation_prev (bodies F') = total rotation (bodies F3)).
  { destruct same_count as (L3 & L'). assert (X : map rotation_prev (bodies F') = map rotation (bodies F3)).
    { apply list_ext. intros i. rewrite !nth_error_map. destruct (nth_error (bodies F) i) as [b|] eqn:N.
      - destruct (one_body i b N) as (v' & p' & b3 & b' & _ & N3 & N' & _ & _ & _ & _ & _ & E & _). rewrite N3, N'. cbn [option_map]. rewrite E. reflexivity.
      - apply nth_error_None in N. rewrite (proj2 (nth_error_None (bodies F') i)), (proj2 (nth_error_None (bodies F3) i)) by lia. reflexivity. }
    pose proof (f_equal (total (fun x : R => x)) X) as Y. rewrite (total_map (fun x : R => x) rotation_prev), (total_map (fun x : R => x) rotation) in Y. exact Y. }
  assert (X : total load (bodies F') = total (fun b : fbodyR => g_dead b) (bodies F') + total rotation_prev (bodies F'))
    by exact (total_add (fun b : fbodyR => g_dead b) rotation_prev (bodies F')).
  rewrite X, D, Rp, VF.
  assert (H3 : total held (bodies F3) = total unshed (bodies F4)).
  { rewrite U4. apply total_ext. intros. apply held_unshed. }
  change (Num.T RNum) with R in *. lra.
Qed.
End Kelvin.

(** ** Many steps *)

Lemma kept_flags l l' : Forall2 kept l l' -> map kutta_ l' = map kutta_ l.
Proof. induction 1 as [|b b' l l' (_ & _ & _ & _ & _ & K) _ IH]; simpl; congruence. Qed.

Section Many.
Variables inf dbl_max eps gap : R.

Lemma step_bodies S F F3 F4 F5 cdt S' F' : kstep inf dbl_max eps gap S F F3 F4 F5 cdt S' F' ->
  Forall wf (bodies F) -> Forall area_right (bodies F) -> Forall wf (bodies F') /\ Forall area_right (bodies F').
Proof.
  intros st W A. pose proof (same_count inf dbl_max eps gap _ _ _ _ _ _ _ _ st W) as (_ & L).
  rewrite !Forall_forall. split; intros b' I; apply In_nth_error in I as (i & N');
    (destruct (nth_error (bodies F) i) as [b|] eqn:N;
      [destruct (one_body inf dbl_max eps gap _ _ _ _ _ _ _ _ st W A i b N) as (v & p & b3 & b2 & _ & _ & N2 & Wb & Ab & _); congruence
      |apply nth_error_None in N; rewrite <- L in N; apply nth_error_None in N; congruence]).
Qed.

Lemma many_steps i S F g S' F' : ksteps inf dbl_max eps gap i S F g S' F' ->
  Forall wf (bodies F) -> Forall area_right (bodies F) -> follows i (map kutta_ (sbodies S)) = true ->
  forall b, nth_error (bodies F) i = Some b ->
  exists b', nth_error (bodies F') i = Some b' /\ area (geo b') = area (geo b) /\ g = load b - load b'.
Proof.
  induction 1 as [S F|S F F3 F4 F5 cdt S1 F1 g S' F' st _ IH]; intros W A K b N.
  - exists b. repeat split; auto. lra.
  - destruct (step_bodies _ _ _ _ _ _ _ _ st W A) as (W1 & A1).
    assert (K1 : follows i (map kutta_ (sbodies S1)) = true).
    { destruct st as [_ _ _ _ _ _ (Kk & _)]. rewrite (kept_flags _ _ Kk). exact K. }
    unfold follows in K. rewrite nth_error_map in K. destruct (nth_error (sbodies S) i) as [c|] eqn:Nc; [|discriminate]. cbn [option_map] in K.
    apply andb_true_iff in K as (Kc & Kb). apply negb_true_iff in Kc.
    assert (Kb' : existsb (fun d => negb (kutta_ d)) (firstn i (sbodies S)) = true).
    { rewrite firstn_map in Kb. clear - Kb. induction (firstn i (sbodies S)) as [|d l IH]; simpl in *; [discriminate|].
      apply orb_true_iff in Kb as [H|H]; [rewrite H; reflexivity|rewrite IH by exact H; apply orb_true_r]. }
    destruct (body_gives inf dbl_max eps gap _ _ _ _ _ _ _ _ st W A i c Nc Kc Kb') as (b0 & b1 & N0 & N1 & G).
    destruct (one_body inf dbl_max eps gap _ _ _ _ _ _ _ _ st W A i b N) as (v & p & b3 & b2 & _ & _ & N2 & _ & _ & Ar & _).
    assert (b0 = b) by congruence. assert (b2 = b1) by congruence. subst b0 b2.
    destruct (IH W1 A1 K1 b1 N1) as (b' & N' & Ar' & G'). exists b'. repeat split; auto; [congruence|]. rewrite G, G'. lra.
Qed.

(** The first body when all are steady, in the second of two steps. *)
Lemma first_body S F F3 F4 F5 cdt S1 F1 G3 G4 G5 cdt' S2 F2 b1 :
  kstep inf dbl_max eps gap S F F3 F4 F5 cdt S1 F1 -> kstep inf dbl_max eps gap S1 F1 G3 G4 G5 cdt' S2 F2 ->
  Forall wf (bodies F) -> Forall area_right (bodies F) -> (forall c, In c (sbodies S) -> kutta_ c = false) ->
  nth_error (bodies F1) 0 = Some b1 ->
  exists b2, nth_error (bodies F2) 0 = Some b2 /\
    given dbl_max eps G3 G4 G5 cdt' 0 = load b1 - load b2 + circ (weak eps (vort F4)).
Proof.
  intros st st' W A K N.
  destruct (step_bodies _ _ _ _ _ _ _ _ st W A) as (W1 & A1).
  assert (K1 : forall c, In c (sbodies S1) -> kutta_ c = false).
  { destruct st as [_ _ _ _ _ _ (Kk & _)]. apply kept_flags in Kk. intros c I. apply (in_map kutta_) in I. rewrite Kk in I.
    apply in_map_iff in I as (d & <- & I). apply K. exact I. }
  destruct (one_body inf dbl_max eps gap _ _ _ _ _ _ _ _ st' W1 A1 0 b1 N) as (v & p & b3 & b2 & Sol & N3 & N2 & _ & _ & _ & SH & Rot & _ & L).
  exists b2. split; [exact N2|]. unfold given. rewrite N3.
  assert (E1 : exists c, In c (sbodies S) /\ kutta_ c = false).
  { pose proof (same_count inf dbl_max eps gap _ _ _ _ _ _ _ _ st W) as (_ & Lc). destruct st as [[Ag _] _ _ _ _ _ _].
    destruct (sbodies S) as [|c l] eqn:E; [|exists c; split; [left; reflexivity|apply K; left; reflexivity]].
    rewrite <- Ag in Lc. destruct (bodies F1); [discriminate N|discriminate Lc]. }
  pose proof (total_after_step inf dbl_max eps gap _ _ _ _ _ _ _ _ st W A E1) as T.
  assert (Q : inf_g S1 = inf_g S) by (destruct st as [_ _ _ _ _ _ (_ & Q)]; exact Q).
  destruct st' as [[Ag Gf] _ _ _ _ _ _]. rewrite <- Ag in N, T. rewrite <- Gf in T.
  pose proof (special_rows S1 p v Sol) as Rows.
  destruct (sbodies S1) as [|c l] eqn:E; [discriminate|]. cbn [map nth_error] in N.
  assert (E1' : exists d, In d (sbodies S1) /\ kutta_ d = false) by (exists c; rewrite E; split; [left; reflexivity|apply K1; left; reflexivity]).
  pose proof (circulation_at_infinity S1 p v Sol E1') as Z. rewrite E in Z.
  assert (fb c = b1) by congruence. subst b1.
  assert (Rest : total (body_circulation v) (combine (seq 1 (length l)) l) = total load (map (fun b => fb b) l)).
  { assert (X : forall i d, nth_error l i = Some d -> body_circulation v (Datatypes.S i, d) = load (fb d)).
    { intros i d Nd. specialize (Rows (Datatypes.S i) d Nd). cbn [firstn existsb] in Rows.
      rewrite (K1 d) in Rows by (right; eapply nth_error_In; exact Nd). rewrite (K1 c) in Rows by (left; reflexivity). exact Rows. }
    clear - X.
    assert (Y : forall l s, (forall i d, nth_error l i = Some d -> body_circulation v ((s + i)%nat, d) = load (fb d)) ->
      total (body_circulation v) (combine (seq s (length l)) l) = total load (map (fun b => fb b) l)).
    { clear. induction l as [|d l IH]; intros s X; [reflexivity|]. cbn [length seq combine map].
      change (total ?f (?a :: ?t)) with (f a + total f t). rewrite (IH (S s)).
      - f_equal. rewrite <- (X 0%nat d eq_refl). f_equal. f_equal. lia.
      - intros i e Ne. rewrite <- (X (S i) e Ne). f_equal. f_equal. lia. }
    apply Y. exact X. }
  unfold indexed in Z. cbn [length seq combine] in Z. cbn [map] in T.
  change (total ?f (?a :: ?t)) with (f a + total f t) in Z, T.
  rewrite Rest in Z. unfold body_circulation in Z. cbn [fst snd] in Z. unfold g_of in Z.
  change (Num.T RNum) with R in *. lra.
Qed.
End Many.
