(** Lemmas about the dimensions of a plot. *)

From Coq Require Import List ZArith Bool Reals Lia Lra.
From Flocq Require Import Core.Core.
From Verif Require Import Base.Num Base.NumNaN Plot.ModelDims Plot.SpecDims.
Local Open Scope R_scope.

Lemma Reqb_ne x y : x <> y -> Reqb x y = false.
Proof. apply Reqb_false. Qed.
Lemma Reqb_refl x : Reqb x x = true.
Proof. apply Reqb_true. reflexivity. Qed.
Lemma Rltb_no x y : y <= x -> Rltb x y = false.
Proof. apply Rltb_false. Qed.

Lemma div_some (x y : R) : y <> 0 -> @ndiv RNaN (Some x) (Some y) = Some (x / y).
Proof. intros N. cbn. rewrite Reqb_ne by exact N. reflexivity. Qed.

(** ** Conversions *)

Lemma to_int_pixels (x : R) : 0 <= x ->
  (x < IZR (2 ^ 31) /\ exists n, rnan_to_i32 (Some x) = Some n /\ even_pixels (even_part n) x) \/
  (IZR (2 ^ 31) <= x /\ rnan_to_i32 (Some x) = None).
Proof.
  intros P. unfold rnan_to_i32. rewrite (Ztrunc_floor x P).
  pose proof (Zfloor_lb x) as L. pose proof (Zfloor_ub x) as U.
  assert (N : (0 <= Zfloor x)%Z) by (apply Zfloor_lub; exact P).
  destruct (Rlt_le_dec x (IZR (2 ^ 31))) as [S|S].
  - left. split; [exact S|]. exists (Zfloor x).
    assert (B : (Zfloor x < 2 ^ 31)%Z) by (apply lt_IZR; lra).
    split; [|].
    + replace (- 2 ^ 31 <=? Zfloor x)%Z with true by (symmetry; apply Z.leb_le; lia).
      replace (Zfloor x <? 2 ^ 31)%Z with true by (symmetry; apply Z.ltb_lt; exact B). reflexivity.
    + unfold even_pixels, even_part. pose proof (Z.quot_rem' (Zfloor x) 2) as Q.
      pose proof (Z.rem_bound_pos (Zfloor x) 2 N ltac:(lia)) as R. split.
      * rewrite Z.even_spec. exists (Z.quot (Zfloor x) 2). lia.
      * rewrite minus_IZR. assert (R1 : Z.rem (Zfloor x) 2 = 0%Z \/ Z.rem (Zfloor x) 2 = 1%Z) by lia.
        destruct R1 as [-> | ->]; simpl; lra.
  - right. split; [exact S|].
    assert (B : (2 ^ 31 <= Zfloor x)%Z) by (apply Zfloor_lub; exact S).
    replace (Zfloor x <? 2 ^ 31)%Z with false by (symmetry; apply Z.ltb_ge; exact B). rewrite andb_false_r. reflexivity.
Qed.

Lemma to_int_rows (x : R) : 0 <= x ->
  (x <= IZR (2 ^ 31 - 1) /\ exists n, rnan_to_i32 (rnan_ceil (Some x)) = Some n /\ IZR n - 1 < x <= IZR n) \/
  (IZR (2 ^ 31 - 1) < x /\ rnan_to_i32 (rnan_ceil (Some x)) = None).
Proof.
  intros P. cbn [rnan_ceil lift1 rnan_to_i32]. rewrite Ztrunc_IZR.
  pose proof (Zceil_ub x) as U. pose proof (Zceil_lb x) as L.
  assert (N : (0 <= Zceil x)%Z) by (apply le_IZR; lra).
  destruct (Rle_lt_dec x (IZR (2 ^ 31 - 1))) as [S|S].
  - left. split; [exact S|]. exists (Zceil x).
    assert (B : (Zceil x <= 2 ^ 31 - 1)%Z) by (apply Zceil_glb; exact S).
    split; [|lra].
    replace (- 2 ^ 31 <=? Zceil x)%Z with true by (symmetry; apply Z.leb_le; lia).
    replace (Zceil x <? 2 ^ 31)%Z with true by (symmetry; apply Z.ltb_lt; lia). reflexivity.
  - right. split; [exact S|].
    assert (B : (2 ^ 31 - 1 < Zceil x)%Z) by (apply lt_IZR; lra).
    replace (Zceil x <? 2 ^ 31)%Z with false by (symmetry; apply Z.ltb_ge; lia). rewrite andb_false_r. reflexivity.
Qed.

(** ** Meshes *)

Lemma mesh_ok (v : rview) w h a b c d res : shows v w h a b c d -> (0 < res)%Z ->
  (IZR res * ((d - c) / (b - a)) <= IZR (2 ^ 31 - 1) /\
   exists q, @make_mesh RNaN rnan_to_i32 rnan_ceil v res = Some q /\ covers q res a b c d) \/
  (IZR (2 ^ 31 - 1) < IZR res * ((d - c) / (b - a)) /\ @make_mesh RNaN rnan_to_i32 rnan_ceil v res = None).
Proof.
  intros (_ & _ & E1 & E2 & E3 & E4 & X & Y) R. assert (P : 0 < IZR res) by (apply IZR_lt; exact R).
  unfold make_mesh. rewrite E1, E2, E3, E4. change (@nsub RNaN (Some b) (Some a)) with (Some (b - a)).
  change (@nsub RNaN (Some d) (Some c)) with (Some (d - c)). change (@nofZ RNaN res) with (Some (IZR res)).
  rewrite div_some by lra. set (e := (b - a) / IZR res).
  assert (E : e * IZR res = b - a) by (unfold e; field; lra).
  assert (EP : 0 < e) by (unfold e; apply Rdiv_lt_0_compat; lra).
  rewrite div_some by lra.
  assert (Q : (d - c) / e = IZR res * ((d - c) / (b - a))) by (rewrite <- E; field; lra).
  assert (QP : 0 <= (d - c) / e) by (apply Rlt_le, Rdiv_lt_0_compat; lra).
  destruct (to_int_rows ((d - c) / e) QP) as [(S & n & T & B)|(S & T)].
  - left. split; [lra|]. eexists. rewrite T. split; [reflexivity|]. split; [reflexivity|].
    exists e. split; [reflexivity|]. split; [exact EP|]. split; [exact E|]. cbn [yres].
    set (t := (d - c) / e) in *. assert (D : d - c = e * t) by (unfold t; field; lra). rewrite D. split.
    + apply Rmult_lt_compat_l; lra.
    + apply Rmult_le_compat_l; lra.
  - right. split; [lra|]. rewrite T. reflexivity.
Qed.

(** ** The order of the bounds *)

Lemma sort_ok (a0 b0 : R) : a0 <> b0 -> exists a b, bounds (Some a0) (Some b0) a b /\
  forall (A : Type) (f : option R -> option R -> A),
    (if @nltb RNaN (Some b0) (Some a0) then f (Some b0) (Some a0) else f (Some a0) (Some b0)) = f (Some a) (Some b).
Proof.
  intros N. cbn. destruct (Rltb b0 a0) eqn:E; rbool.
  - exists b0, a0. split; [split; [exact E|right; split; reflexivity]|reflexivity].
  - exists a0, b0. split; [split; [lra|left; split; reflexivity]|reflexivity].
Qed.

Lemma bounds_unique x y a b a' b' : bounds x y a b -> bounds x y a' b' -> a = a' /\ b = b'.
Proof.
  unfold bounds. intros [L [[-> ->]|[-> ->]]] [L' [[E1 E2]|[E1 E2]]]; injection E1 as E1; injection E2 as E2; split; lra.
Qed.

Definition r_complete := @complete RNaN rnan_to_i32 rnan_ceil.

(** The end of [complete]. *)
Definition rest (v : rview) (lo hi vs : Z) : @result RNaN :=
  match @make_mesh RNaN rnan_to_i32 rnan_ceil v lo, @make_mesh RNaN rnan_to_i32 rnan_ceil v hi with
  | Some l, Some h =>
      Done v l h (@ndiv RNaN (nmul (ndiv (nsub (xmax v) (xmin v)) (nofZ (width v))) (nofZ vs)) (nofZ 2))
  | _, _ => Undefined
  end.

Definition circle (v : rview) (vs : Z) (a b : R) (vc : option R) : Prop :=
  width v <> 0%Z -> exists r, vc = Some r /\ 2 * r * IZR (width v) = IZR vs * (b - a).

Lemma rest_ok (v : rview) w h a b c d lo hi vs : shows v w h a b c d -> (0 < lo)%Z -> (0 < hi)%Z ->
  ((IZR (2 ^ 31 - 1) < IZR lo * ((d - c) / (b - a)) \/ IZR (2 ^ 31 - 1) < IZR hi * ((d - c) / (b - a))) /\
   rest v lo hi vs = Undefined) \/
  (IZR lo * ((d - c) / (b - a)) <= IZR (2 ^ 31 - 1) /\ IZR hi * ((d - c) / (b - a)) <= IZR (2 ^ 31 - 1) /\
   exists ml mh vc, rest v lo hi vs = Done v ml mh vc /\ covers ml lo a b c d /\ covers mh hi a b c d /\ circle v vs a b vc).
Proof.
  intros S L G. unfold rest.
  destruct (mesh_ok v w h a b c d lo S L) as [(B1 & ml & E1 & C1)|(B1 & E1)]; rewrite E1.
  2:{ left. split; [left; exact B1|reflexivity]. }
  destruct (mesh_ok v w h a b c d hi S G) as [(B2 & mh & E2 & C2)|(B2 & E2)]; rewrite E2.
  2:{ left. split; [right; exact B2|reflexivity]. }
  right. split; [exact B1|]. split; [exact B2|]. eexists. eexists. eexists. split; [reflexivity|].
  split; [exact C1|]. split; [exact C2|]. intros N.
  destruct S as (_ & _ & -> & -> & _). change (@nsub RNaN (Some b) (Some a)) with (Some (b - a)).
  change (@nofZ RNaN (width v)) with (Some (IZR (width v))). change (@nofZ RNaN vs) with (Some (IZR vs)).
  assert (N' : IZR (width v) <> 0) by (intros X; apply N; apply eq_IZR; exact X).
  rewrite div_some by exact N'. change (@nofZ RNaN 2) with (Some 2).
  change (@nmul RNaN (Some ((b - a) / IZR (width v))) (Some (IZR vs))) with (Some ((b - a) / IZR (width v) * IZR vs)).
  rewrite div_some by lra. eexists. split; [reflexivity|]. field. exact N'.
Qed.

(** ** A complete rectangle: a size is computed *)

Definition box (w h : Z) (a b c d : R) : rview := @mkView RNaN w h (Some a) (Some b) (Some c) (Some d).

Lemma neqb_some (a b : R) : a < b -> @neqb RNaN (Some a) (Some b) = false.
Proof. intros L. cbn. apply Reqb_ne. lra. Qed.

Lemma fix_range_box w h a b c d : a < b -> c < d -> fix_range (box w h a b c d) = box w h a b c d.
Proof.
  intros X Y. unfold fix_range, fix_x, box. cbn [xmin xmax]. rewrite neqb_some by exact X.
  unfold fix_y. cbn [ymin ymax]. rewrite neqb_some by exact Y. reflexivity.
Qed.

Lemma after_swap (v : rview) lo hi vs :
  r_complete v lo hi vs =
  (let v := swapped v in
   if (1 <? var_cnt v)%Z then ExitError
   else match @fix_width RNaN rnan_to_i32 (if (var_cnt v <? 1)%Z then set_height v 0 else v) with
        | None => Undefined
        | Some v => match @fix_height RNaN rnan_to_i32 v with None => Undefined | Some v => rest (fix_range v) lo hi vs end
        end).
Proof. reflexivity. Qed.

Lemma swapped_box (v : rview) a0 b0 c0 d0 : xmin v = Some a0 -> xmax v = Some b0 -> ymin v = Some c0 -> ymax v = Some d0 ->
  a0 <> b0 -> c0 <> d0 -> exists a b c d, bounds (xmin v) (xmax v) a b /\ bounds (ymin v) (ymax v) c d /\
    swapped v = box (width v) (height v) a b c d.
Proof.
  intros E1 E2 E3 E4 N1 N2. destruct v as [w h x0 x1 y0 y1]. cbn in E1, E2, E3, E4. subst.
  destruct (sort_ok a0 b0 N1) as (a & b & B1 & S1). destruct (sort_ok c0 d0 N2) as (c & d & B2 & S2).
  exists a, b, c, d. split; [exact B1|]. split; [exact B2|].
  unfold swapped. cbn [xmin xmax].
  set (v1 := if @nltb RNaN (Some b0) (Some a0) then _ else _).
  assert (V : v1 = @mkView RNaN w h (Some a) (Some b) (Some c0) (Some d0))
    by exact (S1 rview (fun x y => @mkView RNaN w h x y (Some c0) (Some d0))).
  rewrite V. cbn [ymin ymax]. exact (S2 rview (fun x y => @mkView RNaN w h (Some a) (Some b) x y)).
Qed.

Lemma pixels_case w h a b c d lo hi vs (v : rview) : a < b -> c < d ->
  (0 <= w)%Z -> (0 <= h)%Z -> (0 < lo)%Z -> (0 < hi)%Z ->
  bounds (xmin v) (xmax v) a b -> bounds (ymin v) (ymax v) c d -> swapped v = box w h a b c d ->
  width v = w -> height v = h ->
  forall i, (i = W /\ w = 0%Z /\ h <> 0%Z) \/ (i = H /\ w <> 0%Z) ->
  (r_complete v lo hi vs = Undefined /\ too_long i v lo hi) \/
  (~ too_long i v lo hi /\ exists v' ml mh vc, r_complete v lo hi vs = Done v' ml mh vc /\
   completes i v v' a b c d /\ covers ml lo a b c d /\ covers mh hi a b c d /\ circle v' vs a b vc).
Proof.
  intros X Y W0 H0 L G B1 B2 S EW EH i I. rewrite after_swap. cbv zeta. rewrite S.
  assert (RP : 0 < (d - c) / (b - a)) by (apply Rdiv_lt_0_compat; lra).
  assert (RI : / ((d - c) / (b - a)) = (b - a) / (d - c)) by (field; split; lra).
  assert (VC : var_cnt (box w h a b c d) = (one (w =? 0)%Z + one (h =? 0)%Z)%Z).
  { unfold var_cnt, box. cbn [width height xmin xmax ymin ymax]. rewrite !neqb_some by assumption.
    change (@nnan RNaN (Some a)) with false. change (@nnan RNaN (Some b)) with false.
    change (@nnan RNaN (Some c)) with false. change (@nnan RNaN (Some d)) with false. cbn [one]. lia. }
  rewrite VC.
  assert (UN : forall r, slope i v r -> r = (d - c) / (b - a)).
  { intros r SL. assert (SL' : exists a b c d, bounds (xmin v) (xmax v) a b /\ bounds (ymin v) (ymax v) c d /\ r = (d - c) / (b - a))
      by (destruct I as [(-> & _)|(-> & _)]; exact SL).
    destruct SL' as (a' & b' & c' & d' & B1' & B2' & ->).
    destruct (bounds_unique _ _ _ _ _ _ B1 B1') as [-> ->], (bounds_unique _ _ _ _ _ _ B2 B2') as [-> ->]. reflexivity. }
  assert (SL : slope i v ((d - c) / (b - a))).
  { assert (SL' : exists a' b' c' d', bounds (xmin v) (xmax v) a' b' /\ bounds (ymin v) (ymax v) c' d' /\
      (d - c) / (b - a) = (d' - c') / (b' - a')) by (exists a, b, c, d; auto).
    destruct I as [(-> & _)|(-> & _)]; exact SL'. }
  assert (fin : forall n m, completes i v (box n m a b c d) a b c d ->
    (i = H -> IZR (width v) * ((d - c) / (b - a)) < IZR (2 ^ 31)) ->
    (i = W -> IZR (height v) * ((b - a) / (d - c)) < IZR (2 ^ 31)) ->
    (rest (fix_range (box n m a b c d)) lo hi vs = Undefined /\ too_long i v lo hi) \/
    (~ too_long i v lo hi /\ exists v' ml mh vc, rest (fix_range (box n m a b c d)) lo hi vs = Done v' ml mh vc /\
     completes i v v' a b c d /\ covers ml lo a b c d /\ covers mh hi a b c d /\ circle v' vs a b vc)).
  { intros n m CP PH PW. rewrite fix_range_box by assumption.
    assert (SH : shows (box n m a b c d) n m a b c d) by (repeat split; assumption).
    destruct (rest_ok _ n m a b c d lo hi vs SH L G) as [(B & E)|(M1 & M2 & ml & mh & vc & E & C1 & C2 & C3)]; rewrite E.
    - left. split; [reflexivity|]. exists ((d - c) / (b - a)). split; [exact SL|]. tauto.
    - right. split.
      + intros (r & SR & T). rewrite (UN r SR) in T. rewrite RI in T.
        destruct T as [[T1 T2]|[[T1 T2]|[T|T]]]; [specialize (PH T1); lra|specialize (PW T1); lra|lra|lra].
      + eexists. eexists. eexists. eexists. split; [reflexivity|]. auto. }
  destruct I as [(-> & Zw & Nh)|(-> & Nw)].
  - (* width *)
    rewrite Zw. change (0 =? 0)%Z with true. replace (h =? 0)%Z with false by (symmetry; apply Z.eqb_neq; exact Nh).
    cbn [one]. change (1 <? 1 + 0)%Z with false. change (1 + 0 <? 1)%Z with false. cbv iota.
    unfold fix_width. cbn [box width height xmin xmax ymin ymax]. change (0 =? 0)%Z with true. cbv iota.
    change (@nsub RNaN (Some b) (Some a)) with (Some (b - a)). change (@nsub RNaN (Some d) (Some c)) with (Some (d - c)).
    change (@nmul RNaN (nofZ h) (Some (b - a))) with (Some (IZR h * (b - a))).
    rewrite div_some by lra.
    assert (HP : 0 <= IZR h) by (apply IZR_le; exact H0).
    assert (Q : IZR h * (b - a) / (d - c) = IZR h * ((b - a) / (d - c))) by (field; lra). rewrite Q.
    assert (QP : 0 <= IZR h * ((b - a) / (d - c))) by (apply Rmult_le_pos; [exact HP|apply Rlt_le, Rdiv_lt_0_compat; lra]).
    destruct (to_int_pixels _ QP) as [(B & n & T & E)|(B & T)].
    + rewrite T. unfold fix_height, set_width. cbn [box width height xmin xmax ymin ymax].
      replace (h =? 0)%Z with false by (symmetry; apply Z.eqb_neq; exact Nh).
      apply (fin (even_part n) h).
      * split; [repeat split; assumption|]. cbn [box width height]. rewrite EH. repeat split; try apply B1; try apply B2; apply E.
      * discriminate.
      * intros _. rewrite EH. exact B.
    + rewrite T. left. split; [reflexivity|]. exists ((d - c) / (b - a)). split; [exact SL|]. right; left.
      split; [reflexivity|]. rewrite RI, EH. exact B.
  - (* height *)
    assert (NB : (w =? 0)%Z = false) by (apply Z.eqb_neq; exact Nw). rewrite NB. cbn [one].
    assert (C1 : (1 <? 0 + one (h =? 0))%Z = false) by (destruct (h =? 0)%Z; reflexivity). rewrite C1.
    assert (C2 : (if (0 + one (h =? 0) <? 1)%Z then set_height (box w h a b c d) 0 else box w h a b c d) = box w 0 a b c d).
    { destruct (Z.eqb_spec h 0) as [-> |N]; reflexivity. }
    rewrite C2. unfold fix_width. cbn [box width]. rewrite NB. unfold fix_height. cbn [box width height xmin xmax ymin ymax].
    change (0 =? 0)%Z with true. cbv iota.
    change (@nsub RNaN (Some b) (Some a)) with (Some (b - a)). change (@nsub RNaN (Some d) (Some c)) with (Some (d - c)).
    change (@nmul RNaN (nofZ w) (Some (d - c))) with (Some (IZR w * (d - c))).
    rewrite div_some by lra.
    assert (HP : 0 <= IZR w) by (apply IZR_le; exact W0).
    assert (Q : IZR w * (d - c) / (b - a) = IZR w * ((d - c) / (b - a))) by (field; lra). rewrite Q.
    assert (QP : 0 <= IZR w * ((d - c) / (b - a))) by (apply Rmult_le_pos; [exact HP|apply Rlt_le; exact RP]).
    destruct (to_int_pixels _ QP) as [(B & n & T & E)|(B & T)].
    + rewrite T. unfold set_height. cbn [box width height xmin xmax ymin ymax].
      apply (fin w (even_part n)).
      * split; [repeat split; assumption|]. cbn [box width height]. rewrite EW. repeat split; try apply B1; try apply B2; apply E.
      * intros _. rewrite EW. exact B.
      * discriminate.
    + rewrite T. left. split; [reflexivity|]. exists ((d - c) / (b - a)). split; [exact SL|]. left.
      split; [reflexivity|]. rewrite EW. exact B.
Qed.

(** ** A complete size: a range is computed *)

Lemma range_case i (v : rview) w h a b c d lo hi vs : i <> W -> i <> H ->
  width v = w -> height v = h -> (0 < w)%Z -> (0 < h)%Z -> (0 < lo)%Z -> (0 < hi)%Z ->
  width (swapped v) = w -> height (swapped v) = h -> var_cnt (swapped v) = 1%Z ->
  fix_range (swapped v) = box w h a b c d -> completes i v (box w h a b c d) a b c d ->
  (r_complete v lo hi vs = Undefined /\ too_long i v lo hi) \/
  (~ too_long i v lo hi /\ exists v' ml mh vc, r_complete v lo hi vs = Done v' ml mh vc /\
   completes i v v' a b c d /\ covers ml lo a b c d /\ covers mh hi a b c d /\ circle v' vs a b vc).
Proof.
  intros NW NH EW EH PW PH L G SW SH VC FR CP. rewrite after_swap. cbv zeta. rewrite VC.
  change (1 <? 1)%Z with false. cbv iota. unfold fix_width. rewrite SW.
  replace (w =? 0)%Z with false by (symmetry; apply Z.eqb_neq; lia). unfold fix_height. rewrite SH.
  replace (h =? 0)%Z with false by (symmetry; apply Z.eqb_neq; lia). rewrite FR.
  assert (S : shows (box w h a b c d) w h a b c d) by exact (proj1 CP).
  assert (AB : a < b) by apply S. assert (CD : c < d) by apply S.
  assert (W0 : 0 < IZR w) by (apply IZR_lt; exact PW). assert (H0 : 0 < IZR h) by (apply IZR_lt; exact PH).
  assert (TS : to_scale w h a b c d).
  { destruct CP as [_ CP]. destruct i; try congruence; destruct CP as (_ & _ & T & _); rewrite EW, EH in T; exact T. }
  assert (SL : slope i v (IZR h / IZR w)) by (destruct i; try congruence; cbn; rewrite EW, EH; reflexivity).
  assert (UN : forall r, slope i v r -> r = IZR h / IZR w)
    by (intros r Q; destruct i; try congruence; cbn in Q; rewrite EW, EH in Q; exact Q).
  assert (RE : IZR h / IZR w = (d - c) / (b - a)).
  { unfold to_scale in TS. assert (TS' : IZR h = (d - c) * IZR w / (b - a)) by (rewrite <- TS; field; lra).
    rewrite TS'. field. split; lra. }
  destruct (rest_ok _ w h a b c d lo hi vs S L G) as [(B & E)|(M1 & M2 & ml & mh & vc & E & C1 & C2 & C3)]; rewrite E.
  - left. split; [reflexivity|]. exists (IZR h / IZR w). split; [exact SL|]. rewrite RE. tauto.
  - right. split.
    + intros (r & SR & T). rewrite (UN r SR), RE in T. destruct T as [[T _]|[[T _]|[T|T]]]; [congruence|congruence|lra|lra].
    + eexists. eexists. eexists. eexists. split; [reflexivity|]. auto.
Qed.

Lemma x_span_some (v : rview) w h c d : width v = w -> height v = h -> (0 < h)%Z -> ymin v = Some c -> ymax v = Some d ->
  x_span v = Some ((d - c) * IZR w / IZR h).
Proof.
  intros EW EH PH E1 E2. unfold x_span. rewrite EW, EH, E1, E2.
  change (@nmul RNaN (@nsub RNaN (Some d) (Some c)) (@nofZ RNaN w)) with (Some ((d - c) * IZR w)).
  change (@nofZ RNaN h) with (Some (IZR h)). apply div_some. apply not_0_IZR. lia.
Qed.
Lemma y_span_some (v : rview) w h a b : width v = w -> height v = h -> (0 < w)%Z -> xmin v = Some a -> xmax v = Some b ->
  y_span v = Some ((b - a) * IZR h / IZR w).
Proof.
  intros EW EH PH E1 E2. unfold y_span. rewrite EW, EH, E1, E2.
  change (@nmul RNaN (@nsub RNaN (Some b) (Some a)) (@nofZ RNaN h)) with (Some ((b - a) * IZR h)).
  change (@nofZ RNaN w) with (Some (IZR w)). apply div_some. apply not_0_IZR. lia.
Qed.

Lemma ltb_none_l (x : option R) : @nltb RNaN None x = false.
Proof. reflexivity. Qed.
Lemma ltb_none_r (x : option R) : @nltb RNaN x None = false.
Proof. destruct x; reflexivity. Qed.
Lemma eqb_none_l (x : option R) : @neqb RNaN None x = false.
Proof. reflexivity. Qed.
Lemma eqb_none_r (x : option R) : @neqb RNaN x None = false.
Proof. destruct x; reflexivity. Qed.
Lemma ltb_same (x : R) : @nltb RNaN (Some x) (Some x) = false.
Proof. cbn. apply Rltb_no. lra. Qed.
Lemma eqb_same (x : R) : @neqb RNaN (Some x) (Some x) = true.
Proof. cbn. apply Reqb_refl. Qed.

(** The x range is open, the y range is given. *)
Lemma swapped_x w h (x0 x1 : option R) c0 d0 : @nltb RNaN x1 x0 = false -> c0 <> d0 ->
  exists c d, bounds (Some c0) (Some d0) c d /\
    swapped (@mkView RNaN w h x0 x1 (Some c0) (Some d0)) = @mkView RNaN w h x0 x1 (Some c) (Some d).
Proof.
  intros NX N. destruct (sort_ok c0 d0 N) as (c & d & B & S). exists c, d. split; [exact B|].
  unfold swapped. cbn [xmin xmax]. rewrite NX. cbn [ymin ymax]. exact (S rview (fun x y => @mkView RNaN w h x0 x1 x y)).
Qed.
Lemma swapped_y w h (y0 y1 : option R) a0 b0 : @nltb RNaN y1 y0 = false -> a0 <> b0 ->
  exists a b, bounds (Some a0) (Some b0) a b /\
    swapped (@mkView RNaN w h (Some a0) (Some b0) y0 y1) = @mkView RNaN w h (Some a) (Some b) y0 y1.
Proof.
  intros NY N. destruct (sort_ok a0 b0 N) as (a & b & B & S). exists a, b. split; [exact B|].
  unfold swapped. cbn [xmin xmax].
  set (v1 := if @nltb RNaN (Some b0) (Some a0) then _ else _).
  assert (V : v1 = @mkView RNaN w h (Some a) (Some b) y0 y1) by exact (S rview (fun x y => @mkView RNaN w h x y y0 y1)).
  rewrite V. cbn [ymin ymax]. rewrite NY. reflexivity.
Qed.

Definition conclusion (i : item) (v : rview) (lo hi vs : Z) : Prop :=
  (r_complete v lo hi vs = Undefined /\ too_long i v lo hi) \/
  (~ too_long i v lo hi /\ exists a b c d v' ml mh vc, r_complete v lo hi vs = Done v' ml mh vc /\
   completes i v v' a b c d /\ covers ml lo a b c d /\ covers mh hi a b c d /\ circle v' vs a b vc).

Lemma conclude i (v : rview) a b c d lo hi vs :
  (r_complete v lo hi vs = Undefined /\ too_long i v lo hi) \/
  (~ too_long i v lo hi /\ exists v' ml mh vc, r_complete v lo hi vs = Done v' ml mh vc /\
   completes i v v' a b c d /\ covers ml lo a b c d /\ covers mh hi a b c d /\ circle v' vs a b vc) ->
  conclusion i v lo hi vs.
Proof. intros [C|(N & C)]; [left; exact C|right; split; [exact N|exists a, b, c, d; exact C]]. Qed.

Section Cases.
Variables (w h lo hi vs : Z).
Hypotheses (PW : (0 < w)%Z) (PH : (0 < h)%Z) (PL : (0 < lo)%Z) (PG : (0 < hi)%Z).

Let NW : (w =? 0)%Z = false. Proof. apply Z.eqb_neq. lia. Qed.
Let NH : (h =? 0)%Z = false. Proof. apply Z.eqb_neq. lia. Qed.
Let RW : 0 < IZR w. Proof. apply IZR_lt. exact PW. Qed.
Let RH : 0 < IZR h. Proof. apply IZR_lt. exact PH. Qed.

Lemma case_X c1 c0 d0 : c0 <> d0 -> conclusion X (@mkView RNaN w h (Some c1) (Some c1) (Some c0) (Some d0)) lo hi vs.
Proof using All.
  intros N. destruct (swapped_x w h (Some c1) (Some c1) c0 d0 (ltb_same c1) N) as (c & d & B & S).
  assert (CD : c < d) by apply B. set (s := (d - c) * IZR w / IZR h).
  assert (SP : 0 < s) by (apply Rdiv_lt_0_compat; [apply Rmult_lt_0_compat; lra|exact RH]).
  apply (conclude X _ (c1 - s / 2) (c1 + s / 2) c d).
  apply (range_case X _ w h); try discriminate; try assumption; try reflexivity; try (rewrite S; reflexivity).
  - rewrite S. unfold var_cnt. cbn [width height xmin xmax ymin ymax]. rewrite NW, NH, eqb_same, neqb_some by exact CD. reflexivity.
  - rewrite S. unfold fix_range, fix_x. cbn [xmin xmax]. rewrite eqb_same, (x_span_some _ w h c d) by (reflexivity || assumption).
    change (@nofZ RNaN 2) with (Some 2). fold s. rewrite (div_some s 2) by lra.
    change (@nsub RNaN (Some c1) (Some (s / 2))) with (Some (c1 - s / 2)).
    change (@nadd RNaN (Some c1) (Some (s / 2))) with (Some (c1 + s / 2)).
    unfold set_x. cbn [width height ymin ymax]. unfold fix_y. cbn [ymin ymax]. rewrite neqb_some by exact CD. reflexivity.
  - split; [repeat split; [lra|exact CD]|]. cbn [box width height xmin ymin ymax]. split; [reflexivity|]. split; [reflexivity|].
    split; [unfold to_scale, s; field; lra|]. split; [exact B|]. f_equal. field.
Qed.
Lemma case_Y c1 a0 b0 : a0 <> b0 -> conclusion Y (@mkView RNaN w h (Some a0) (Some b0) (Some c1) (Some c1)) lo hi vs.
Proof using All.
  intros N. destruct (swapped_y w h (Some c1) (Some c1) a0 b0 (ltb_same c1) N) as (a & b & B & S).
  assert (AB : a < b) by apply B. set (s := (b - a) * IZR h / IZR w).
  assert (SP : 0 < s) by (apply Rdiv_lt_0_compat; [apply Rmult_lt_0_compat; lra|exact RW]).
  apply (conclude Y _ a b (c1 - s / 2) (c1 + s / 2)).
  apply (range_case Y _ w h); try discriminate; try assumption; try reflexivity; try (rewrite S; reflexivity).
  - rewrite S. unfold var_cnt. cbn [width height xmin xmax ymin ymax]. rewrite NW, NH, eqb_same, neqb_some by exact AB. reflexivity.
  - rewrite S. unfold fix_range, fix_x. cbn [xmin xmax]. rewrite (neqb_some a b AB).
    unfold fix_y. cbn [ymin ymax]. rewrite eqb_same, (y_span_some _ w h a b) by (reflexivity || assumption).
    change (@nofZ RNaN 2) with (Some 2). fold s. rewrite (div_some s 2) by lra. reflexivity.
  - split; [repeat split; [exact AB|lra]|]. cbn [box width height xmin xmax ymin]. split; [reflexivity|]. split; [reflexivity|].
    split; [unfold to_scale, s; field; lra|]. split; [exact B|]. f_equal. field.
Qed.
Lemma case_Xmin b c0 d0 : c0 <> d0 -> conclusion Xmin (@mkView RNaN w h None (Some b) (Some c0) (Some d0)) lo hi vs.
Proof using All.
  intros N. destruct (swapped_x w h None (Some b) c0 d0 eq_refl N) as (c & d & B & S).
  assert (CD : c < d) by apply B. set (s := (d - c) * IZR w / IZR h).
  assert (SP : 0 < s) by (apply Rdiv_lt_0_compat; [apply Rmult_lt_0_compat; lra|exact RH]).
  apply (conclude Xmin _ (b - s) b c d).
  apply (range_case Xmin _ w h); try discriminate; try assumption; try reflexivity; try (rewrite S; reflexivity).
  - rewrite S. unfold var_cnt. cbn [width height xmin xmax ymin ymax]. rewrite NW, NH, eqb_none_l, neqb_some by exact CD. reflexivity.
  - rewrite S. unfold fix_range, fix_x. cbn [xmin xmax]. rewrite eqb_none_l.
    unfold fix_y. cbn [ymin ymax]. rewrite neqb_some by exact CD. unfold fix_xmin. cbn [xmin xmax].
    change (@nnan RNaN None) with true. cbv iota. rewrite (x_span_some _ w h c d) by (reflexivity || assumption). fold s. reflexivity.
  - split; [repeat split; [lra|exact CD]|]. cbn [box width height xmax ymin ymax]. split; [reflexivity|]. split; [reflexivity|].
    split; [unfold to_scale, s; field; lra|]. split; [exact B|reflexivity].
Qed.
Lemma case_Xmax a c0 d0 : c0 <> d0 -> conclusion Xmax (@mkView RNaN w h (Some a) None (Some c0) (Some d0)) lo hi vs.
Proof using All.
  intros N. destruct (swapped_x w h (Some a) None c0 d0 eq_refl N) as (c & d & B & S).
  assert (CD : c < d) by apply B. set (s := (d - c) * IZR w / IZR h).
  assert (SP : 0 < s) by (apply Rdiv_lt_0_compat; [apply Rmult_lt_0_compat; lra|exact RH]).
  apply (conclude Xmax _ a (a + s) c d).
  apply (range_case Xmax _ w h); try discriminate; try assumption; try reflexivity; try (rewrite S; reflexivity).
  - rewrite S. unfold var_cnt. cbn [width height xmin xmax ymin ymax]. rewrite NW, NH, eqb_none_r, neqb_some by exact CD. reflexivity.
  - rewrite S. unfold fix_range, fix_x. cbn [xmin xmax]. rewrite eqb_none_r.
    unfold fix_y. cbn [ymin ymax]. rewrite neqb_some by exact CD. unfold fix_xmin. cbn [xmin xmax].
    change (@nnan RNaN (Some a)) with false. cbv iota. unfold fix_xmax. cbn [xmin xmax].
    change (@nnan RNaN None) with true. cbv iota. rewrite (x_span_some _ w h c d) by (reflexivity || assumption). fold s. reflexivity.
  - split; [repeat split; [lra|exact CD]|]. cbn [box width height xmin ymin ymax]. split; [reflexivity|]. split; [reflexivity|].
    split; [unfold to_scale, s; field; lra|]. split; [exact B|reflexivity].
Qed.
Lemma case_Ymin d a0 b0 : a0 <> b0 -> conclusion Ymin (@mkView RNaN w h (Some a0) (Some b0) None (Some d)) lo hi vs.
Proof using All.
  intros N. destruct (swapped_y w h None (Some d) a0 b0 eq_refl N) as (a & b & B & S).
  assert (AB : a < b) by apply B. set (s := (b - a) * IZR h / IZR w).
  assert (SP : 0 < s) by (apply Rdiv_lt_0_compat; [apply Rmult_lt_0_compat; lra|exact RW]).
  apply (conclude Ymin _ a b (d - s) d).
  apply (range_case Ymin _ w h); try discriminate; try assumption; try reflexivity; try (rewrite S; reflexivity).
  - rewrite S. unfold var_cnt. cbn [width height xmin xmax ymin ymax]. rewrite NW, NH, eqb_none_l, neqb_some by exact AB. reflexivity.
  - rewrite S. unfold fix_range, fix_x. cbn [xmin xmax]. rewrite (neqb_some a b AB).
    unfold fix_y. cbn [ymin ymax]. rewrite eqb_none_l. unfold fix_xmin. cbn [xmin xmax].
    change (@nnan RNaN (Some a)) with false. cbv iota. unfold fix_xmax. cbn [xmin xmax].
    change (@nnan RNaN (Some b)) with false. cbv iota. unfold fix_ymin. cbn [ymin ymax].
    change (@nnan RNaN None) with true. cbv iota. rewrite (y_span_some _ w h a b) by (reflexivity || assumption). fold s. reflexivity.
  - split; [repeat split; [exact AB|lra]|]. cbn [box width height xmin xmax ymax]. split; [reflexivity|]. split; [reflexivity|].
    split; [unfold to_scale, s; field; lra|]. split; [exact B|reflexivity].
Qed.
Lemma case_Ymax c a0 b0 : a0 <> b0 -> conclusion Ymax (@mkView RNaN w h (Some a0) (Some b0) (Some c) None) lo hi vs.
Proof using All.
  intros N. destruct (swapped_y w h (Some c) None a0 b0 eq_refl N) as (a & b & B & S).
  assert (AB : a < b) by apply B. set (s := (b - a) * IZR h / IZR w).
  assert (SP : 0 < s) by (apply Rdiv_lt_0_compat; [apply Rmult_lt_0_compat; lra|exact RW]).
  apply (conclude Ymax _ a b c (c + s)).
  apply (range_case Ymax _ w h); try discriminate; try assumption; try reflexivity; try (rewrite S; reflexivity).
  - rewrite S. unfold var_cnt. cbn [width height xmin xmax ymin ymax]. rewrite NW, NH, eqb_none_r, neqb_some by exact AB. reflexivity.
  - rewrite S. unfold fix_range, fix_x. cbn [xmin xmax]. rewrite (neqb_some a b AB).
    unfold fix_y. cbn [ymin ymax]. rewrite eqb_none_r. unfold fix_xmin. cbn [xmin xmax].
    change (@nnan RNaN (Some a)) with false. cbv iota. unfold fix_xmax. cbn [xmin xmax].
    change (@nnan RNaN (Some b)) with false. cbv iota. unfold fix_ymin. cbn [ymin ymax].
    change (@nnan RNaN (Some c)) with false. cbv iota. unfold fix_ymax. cbn [ymin ymax].
    change (@nnan RNaN None) with true. cbv iota. rewrite (y_span_some _ w h a b) by (reflexivity || assumption). fold s. reflexivity.
  - split; [repeat split; [exact AB|lra]|]. cbn [box width height xmin xmax ymin]. split; [reflexivity|]. split; [reflexivity|].
    split; [unfold to_scale, s; field; lra|]. split; [exact B|reflexivity].
Qed.
End Cases.

(** ** The error *)

Lemma missing_swapped (v : rview) i : missing (swapped v) i <-> missing v (match i with
  | Xmin => if @nltb RNaN (xmax v) (xmin v) then Xmax else Xmin | Xmax => if @nltb RNaN (xmax v) (xmin v) then Xmin else Xmax
  | Ymin => if @nltb RNaN (ymax v) (ymin v) then Ymax else Ymin | Ymax => if @nltb RNaN (ymax v) (ymin v) then Ymin else Ymax
  | i => i end).
Proof.
  destruct v as [w h x0 x1 y0 y1]. unfold swapped. cbn [xmin xmax].
  destruct (@nltb RNaN x1 x0) eqn:E1; cbn [ymin ymax set_x]; destruct (@nltb RNaN y1 y0) eqn:E2;
    destruct i; cbn; try tauto; try (split; intros (c & A & B); exists c; auto).
Qed.

Lemma counted (v : rview) i : missing v i ->
  one (match i with
       | W => (width v =? 0)%Z | H => (height v =? 0)%Z
       | X => @neqb RNaN (xmin v) (xmax v) | Y => @neqb RNaN (ymin v) (ymax v)
       | Xmin => @nnan RNaN (xmin v) | Xmax => @nnan RNaN (xmax v)
       | Ymin => @nnan RNaN (ymin v) | Ymax => @nnan RNaN (ymax v) end) = 1%Z.
Proof.
  destruct i; cbn [missing]; intros M.
  - rewrite M. reflexivity.
  - rewrite M. reflexivity.
  - destruct M as (c & -> & ->). rewrite eqb_same. reflexivity.
  - destruct M as (c & -> & ->). rewrite eqb_same. reflexivity.
  - rewrite M. reflexivity.
  - rewrite M. reflexivity.
  - rewrite M. reflexivity.
  - rewrite M. reflexivity.
Qed.

Lemma two_missing (v : rview) i j : missing v i -> missing v j -> i <> j -> (2 <= var_cnt v)%Z.
Proof.
  intros MI MJ N. apply counted in MI. apply counted in MJ. unfold var_cnt.
  assert (P : forall b, (0 <= one b <= 1)%Z) by (intros []; cbn; lia).
  pose proof (P (width v =? 0)%Z). pose proof (P (height v =? 0)%Z).
  pose proof (P (@neqb RNaN (xmin v) (xmax v))). pose proof (P (@neqb RNaN (ymin v) (ymax v))).
  pose proof (P (@nnan RNaN (xmin v))). pose proof (P (@nnan RNaN (xmax v))).
  pose proof (P (@nnan RNaN (ymin v))). pose proof (P (@nnan RNaN (ymax v))).
  destruct i, j; try congruence; lia.
Qed.

Lemma error_case (v : rview) i j lo hi vs : missing v i -> missing v j -> i <> j -> r_complete v lo hi vs = ExitError.
Proof.
  intros MI MJ N. rewrite after_swap. cbv zeta.
  assert (C : (2 <= var_cnt (swapped v))%Z).
  { set (s := fun i => match i with
      | Xmin => if @nltb RNaN (xmax v) (xmin v) then Xmax else Xmin | Xmax => if @nltb RNaN (xmax v) (xmin v) then Xmin else Xmax
      | Ymin => if @nltb RNaN (ymax v) (ymin v) then Ymax else Ymin | Ymax => if @nltb RNaN (ymax v) (ymin v) then Ymin else Ymax
      | i => i end).
    assert (SS : forall k, s (s k) = k).
    { unfold s. destruct (@nltb RNaN (xmax v) (xmin v)), (@nltb RNaN (ymax v) (ymin v)); intros []; reflexivity. }
    apply (two_missing (swapped v) (s i) (s j)).
    - apply missing_swapped. fold (s (s i)). rewrite SS. exact MI.
    - apply missing_swapped. fold (s (s j)). rewrite SS. exact MJ.
    - intros E. apply N. rewrite <- (SS i), <- (SS j), E. reflexivity. }
  replace (1 <? var_cnt (swapped v))%Z with true by (symmetry; apply Z.ltb_lt; lia). reflexivity.
Qed.
