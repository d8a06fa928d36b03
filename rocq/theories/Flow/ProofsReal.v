(** Collisions, balances and attachments, over the reals. *)

From Coq Require Import ZArith Bool List Reals Lra Lia Permutation.
From Verif.Base Require Import Num.
From Verif.Body Require Import Model Spec ProofsGeom ProofsBody.
From Verif.Flow Require Import Model Spec Proofs.
Import ListNotations.
Local Open Scope R_scope.

Notation fbodyR := (fbody RNum).

(** * Collisions *)

Definition comps := [CX; CY; CO].
Lemma in_comps c : In c comps.
Proof. destruct c; simpl; auto. Qed.

Fixpoint cells (i : nat) (l : list fbodyR) : list (nat * fbodyR * comp) :=
  match l with
  | [] => []
  | b :: t => map (fun c => (i, b, c)) comps ++ cells (S i) t
  end.

Lemma detect_cells dt : forall l i st,
  detect (K:=RNum) dt i l st = fold_left (fun st e => check (K:=RNum) dt (fst (fst e)) (snd (fst e)) st (snd e)) (cells i l) st.
Proof. induction l as [|b t IH]; intros i st; [reflexivity|]. simpl. apply IH. Qed.

Lemma cells_in : forall l i j b c, In (j, b, c) (cells i l) <-> exists n, j = (i + n)%nat /\ nth_error l n = Some b.
Proof.
  induction l as [|a t IH]; intros i j b c; simpl.
  - split; [tauto|]. intros (n & _ & E). destruct n; discriminate.
  - split.
    + intros H0. repeat (destruct H0 as [H0|H0]; [injection H0 as <- <- _; exists O; split; [lia|reflexivity]|]).
      apply IH in H0. destruct H0 as (n & -> & E). exists (S n). split; [lia|exact E].
    + intros (n & -> & E). destruct n as [|n]; simpl in E.
      * injection E as ->. rewrite Nat.add_0_r. destruct c; auto.
      * do 3 right. apply IH. exists n. split; [lia|exact E].
Qed.

Lemma fold_check dt (l : list (nat * fbodyR * comp)) : forall st,
  let st' := fold_left (fun st e => check (K:=RNum) dt (fst (fst e)) (snd (fst e)) st (snd e)) l st in
  fst st' <= fst st /\
  (forall i b c t, In (i, b, c) l -> hit_time (K:=RNum) dt b c = Some t -> fst st' <= t) /\
  (st' = st \/ exists i b c t, In (i, b, c) l /\ hit_time (K:=RNum) dt b c = Some t /\ st' = (t, Some (i, c)) /\ t < fst st).
Proof.
  induction l as [|[[i b] c] l IH]; intros st st'; unfold st'; cbn [fold_left fst snd].
  - repeat split; [lra|intros ? ? ? ? []|auto].
  - specialize (IH (check (K:=RNum) dt i b st c)). cbv zeta in IH. destruct IH as (A & B & C).
    set (st1 := fold_left _ l _) in *. unfold check in A, C.
    destruct (hit_time (K:=RNum) dt b c) as [t|] eqn:E.
    + change (@nltb RNum) with Rltb in *. destruct (Rltb t (fst st)) eqn:L; rbool; cbn [fst] in *.
      * repeat split; [lra| |].
        -- intros i' b' c' t' [X|X] Y; [injection X as <- <- <-; rewrite E in Y; injection Y as <-; lra|eauto].
        -- right. destruct C as [C|(i' & b' & c' & t' & X & Y & Z & W)].
           ++ exists i, b, c, t. repeat split; auto. left. auto.
           ++ exists i', b', c', t'. repeat split; auto; [right; auto|lra].
      * repeat split; [lra| |].
        -- intros i' b' c' t' [X|X] Y; [injection X as <- <- <-; rewrite E in Y; injection Y as <-; lra|eauto].
        -- destruct C as [C|(i' & b' & c' & t' & X & Y & Z & W)]; auto.
           right. exists i', b', c', t'. repeat split; auto. right; auto.
    + repeat split; [lra| |].
      * intros i' b' c' t' [X|X] Y; [injection X as <- <- <-; rewrite E in Y; discriminate|eauto].
      * destruct C as [C|(i' & b' & c' & t' & X & Y & Z & W)]; auto.
        right. exists i', b', c', t'. repeat split; auto. right; auto.
Qed.

Lemma free_rigid (b : fbodyR) c : free b c <-> isrigid (K:=RNum) (get c (kspring b)) = false.
Proof.
  unfold free, isrigid. change (@nleb RNum) with Rleb. unfold Rleb. cbn [nfinite nofZ RNum].
  destruct (Rle_dec _ _); cbn [andb negb]; split; intros; auto; try discriminate; contradiction.
Qed.
Definition spd (b : fbodyR) (c : comp) : R := get c (speed_slae (geo b)).
Definition cpos (b : fbodyR) (c : comp) : R := cur_pos (K:=RNum) b c.
Definition lo (b : fbodyR) (c : comp) : R := get c (cmin b).
Definition hi (b : fbodyR) (c : comp) : R := get c (cmax b).

Lemma hit_time_R dt b c : hit_time (K:=RNum) dt b c =
  if isrigid (K:=RNum) (get c (kspring b)) then None
  else if Rlt_dec (hi b c) (cpos b c + dt * spd b c) then Some ((hi b c - cpos b c) / spd b c)
  else if Rlt_dec (cpos b c + dt * spd b c) (lo b c) then Some ((lo b c - cpos b c) / spd b c)
  else None.
Proof.
  unfold hit_time. destruct (isrigid _); auto.
  change (@nltb RNum) with Rltb. unfold Rltb, hi, lo, cpos, spd. cbn [nadd nmul nsub ndiv RNum].
  destruct (Rlt_dec _ _); auto. destruct (Rlt_dec _ _); auto.
Qed.

(** The step that hits a limit is between zero and the nominal one. *)
Lemma hit_in_range dt b c t : 0 <= dt -> lo b c <= cpos b c <= hi b c ->
  hit_time (K:=RNum) dt b c = Some t ->
  0 <= t < dt /\ (cpos b c + t * spd b c = hi b c \/ cpos b c + t * spd b c = lo b c).
Proof.
  intros D P. rewrite hit_time_R. destruct (isrigid _); [discriminate|].
  destruct (Rlt_dec (hi b c) _) as [L|L].
  - intros E. injection E as <-.
    assert (V : 0 < spd b c). { destruct (Rlt_le_dec 0 (spd b c)); auto. assert (dt * spd b c <= 0) by nra. lra. }
    assert (Q : (hi b c - cpos b c) / spd b c * spd b c = hi b c - cpos b c) by (field; lra).
    split; [|left; lra]. set (t := (hi b c - cpos b c) / spd b c) in *. split; nra.
  - destruct (Rlt_dec _ (lo b c)) as [L'|L']; [|discriminate]. intros E. injection E as <-.
    assert (V : spd b c < 0). { destruct (Rlt_le_dec (spd b c) 0); auto. assert (0 <= dt * spd b c) by nra. lra. }
    assert (Q : (lo b c - cpos b c) / spd b c * spd b c = lo b c - cpos b c) by (field; lra).
    split; [|right; lra]. set (t := (lo b c - cpos b c) / spd b c) in *. split; nra.
Qed.

Lemma detect_spec dt bs cdt ptr : 0 <= dt ->
  (forall b c, In b bs -> free b c -> lo b c <= cpos b c <= hi b c) ->
  detect (K:=RNum) dt 0 bs (dt, None) = (cdt, ptr) ->
  0 <= cdt <= dt /\
  (forall b c, In b bs -> free b c -> lo b c <= cpos b c + cdt * spd b c <= hi b c) /\
  match ptr with
  | None => cdt = dt
  | Some (i, c) => cdt < dt /\ exists b, nth_error bs i = Some b /\ free b c /\
      (cpos b c + cdt * spd b c = hi b c \/ cpos b c + cdt * spd b c = lo b c)
  end.
Proof.
  intros D P E. rewrite detect_cells in E. pose proof (fold_check dt (cells 0 bs) (dt, None)) as F. cbv zeta in F.
  rewrite E in F. destruct F as (F1 & F2 & F3). cbn [fst] in *.
  assert (HIT : forall i b c t, In (i, b, c) (cells 0 bs) -> hit_time (K:=RNum) dt b c = Some t ->
    In b bs /\ free b c /\ 0 <= t < dt /\ (cpos b c + t * spd b c = hi b c \/ cpos b c + t * spd b c = lo b c)).
  { intros i b c t I Y. apply cells_in in I. destruct I as (n & _ & N). apply nth_error_In in N.
    assert (FR : free b c). { apply free_rigid. unfold hit_time in Y. destruct (isrigid _); [discriminate|reflexivity]. }
    split; [exact N|]. split; [exact FR|]. apply hit_in_range; auto. }
  assert (R : 0 <= cdt <= dt).
  { split; [|lra]. destruct F3 as [F3|(i & b & c & t & I & Y & Z & W)]; [injection F3 as -> _; lra|].
    injection Z as -> _. destruct (HIT i b c t I Y) as (_ & _ & T & _). lra. }
  split; [exact R|]. split.
  - intros b c I FR. destruct (hit_time (K:=RNum) dt b c) as [t|] eqn:Y.
    + apply In_nth_error in I. destruct I as [n N].
      assert (I : In (n, b, c) (cells 0 bs)) by (apply cells_in; exists n; auto).
      destruct (HIT n b c t I Y) as (I' & _ & T & L). pose proof (F2 n b c t I Y) as M.
      pose proof (P b c I' FR) as Q.
      assert (0 <= t * spd b c - cdt * spd b c \/ t * spd b c - cdt * spd b c <= 0) by lra.
      destruct (Rle_lt_dec 0 (spd b c)).
      * assert (cdt * spd b c <= t * spd b c) by nra. assert (0 <= cdt * spd b c) by nra. split; lra.
      * assert (t * spd b c <= cdt * spd b c) by nra. assert (cdt * spd b c <= 0) by nra. split; lra.
    + rewrite hit_time_R in Y. pose proof (proj1 (free_rigid b c) FR) as FR'. rewrite FR' in Y.
      destruct (Rlt_dec (hi b c) _); [discriminate|]. destruct (Rlt_dec _ (lo b c)); [discriminate|].
      pose proof (P b c I FR) as Q.
      destruct (Rle_lt_dec 0 (spd b c)).
      * assert (0 <= cdt * spd b c) by nra. assert (cdt * spd b c <= dt * spd b c) by nra. split; lra.
      * assert (cdt * spd b c <= 0) by nra. assert (dt * spd b c <= cdt * spd b c) by nra. split; lra.
  - destruct F3 as [F3|(i & b & c & t & I & Y & Z & W)].
    + injection F3 as -> ->. reflexivity.
    + injection Z as -> ->. split; [lra|]. destruct (HIT i b c t I Y) as (_ & FR & _ & L).
      apply cells_in in I. destruct I as (n & -> & N). exists b. auto.
Qed.

(** * Positions after the motion *)

Section Move.
Variable inf : R.

Lemma refresh_holder (b : body RNum) : holder (refresh (K:=RNum) inf b) = holder b /\ dpos (refresh (K:=RNum) inf b) = dpos b
  /\ speed_slae (refresh (K:=RNum) inf b) = speed_slae b.
Proof.
  unfold refresh, fill_properties. cbn [set_alist alist]. destruct (update_segments _); [auto|].
  destruct (fill_cofm _). auto.
Qed.

Notation moveR := (move (K:=RNum) inf cos sin).
Lemma move_holder dh db b : holder (moveR dh db b) = mkVec3 (vadd (r3 (holder b)) (r3 dh)) (o3 (holder b) + o3 dh).
Proof. unfold move. rewrite (proj1 (refresh_holder _)). reflexivity. Qed.
Lemma move_dpos dh db b : dpos (moveR dh db b) =
  mkVec3 (vadd (r3 (dpos b)) (vsub (r3 db) (r3 dh))) (o3 (dpos b) + (o3 db - o3 dh)).
Proof. unfold move. rewrite (proj1 (proj2 (refresh_holder _))). reflexivity. Qed.

Lemma move_pos fuel bs dt b b' : move_body (K:=RNum) inf cos sin fuel bs dt b = Some b' -> root b = None ->
  forall c, cpos b' c = cpos b c + dt * spd b c.
Proof.
  unfold move_body, deltas. intros E N. rewrite N in E. destruct fuel; simpl chain_error in E; rewrite N in E;
  cbn [option_map fst snd] in E; injection E as <-; intros c; unfold cpos, cur_pos; cbn [geo set_geo];
  rewrite move_holder, move_dpos; destruct c; unfold spd; simpl; ring.
Qed.

Lemma shape_pos (b b' : fbodyR) : shape b = shape b' -> forall c, cpos b c = cpos b' c.
Proof.
  intros E c. unfold cpos, cur_pos.
  change (holder (geo b)) with (holder (shape b)). change (dpos (geo b)) with (dpos (shape b)). rewrite E. reflexivity.
Qed.

Lemma map_shape_nth (bs bs' : list fbodyR) i b : map shape bs = map shape bs' -> nth_error bs i = Some b ->
  exists b', nth_error bs' i = Some b' /\ shape b = shape b'.
Proof.
  intros E N. pose proof (f_equal (fun l => nth_error l i) E) as X. cbn beta in X. rewrite !nth_error_map, N in X.
  destruct (nth_error bs' i) as [b'|]; [|discriminate]. exists b'. split; auto. cbn [option_map] in X.
  apply (f_equal (fun o => match o with Some v => v | None => shape b end)) in X. exact X.
Qed.

Lemma forall2_nth {A B} (Q : A -> B -> Prop) l l' : Forall2 Q l l' -> forall i a, nth_error l i = Some a ->
  exists b, nth_error l' i = Some b /\ Q a b.
Proof.
  induction 1; intros [|i] a E; simpl in *; try discriminate.
  - injection E as ->. eauto.
  - eauto.
Qed.
Lemma forall2_nth' {A B} (Q : A -> B -> Prop) l l' : Forall2 Q l l' -> forall i b, nth_error l' i = Some b ->
  exists a, nth_error l i = Some a /\ Q a b.
Proof.
  induction 1; intros [|i] b E; simpl in *; try discriminate.
  - injection E as ->. eauto.
  - eauto.
Qed.

(** * Attachments *)

Lemma rot_r3 (v : vec RNum) (k : R) : vscale v k = P (px v * k) (py v * k).
Proof. reflexivity. Qed.

(** Displacement of an attached body: that of the joint. *)
Lemma attached fuel bs dt b j rt dh db dh' db' :
  root b = Some j -> nth_error bs j = Some rt ->
  deltas (K:=RNum) cos sin fuel bs dt b = Some (dh, db) ->
  deltas (K:=RNum) cos sin (pred fuel) bs dt rt = Some (dh', db') ->
  let dr := P (px (r3 (holder (geo b))) - px (get_axis (geo rt))) (py (r3 (holder (geo b))) - py (get_axis (geo rt))) in
  let da := dt * o3 (speed_slae (geo rt)) in
  px (r3 dh) - px (r3 db') = dt * px (r3 (own b)) + (cos da * px dr - sin da * py dr) - px dr /\
  py (r3 dh) - py (r3 db') = dt * py (r3 (own b)) + (sin da * px dr + cos da * py dr) - py dr.
Proof.
  intros N R E E'. unfold deltas in E, E'. rewrite N, R in E.
  destruct fuel as [|fuel]; cbn [chain_error] in E; rewrite N in E; [discriminate|]. rewrite R in E.
  cbn [pred] in E'.
  destruct (chain_error (K:=RNum) cos sin fuel bs dt rt) as [e|] eqn:C; cbn [option_map] in E; [|discriminate].
  injection E as <- <-.
  match type of E' with match ?d with _ => _ end = _ => destruct d; [|discriminate] end.
  injection E' as <- <-.
  cbv zeta. cbn [r3 o3]. unfold px, py, P, vsub, vadd, vscale, rotl. cbn [x y]. cbn [nadd nsub nmul nopp RNum].
  set (hx := x (r3 (holder (geo b)))). set (hy := y (r3 (holder (geo b)))).
  set (ax := x (get_axis (geo rt))). set (ay := y (get_axis (geo rt))).
  rewrite (Rmult_comm (o3 (speed_slae (geo rt))) dt).
  split; ring.
Qed.
End Move.
