(** The in-place subdivision: tiling and refinement of the tree. *)

From Coq Require Import ZArith Bool List Permutation Lia PeanoNat.
From Verif.Base Require Import Num.
From Verif.Tree Require Import Model ModelRange Spec Proofs.
Import ListNotations.

Section Slice.
Context {A : Type}.

Lemma skipn_skipn x y (l : list A) : skipn x (skipn y l) = skipn (x + y) l.
Proof.
  revert l; induction y; intros l; [rewrite Nat.add_0_r; auto|].
  destruct l; [rewrite !skipn_nil; auto|]. rewrite Nat.add_succ_r. simpl. auto.
Qed.

(** The list [l'] differs from [l] inside [r] only. *)
Definition outside (l l' : list A) (r : range) :=
  firstn (first r) l' = firstn (first r) l /\ skipn (last r) l' = skipn (last r) l /\ length l' = length l.

Definition inside (l : list A) (r : range) := first r <= last r /\ last r <= length l.

Lemma slice_length (l : list A) r : inside l r -> length (slice l r) = last r - first r.
Proof. intros [H1 H2]. unfold slice. rewrite firstn_length, skipn_length. lia. Qed.

Lemma cut3 (l : list A) r : inside l r -> l = firstn (first r) l ++ slice l r ++ skipn (last r) l.
Proof.
  intros [H1 H2]. unfold slice.
  rewrite <- (firstn_skipn (first r) l) at 1. f_equal.
  rewrite <- (firstn_skipn (last r - first r) (skipn (first r) l)) at 1. f_equal.
  rewrite skipn_skipn. f_equal. lia.
Qed.

Lemma slice_app (p m q : list A) : slice (p ++ m ++ q) (mkRange (length p) (length p + length m)) = m.
Proof.
  unfold slice. simpl. rewrite skipn_app, skipn_all, Nat.sub_diag. simpl.
  replace (length p + length m - length p) with (length m) by lia.
  rewrite firstn_app, firstn_all, Nat.sub_diag. simpl. apply app_nil_r.
Qed.

Lemma distribute_range_ok (below above : A -> bool) (l l' : list A) r r1 r2 :
  inside l r -> distribute_range below above l r = (l', r1, r2) ->
  exists s1 s2, distribute below above (slice l r) = (s1, s2) /\
    slice l' r1 = s1 /\ slice l' r2 = s2 /\
    first r1 = first r /\ last r1 = first r2 /\ last r2 = last r /\
    inside l' r1 /\ inside l' r2 /\ outside l l' r /\ Permutation l l'.
Proof.
  intros I E. unfold distribute_range in E.
  destruct (distribute below above (slice l r)) as [s1 s2] eqn:D.
  injection E as <- <- <-. exists s1, s2. split; auto.
  pose proof (distribute_perm _ _ _ _ _ D) as P.
  pose proof (Permutation_length P) as PL. rewrite app_length, (slice_length l r I) in PL.
  destruct I as [I1 I2].
  assert (LF : length (firstn (first r) l) = first r) by (rewrite firstn_length; lia).
  assert (LS : length (skipn (last r) l) = length l - last r) by (rewrite skipn_length; lia).
  set (p := firstn (first r) l) in *. set (q := skipn (last r) l) in *.
  assert (LL : length (p ++ s1 ++ s2 ++ q) = length l) by (rewrite !app_length; lia).
  split; [|split].
  - rewrite <- LF at 1 2. apply (slice_app p s1 (s2 ++ q)).
  - replace (p ++ s1 ++ s2 ++ q) with ((p ++ s1) ++ s2 ++ q) by (rewrite <- app_assoc; auto).
    replace (first r + length s1) with (length (p ++ s1)) by (rewrite app_length; lia).
    replace (last r) with (length (p ++ s1) + length s2) by (rewrite app_length; lia).
    apply slice_app.
  - simpl. unfold inside, outside. simpl. rewrite LL.
    repeat (split; [lia|]). split.
    + split; [|split; auto].
      * rewrite firstn_app, LF, Nat.sub_diag. simpl. rewrite app_nil_r.
        rewrite <- LF at 1. apply firstn_all.
      * replace (p ++ s1 ++ s2 ++ q) with ((p ++ s1 ++ s2) ++ q) by (rewrite <- !app_assoc; auto).
        rewrite skipn_app. replace (length (p ++ s1 ++ s2)) with (last r) by (rewrite !app_length; lia).
        rewrite Nat.sub_diag. simpl. rewrite skipn_all2; auto. rewrite !app_length. lia.
    + rewrite (cut3 l r) at 1 by (split; auto). fold p q. apply Permutation_app_head.
      rewrite app_assoc. apply Permutation_app_tail. auto.
Qed.

Lemma outside_trans (l l' l'' : list A) r r1 :
  first r <= first r1 -> last r1 <= last r ->
  outside l l' r -> outside l' l'' r1 -> outside l l'' r.
Proof.
  intros H1 H2 (A1 & A2 & A3) (B1 & B2 & B3). split; [|split].
  - rewrite <- A1. replace (first r) with (Nat.min (first r) (first r1)) by lia.
    rewrite <- !firstn_firstn. f_equal. auto.
  - rewrite <- A2. replace (last r) with ((last r - last r1) + last r1) by lia.
    rewrite <- !skipn_skipn. f_equal. auto.
  - congruence.
Qed.

Lemma slice_left (l l' : list A) r1 r2 : first r1 <= last r1 -> last r1 <= first r2 ->
  outside l l' r2 -> slice l' r1 = slice l r1.
Proof.
  intros H0 H (A1 & A2 & A3). unfold slice. rewrite !firstn_skipn_comm. f_equal.
  replace (first r1 + (last r1 - first r1)) with (Nat.min (last r1) (first r2)) by lia.
  rewrite <- !firstn_firstn. f_equal. auto.
Qed.
Lemma slice_right (l l' : list A) r1 r2 : last r1 <= first r2 ->
  outside l l' r1 -> slice l' r2 = slice l r2.
Proof.
  intros H (A1 & A2 & A3). unfold slice. f_equal.
  replace (first r2) with ((first r2 - last r1) + last r1) by lia.
  rewrite <- !skipn_skipn. f_equal. auto.
Qed.
Lemma inside_length (l l' : list A) r : length l' = length l -> inside l r -> inside l' r.
Proof. unfold inside. intros ->. auto. Qed.
End Slice.

Lemma tiles_app a c e rs1 rs2 : tiles a c rs1 -> tiles c e rs2 -> tiles a e (rs1 ++ rs2).
Proof. revert a; induction rs1; simpl; intros a0 H1 H2; [congruence|]. intuition. Qed.

Section Tree.
Context {K : Num}.
Variables big minSize maxSize : K.
Notation divr := (divide_range big minSize maxSize).
Notation div := (divide big minSize maxSize).

(** What a bottom node and a leaf of the tree have in common. *)
Definition matches (L : lists K) (x : bottom K) (t : tree K) : Prop :=
  t = Leaf (bnode x) (bb x) (slice (VL L) (vR x)) (slice (HL L) (hR x)) (slice (SL L) (sR x)).

Lemma matches_ext L L' x t :
  slice (VL L') (vR x) = slice (VL L) (vR x) -> slice (HL L') (hR x) = slice (HL L) (hR x) ->
  slice (SL L') (sR x) = slice (SL L) (sR x) -> matches L x t -> matches L' x t.
Proof. unfold matches. intros -> -> ->. auto. Qed.

Lemma tiles_in a c rs r : tiles a c rs -> In r rs -> a <= first r /\ first r <= last r /\ last r <= c.
Proof.
  revert a; induction rs as [|r0 rs IH]; simpl; intros a H Hr; [tauto|].
  destruct H as (H1 & H2 & H3).
  assert (last r0 <= c).
  { clear -H3. revert H3. generalize (last r0). induction rs; simpl; intros; [lia|]. destruct H3 as (? & ? & H3). apply IHrs in H3. lia. }
  destruct Hr as [<-|Hr]; [lia|]. apply (IH _ H3) in Hr. lia.
Qed.

Lemma divide_range_ok fuel : forall n b L rv rh rs L' bot,
  inside (VL L) rv -> inside (HL L) rh -> inside (SL L) rs ->
  divr fuel n b L rv rh rs = Some (L', bot) ->
  exists t, div fuel n b (slice (VL L) rv) (slice (HL L) rh) (slice (SL L) rs) = Some t /\
    Forall2 (matches L') bot (leaves t) /\
    tiles (first rv) (last rv) (map (@vR K) bot) /\ tiles (first rh) (last rh) (map (@hR K) bot) /\
    tiles (first rs) (last rs) (map (@sR K) bot) /\
    (Permutation (VL L) (VL L') /\ outside (VL L) (VL L') rv) /\
    (Permutation (HL L) (HL L') /\ outside (HL L) (HL L') rh) /\
    (Permutation (SL L) (SL L') /\ outside (SL L) (SL L') rs).
Proof.
  induction fuel as [|k IH]; intros n b L rv rh rs L' bot IV IH' IS E;
    cbn [divide_range divide] in *;
    destruct (is_bottom minSize maxSize n b (slice (VL L) rv) (slice (HL L) rh) (slice (SL L) rs)) eqn:BOT.
  1,3: injection E as <- <-; eexists; split; [reflexivity|]; split;
       [constructor; [reflexivity|constructor]|];
       destruct IV, IH', IS; simpl; unfold outside; auto 30.
  - discriminate.
  - destruct (distribute_range (below n) (above n) (VL L) rv) as [[vl rv1] rv2] eqn:Ev.
    destruct (distribute_range (below n) (above n) (HL L) rh) as [[hl rh1] rh2] eqn:Eh.
    destruct (distribute_range (below n) (above n) (SL L) rs) as [[sl rs1] rs2] eqn:Es.
    destruct (distribute_list (below n) b) as [b1 b2].
    apply distribute_range_ok in Ev; [|assumption].
    apply distribute_range_ok in Eh; [|assumption].
    apply distribute_range_ok in Es; [|assumption].
    destruct Ev as (v1 & v2 & DV & SV1 & SV2 & FV & MV & TV & IV1 & IV2 & OV & PV).
    destruct Eh as (h1 & h2 & DH & SH1 & SH2 & FH & MH & TH & IH1 & IH2 & OH & PH).
    destruct Es as (s1 & s2 & DS & SS1 & SS2 & FS & MS & TS & IS1 & IS2 & OS & PS).
    rewrite DV, DH, DS.
    rewrite SV1, SV2, SH1, SH2, SS1, SS2 in E.
    destruct (divide_range big minSize maxSize k (stretch big b1 v1 h1 s1) b1 (mkLists vl hl sl) rv1 rh1 rs1)
      as [[L1 bot1]|] eqn:E1; [|discriminate].
    destruct (divide_range big minSize maxSize k (stretch big b2 v2 h2 s2) b2 L1 rv2 rh2 rs2)
      as [[L2 bot2]|] eqn:E2; [|discriminate].
    injection E as <- <-.
    apply IH in E1; [|assumption..]. cbn [VL HL SL] in E1.
    destruct E1 as (t1 & T1 & F1 & A1 & A2 & A3 & (P1 & O1) & (P2 & O2) & (P3 & O3)).
    assert (JV : last rv1 <= first rv2) by lia. assert (JH : last rh1 <= first rh2) by lia.
    assert (JS : last rs1 <= first rs2) by lia.
    apply IH in E2;
      [|eapply inside_length; [apply O1|assumption]|eapply inside_length; [apply O2|assumption]
       |eapply inside_length; [apply O3|assumption]].
    rewrite (slice_right _ _ _ _ JV O1), (slice_right _ _ _ _ JH O2), (slice_right _ _ _ _ JS O3) in E2.
    rewrite SV2, SH2, SS2 in E2. rewrite SV1, SH1, SS1 in T1.
    destruct E2 as (t2 & T2 & F2 & B1 & B2 & B3 & (Q1 & R1) & (Q2 & R2) & (Q3 & R3)).
    rewrite T1, T2. eexists. split; [reflexivity|]. cbn [leaves]. rewrite !map_app.
    destruct IV1 as [? ?], IV2 as [? ?], IH1 as [? ?], IH2 as [? ?], IS1 as [? ?], IS2 as [? ?].
    split; [|split; [|split; [|split; [|split; [|split]]]]].
    + apply Forall2_app; [|assumption].
      assert (G : forall x t, In x bot1 -> matches L1 x t -> matches L2 x t).
      { intros x t Hx.
        pose proof (tiles_in _ _ _ (vR x) A1 (in_map _ _ _ Hx)) as (? & ? & ?).
        pose proof (tiles_in _ _ _ (hR x) A2 (in_map _ _ _ Hx)) as (? & ? & ?).
        pose proof (tiles_in _ _ _ (sR x) A3 (in_map _ _ _ Hx)) as (? & ? & ?).
        apply matches_ext; eapply slice_left; try eassumption; lia. }
      clear -F1 G. induction F1; constructor; auto; [apply G; simpl; auto|].
      apply IHF1. intros. apply G; simpl; auto.
    + eapply tiles_app; [rewrite <- FV; eassumption|]. rewrite MV, <- TV. assumption.
    + eapply tiles_app; [rewrite <- FH; eassumption|]. rewrite MH, <- TH. assumption.
    + eapply tiles_app; [rewrite <- FS; eassumption|]. rewrite MS, <- TS. assumption.
    + split; [etransitivity; [|eassumption]; etransitivity; eassumption|].
      eapply outside_trans; [| |eapply outside_trans; [| |exact OV|exact O1]|exact R1]; lia.
    + split; [etransitivity; [|eassumption]; etransitivity; eassumption|].
      eapply outside_trans; [| |eapply outside_trans; [| |exact OH|exact O2]|exact R2]; lia.
    + split; [etransitivity; [|eassumption]; etransitivity; eassumption|].
      eapply outside_trans; [| |eapply outside_trans; [| |exact OS|exact O3]|exact R3]; lia.
Qed.

Lemma divide_range_none fuel : forall n b L rv rh rs,
  inside (VL L) rv -> inside (HL L) rh -> inside (SL L) rs ->
  divr fuel n b L rv rh rs = None -> div fuel n b (slice (VL L) rv) (slice (HL L) rh) (slice (SL L) rs) = None.
Proof.
  induction fuel as [|k IH]; intros n b L rv rh rs IV IH' IS E;
    cbn [divide_range divide] in *;
    destruct (is_bottom minSize maxSize n b (slice (VL L) rv) (slice (HL L) rh) (slice (SL L) rs)) eqn:BOT;
    try discriminate; auto.
  destruct (distribute_range (below n) (above n) (VL L) rv) as [[vl rv1] rv2] eqn:Ev.
  destruct (distribute_range (below n) (above n) (HL L) rh) as [[hl rh1] rh2] eqn:Eh.
  destruct (distribute_range (below n) (above n) (SL L) rs) as [[sl rs1] rs2] eqn:Es.
  destruct (distribute_list (below n) b) as [b1 b2].
  apply distribute_range_ok in Ev; [|assumption].
  apply distribute_range_ok in Eh; [|assumption].
  apply distribute_range_ok in Es; [|assumption].
  destruct Ev as (v1 & v2 & DV & SV1 & SV2 & FV & MV & TV & IV1 & IV2 & OV & PV).
  destruct Eh as (h1 & h2 & DH & SH1 & SH2 & FH & MH & TH & IH1 & IH2 & OH & PH).
  destruct Es as (s1 & s2 & DS & SS1 & SS2 & FS & MS & TS & IS1 & IS2 & OS & PS).
  rewrite DV, DH, DS. rewrite SV1, SV2, SH1, SH2, SS1, SS2 in E.
  destruct (divide_range big minSize maxSize k (stretch big b1 v1 h1 s1) b1 (mkLists vl hl sl) rv1 rh1 rs1)
    as [[L1 bot1]|] eqn:E1.
  - apply divide_range_ok in E1; [|assumption..]. cbn [VL HL SL] in E1.
    destruct E1 as (t1 & T1 & F1 & A1 & A2 & A3 & (P1 & O1) & (P2 & O2) & (P3 & O3)).
    rewrite SV1, SH1, SS1 in T1. rewrite T1.
    destruct (divide_range big minSize maxSize k (stretch big b2 v2 h2 s2) b2 L1 rv2 rh2 rs2)
      as [[L2 bot2]|] eqn:E2; [discriminate|].
    apply IH in E2;
      [|eapply inside_length; [apply O1|assumption]|eapply inside_length; [apply O2|assumption]
       |eapply inside_length; [apply O3|assumption]].
    assert (JV : last rv1 <= first rv2) by lia. assert (JH : last rh1 <= first rh2) by lia.
    assert (JS : last rs1 <= first rs2) by lia.
    rewrite (slice_right _ _ _ _ JV O1), (slice_right _ _ _ _ JH O2), (slice_right _ _ _ _ JS O3) in E2.
    rewrite SV2, SH2, SS2 in E2. rewrite E2. reflexivity.
  - apply IH in E1; [|assumption..]. cbn [VL HL SL] in E1. rewrite SV1, SH1, SS1 in E1. rewrite E1. reflexivity.
Qed.

Lemma slice_full {A} (l : list A) : slice l (mkRange 0 (length l)) = l.
Proof. unfold slice. simpl. rewrite Nat.sub_0_r. apply firstn_all. Qed.
Lemma inside_full {A} (l : list A) : inside l (mkRange 0 (length l)).
Proof. split; simpl; lia. Qed.

Lemma build_range_ok fuel b L L' bot :
  build_range big minSize maxSize fuel b L = Some (L', bot) ->
  exists t, build big minSize maxSize fuel b (VL L) (HL L) (SL L) = Some t /\
    Forall2 (matches L') bot (leaves t) /\
    tiles 0 (length (VL L')) (map (@vR K) bot) /\ tiles 0 (length (HL L')) (map (@hR K) bot) /\
    tiles 0 (length (SL L')) (map (@sR K) bot) /\
    Permutation (VL L) (VL L') /\ Permutation (HL L) (HL L') /\ Permutation (SL L) (SL L').
Proof.
  intros E. unfold build_range in E. apply divide_range_ok in E; try apply inside_full.
  rewrite !slice_full in E.
  destruct E as (t & T & F & A1 & A2 & A3 & (P1 & O1) & (P2 & O2) & (P3 & O3)).
  exists t. split; [exact T|]. split; [exact F|].
  rewrite <- (Permutation_length P1), <- (Permutation_length P2), <- (Permutation_length P3). auto 20.
Qed.

Lemma build_range_terminates fuel b L t :
  build big minSize maxSize fuel b (VL L) (HL L) (SL L) = Some t ->
  exists r, build_range big minSize maxSize fuel b L = Some r.
Proof.
  intros E. destruct (build_range big minSize maxSize fuel b L) as [r|] eqn:B; [eauto|].
  apply divide_range_none in B; try apply inside_full. rewrite !slice_full in B.
  unfold build in E. rewrite B in E. discriminate.
Qed.
End Tree.
