(** Proofs about the point-in-body test. *)

From Coq Require Import ZArith Bool List Reals Lra Lia Permutation.
From Verif.Base Require Import Num.
From Verif.Body Require Import Model Spec ProofsGeom ProofsBody.
Import ListNotations.
Local Open Scope R_scope.

(** * Even-odd rule *)

Definition tog (f : pt -> pt -> bool) (l : list (pt * pt)) (s : bool) : bool :=
  fold_right (fun e b => xorb (f (fst e) (snd e)) b) s l.

Lemma fold_tog f l : forall s, fold_left (fun a e => if (f (fst e) (snd e) : bool) then negb a else a) l s = xorb (tog f l false) s.
Proof.
  induction l as [|[u v] t IH]; intros s; cbn [fold_left tog fold_right fst snd].
  - destruct s; reflexivity.
  - rewrite IH. fold (tog f t false). destruct (f u v), (tog f t false), s; reflexivity.
Qed.

Lemma prevs_edges (l : list pt) : Permutation (prevs l) (map (fun e => (snd e, fst e)) (edges l)).
Proof.
  destruct l as [|a t]; [constructor|].
  assert (forall (t : list pt) a z, Permutation (combine (a :: t) (z :: a :: t)) ((a, z) :: map (fun e => (snd e, fst e)) (chain a t))).
  { clear. induction t as [|b t IH]; intros a z; [constructor; constructor|].
    change (combine (a :: b :: t) (z :: a :: b :: t)) with ((a, z) :: combine (b :: t) (a :: b :: t)).
    constructor. simpl. exact (IH b a). }
  unfold prevs, edges. rewrite H.
  assert (K : forall z, chain a (t ++ [z]) = chain a t ++ [(last (a :: t) (@vzero RNum), z)]).
  { clear. revert a. induction t as [|b t IH]; intros a z; [reflexivity|].
    change (chain a ((b :: t) ++ [z])) with ((a, b) :: chain b (t ++ [z])). rewrite IH. reflexivity. }
  rewrite K, map_app. simpl map at 2. apply Permutation_cons_append.
Qed.

Definition crs_b (p u v : pt) : bool := @crosses RNum p u v.

Lemma tog_perm f l l' : Permutation l l' -> tog f l false = tog f l' false.
Proof.
  induction 1; simpl; auto; try congruence.
  destruct (f (fst x) (snd x)), (f (fst y) (snd y)), (tog f l false); reflexivity.
Qed.
Lemma tog_map f l : tog f (map (fun e => (snd e, fst e)) l) false = tog (fun u v => f v u) l false.
Proof. induction l; simpl; auto. rewrite IHl. reflexivity. Qed.

Lemma parity_tog p l s : @parity RNum p l s = xorb (tog (fun u v => crs_b p v u) (edges l) false) s.
Proof.
  unfold parity. rewrite (fold_tog (crs_b p)). f_equal. rewrite (tog_perm _ _ _ (prevs_edges l)). apply tog_map.
Qed.

Lemma edges_in {A} (l : list A) u v : In (u, v) (edges l) -> In u l /\ In v l.
Proof.
  assert (forall (l : list A) a u v, In (u, v) (chain a l) -> In u (a :: l) /\ In v l).
  { clear. induction l as [|b t IH]; intros a u v H; [contradiction|].
    destruct H as [H|H]; [injection H as <- <-; simpl; auto|]. apply IH in H. simpl in *. tauto. }
  destruct l as [|a t]; [contradiction|]. intros I. apply H in I. destruct I as [I1 I2].
  assert (forall w, In w (t ++ [a]) -> In w (a :: t)) by (intros w; rewrite in_app_iff; simpl; tauto).
  split; [destruct I1; [left|]; auto|auto].
Qed.

Lemma div_lt_iff a b c d : 0 < d -> (a + b * c / d < 0 <-> a * d + b * c < 0).
Proof.
  intros D. split; intros H.
  - apply (Rmult_lt_compat_r d) in H; auto. replace ((a + b * c / d) * d) with (a * d + b * c) in H by (field; lra). lra.
  - apply (Rmult_lt_reg_r d); auto. replace ((a + b * c / d) * d) with (a * d + b * c) by (field; lra). lra.
Qed.

(** Away from the corners the code's edge test is [hits_left]. *)
Lemma crosses_hits p u v : py u <> py p -> py v <> py p ->
  crs_b p v u = true <-> hits_left p (u, v).
Proof.
  intros Nu Nv. unfold crs_b, crosses, hits_left.
  change (@y RNum) with py. change (@x RNum) with px.
  rewrite orb_true_iff, !andb_true_iff. change (@nltb RNum) with Rltb. change (@nleb RNum) with Rleb.
  rewrite !Rltb_true, Rleb_true, Rleb_true.
  cbn [nsub nmul RNum].
  destruct (Rlt_dec (py u) (py v)) as [L|L].
  - split.
    + intros [[[[A _] _] _]|[[[A B] C] D]]; [lra|]. split; [left; lra|].
      apply Rminus_lt. replace (px u + (py p - py u) * (px v - px u) / (py v - py u) - px p)
        with ((px u - px p) + (py p - py u) * (px v - px u) / (py v - py u)) by (field; lra).
      apply div_lt_iff; [lra|]. nra.
    + intros [[A|A] B]; [|lra]. right. repeat split; try lra.
      apply Rlt_minus in B. replace (px u + (py p - py u) * (px v - px u) / (py v - py u) - px p)
        with ((px u - px p) + (py p - py u) * (px v - px u) / (py v - py u)) in B by (field; lra).
      apply div_lt_iff in B; [|lra]. nra.
  - destruct (Rlt_dec (py v) (py u)) as [G|G].
    + split.
      * intros [[[[A B] C] D]|[[[A _] _] _]]; [|lra]. split; [right; lra|].
        apply Rminus_lt. replace (px u + (py p - py u) * (px v - px u) / (py v - py u) - px p)
          with ((px u - px p) + (py u - py p) * (px v - px u) / (py u - py v)) by (field; lra).
        apply div_lt_iff; [lra|]. nra.
      * intros [[A|A] B]; [lra|]. left. repeat split; try lra.
        apply Rlt_minus in B. replace (px u + (py p - py u) * (px v - px u) / (py v - py u) - px p)
          with ((px u - px p) + (py u - py p) * (px v - px u) / (py u - py v)) in B by (field; lra).
        apply div_lt_iff in B; [|lra]. nra.
    + split; [intros [H|H]; decompose [and] H; lra|intros [[A|A] _]; lra].
Qed.

Lemma odd_tog p l : (forall u v, In (u, v) l -> py u <> py p /\ py v <> py p) ->
  odd_many (hits_left p) l (tog (fun u v => crs_b p v u) l false).
Proof.
  induction l as [|[u v] t IH]; intros G; [constructor|].
  cbn [tog fold_right fst snd]. fold (tog (fun u v => crs_b p v u) t false).
  destruct (G u v (or_introl eq_refl)) as [Gu Gv].
  pose proof (crosses_hits p u v Gu Gv) as C. specialize (IH (fun u v H => G u v (or_intror H))).
  destruct (crs_b p v u).
  - rewrite xorb_true_l. constructor; auto. apply C. reflexivity.
  - rewrite xorb_false_l. constructor; auto. intros H. apply C in H. discriminate.
Qed.

Lemma odd_many_det {A} (Q : A -> Prop) l b b' : odd_many Q l b -> odd_many Q l b' -> b = b'.
Proof.
  intros H. revert b'. induction H; intros b' H'; inversion H'; subst; auto; try contradiction; f_equal; auto.
Qed.

Lemma parity_inside p l s : generic p l -> exists b, inside p l b /\ @parity RNum p l s = xorb b s.
Proof.
  intros G. eexists. split; [|apply parity_tog]. apply odd_tog. intros u v I. apply edges_in in I. split; apply G; tauto.
Qed.

(** * The shortcut *)

Definition above (p u : pt) : bool := Rltb (py p) (py u).

Lemma tog_tele (h : pt -> bool) l : tog (fun u v => xorb (h u) (h v)) (edges l) false = false.
Proof.
  assert (forall l a, tog (fun u v => xorb (h u) (h v)) (chain a l) false = xorb (h a) (h (last l a))).
  { induction l0 as [|b t IH]; intros a; [simpl; destruct (h a); reflexivity|].
    cbn [chain tog fold_right fst snd]. fold (tog (fun u v => xorb (h u) (h v)) (chain b t) false).
    rewrite IH, last_cons. destruct (h a), (h b), (h (last t b)); reflexivity. }
  destruct l as [|a t]; [reflexivity|]. unfold edges. rewrite H, last_app. apply xorb_nilpotent.
Qed.

Lemma tog_ext f g l : (forall u v, In (u, v) l -> f u v = g u v) -> tog f l false = tog g l false.
Proof.
  induction l as [|[u v] t IH]; intros H; [reflexivity|].
  cbn [tog fold_right fst snd]. rewrite (H u v) by (left; auto). f_equal. apply IH. intros. apply H. right. auto.
Qed.
Lemma tog_none f l : (forall u v, In (u, v) l -> f u v = false) -> tog f l false = false.
Proof.
  intros H. rewrite (tog_ext f (fun _ _ => false)) by exact H. induction l; auto. simpl. rewrite IHl; auto.
  intros; apply H; right; auto.
Qed.

(** The spanning edges are those whose ends are on both sides. *)
Lemma hits_sides p u v : py u <> py p -> py v <> py p -> crs_b p v u = true -> xorb (above p u) (above p v) = true.
Proof.
  intros Nu Nv H. apply crosses_hits in H; auto. unfold above.
  destruct (Rltb (py p) (py u)) eqn:E1; destruct (Rltb (py p) (py v)) eqn:E2; auto;
    [apply Rltb_true in E1; apply Rltb_true in E2|apply Rltb_false in E1; apply Rltb_false in E2]; destruct H; lra.
Qed.

(** If every crossing of the line lies left of [p], their number is even. *)
Lemma all_left p l : generic p l ->
  (forall u v, In u l -> In v l -> xorb (above p u) (above p v) = true -> crs_b p v u = true) ->
  tog (fun u v => crs_b p v u) (edges l) false = false.
Proof.
  intros G H. rewrite (tog_ext _ (fun u v => xorb (above p u) (above p v))).
  - apply tog_tele.
  - intros u v I. apply edges_in in I. destruct I as [Iu Iv].
    destruct (xorb (above p u) (above p v)) eqn:E; [auto|].
    destruct (crs_b p v u) eqn:C; auto. apply hits_sides in C; auto. congruence.
Qed.

(** Half-plane separation: with [a <> 0] the normal of the line through [p]. *)
Lemma half_plane p a b l : generic p l ->
  (forall u, In u l -> a * (px u - px p) + b * (py u - py p) < 0) ->
  tog (fun u v => crs_b p v u) (edges l) false = false.
Proof.
  intros G H.
  assert (D : forall u v, In u l -> In v l -> xorb (above p u) (above p v) = true ->
    a * ((px u - px p) * (py v - py u) + (py p - py u) * (px v - px u)) * (py v - py u) < 0 /\
    (crs_b p v u = true <-> ((px u - px p) * (py v - py u) + (py p - py u) * (px v - px u)) * (py v - py u) < 0)).
  { intros u v Iu Iv X. pose proof (H u Iu) as Hu. pose proof (H v Iv) as Hv. pose proof (G u Iu). pose proof (G v Iv).
    unfold crs_b, crosses. change (@y RNum) with py. change (@x RNum) with px.
    rewrite orb_true_iff, !andb_true_iff. change (@nltb RNum) with Rltb. change (@nleb RNum) with Rleb.
    rewrite !Rltb_true, Rleb_true, Rleb_true. cbn [nsub nmul RNum].
    unfold above in X. destruct (Rltb (py p) (py u)) eqn:E1; destruct (Rltb (py p) (py v)) eqn:E2; try discriminate.
    - apply Rltb_true in E1. apply Rltb_false in E2.
      assert (K1 : 0 < py u - py p) by lra. assert (K2 : 0 < py p - py v) by lra.
      pose proof (Rmult_lt_0_compat _ _ K2 (Ropp_0_gt_lt_contravar _ Hu)) as M1.
      pose proof (Rmult_lt_0_compat _ _ K1 (Ropp_0_gt_lt_contravar _ Hv)) as M2.
      set (w := (px u - px p) * (py v - py u) + (py p - py u) * (px v - px u)).
      assert (W : a * w > 0). { unfold w. nra. }
      split; [nra|]. split.
      + intros [A|A]; decompose [and] A; try lra. assert (w > 0) by (unfold w; nra). nra.
      + intros A. left. repeat split; try lra. assert (w > 0) by nra. unfold w in *. nra.
    - apply Rltb_false in E1. apply Rltb_true in E2.
      assert (K1 : 0 < py p - py u) by lra. assert (K2 : 0 < py v - py p) by lra.
      pose proof (Rmult_lt_0_compat _ _ K2 (Ropp_0_gt_lt_contravar _ Hu)) as M1.
      pose proof (Rmult_lt_0_compat _ _ K1 (Ropp_0_gt_lt_contravar _ Hv)) as M2.
      set (w := (px u - px p) * (py v - py u) + (py p - py u) * (px v - px u)).
      assert (W : a * w < 0). { unfold w. nra. }
      split; [nra|]. split.
      + intros [A|A]; decompose [and] A; try lra. assert (w < 0) by (unfold w; nra). nra.
      + intros A. right. repeat split; try lra. assert (w < 0) by nra. unfold w in *. nra. }
  destruct (Rlt_dec 0 a) as [A|A].
  - apply all_left; auto. intros u v Iu Iv X. destruct (D u v Iu Iv X) as [D1 D2]. apply D2. nra.
  - apply tog_none. intros u v I. apply edges_in in I. destruct I as [Iu Iv].
    destruct (crs_b p v u) eqn:C; auto. exfalso.
    pose proof (hits_sides p u v (G u Iu) (G v Iv) C) as X.
    destruct (D u v Iu Iv X) as [D1 D2]. apply proj1 in D2. specialize (D2 C). nra.
Qed.

(** * The shortcut's data *)

Section Data.
Variable inf : R.

Lemma fold_max_ge (f : att RNum -> R) l : forall m,
  m <= fold_left (fun m a => if Rltb m (f a) then f a else m) l m /\
  forall a, In a l -> f a <= fold_left (fun m a => if Rltb m (f a) then f a else m) l m.
Proof.
  induction l as [|b t IH]; intros m; cbn [fold_left]; [split; [lra|contradiction]|].
  destruct (IH (if Rltb m (f b) then f b else m)) as [H1 H2]. clear IH.
  assert (M : m <= (if Rltb m (f b) then f b else m) /\ f b <= (if Rltb m (f b) then f b else m)) by (destruct (Rltb _ _) eqn:E; rbool; lra).
  split; [lra|]. intros a [<-|I]; [lra|auto].
Qed.
Lemma fold_min_le (f : att RNum -> R) l : forall m,
  fold_left (fun m a => if Rltb (f a) m then f a else m) l m <= m /\
  forall a, In a l -> fold_left (fun m a => if Rltb (f a) m then f a else m) l m <= f a.
Proof.
  induction l as [|b t IH]; intros m; cbn [fold_left]; [split; [lra|contradiction]|].
  destruct (IH (if Rltb (f b) m then f b else m)) as [H1 H2]. clear IH.
  assert (M : (if Rltb (f b) m then f b else m) <= m /\ (if Rltb (f b) m then f b else m) <= f b) by (destruct (Rltb _ _) eqn:E; rbool; lra).
  split; [lra|]. intros a [<-|I]; [lra|auto].
Qed.

Definition sqd (p q : pt) : R := (px p - px q) * (px p - px q) + (py p - py q) * (py p - py q).

(** The box and the disc of a refreshed body contain its corners. *)
Lemma box_disc b q : In q (corners (refresh (K:=RNum) inf b)) ->
  let r := refresh (K:=RNum) inf b in
  px (rect_bl r) <= px q <= px (rect_tr r) /\ py (rect_bl r) <= py q <= py (rect_tr r) /\ sqd q (cofm r) <= disc_r2 r.
Proof.
  intros I r. unfold r in *. clear r. revert I.
  unfold refresh, fill_properties. cbn [set_alist alist].
  destruct (update_segments (alist b)) eqn:E; [contradiction|]. rewrite <- E.
  destruct (fill_cofm (update_segments (alist b))) as [c m]. cbn [rect_bl rect_tr cofm disc_r2].
  unfold corners. cbn [alist]. intros I. apply in_map_iff in I. destruct I as (a0 & <- & I).
  unfold fill_bl, fill_tr, fill_disc.
  pose proof (proj2 (fold_max_ge (fun a => px (corner a)) (update_segments (alist b)) (- inf)) a0 I).
  pose proof (proj2 (fold_max_ge (fun a => py (corner a)) (update_segments (alist b)) (- inf)) a0 I).
  pose proof (proj2 (fold_min_le (fun a => px (corner a)) (update_segments (alist b)) inf) a0 I).
  pose proof (proj2 (fold_min_le (fun a => py (corner a)) (update_segments (alist b)) inf) a0 I).
  pose proof (proj2 (fold_max_ge (fun a => sqd (corner a) c) (update_segments (alist b)) 0) a0 I).
  repeat split; assumption.
Qed.

Lemma shortcut_sound b p : let r := refresh (K:=RNum) inf b in
  generic p (corners r) -> outside_box r p = true ->
  tog (fun u v => crs_b p v u) (edges (corners r)) false = false.
Proof.
  intros r G O. pose proof (box_disc b) as B. cbv zeta in B. fold r in B.
  unfold outside_box in O. rewrite !orb_true_iff in O.
  change (@y RNum) with py in O. change (@x RNum) with px in O.
  change (@nltb RNum) with Rltb in O. rewrite !Rltb_true in O.
  destruct O as [[[[O|O]|O]|O]|O].
  - apply (half_plane p (-1) 0); auto. intros u I. destruct (B u I) as (B1 & B2 & B3). lra.
  - apply (half_plane p 0 (-1)); auto. intros u I. destruct (B u I) as (B1 & B2 & B3). lra.
  - apply (half_plane p 1 0); auto. intros u I. destruct (B u I) as (B1 & B2 & B3). lra.
  - apply (half_plane p 0 1); auto. intros u I. destruct (B u I) as (B1 & B2 & B3). lra.
  - apply (half_plane p (px p - px (cofm r)) (py p - py (cofm r))); auto. intros u I.
    destruct (B u I) as (_ & _ & B3).
    change (disc_r2 r < sqd p (cofm r)) in O. unfold sqd in *.
    assert (2 * ((px p - px (cofm r)) * (px u - px (cofm r)) + (py p - py (cofm r)) * (py u - py (cofm r)))
      <= ((px p - px (cofm r)) * (px p - px (cofm r)) + (py p - py (cofm r)) * (py p - py (cofm r)))
       + ((px u - px (cofm r)) * (px u - px (cofm r)) + (py u - py (cofm r)) * (py u - py (cofm r)))).
    { pose proof (Rle_0_sqr (px p - px u)). pose proof (Rle_0_sqr (py p - py u)). unfold Rsqr in *. lra. }
    lra.
Qed.

(** * The nearest segment *)

Variable dbl_max : R.

Lemma nearest_spec p : forall (l : list (att RNum)) k best d,
  match nearest p k l best d with
  | Some j => (Some j = best /\ forall a, In a l -> d <= sqd (r a) p) \/
              (exists i a, j = (k + i)%nat /\ nth_error l i = Some a /\ sqd (r a) p < d /\
                (forall i' a', nth_error l i' = Some a' -> sqd (r a) p <= sqd (r a') p) /\
                (forall i' a', (i' < i)%nat -> nth_error l i' = Some a' -> sqd (r a) p < sqd (r a') p))
  | None => best = None /\ forall a, In a l -> d <= sqd (r a) p
  end.
Proof.
  induction l as [|b t IH]; intros k best d; cbn [nearest].
  - destruct best; [left|]; split; auto; contradiction.
  - change (abs2 (vsub (r b) p)) with (sqd (r b) p). change (@nltb RNum) with Rltb.
    destruct (Rltb (sqd (r b) p) d) eqn:E.
    + apply Rltb_true in E. specialize (IH (S k) (Some k) (sqd (r b) p)).
      destruct (nearest p (S k) t (Some k) (sqd (r b) p)).
      * right. destruct IH as [[E1 H]|(i & a & -> & N & L & M & F)].
        -- injection E1 as ->. exists O, b. repeat split; auto.
           ++ intros [|i'] a'; simpl; intros X; [injection X as <-; lra|]. apply H. eapply nth_error_In; eauto.
           ++ intros; lia.
        -- exists (S i), a. repeat split; auto; try lia; try lra.
           ++ intros [|i'] a'; simpl; intros X; [injection X as <-; lra|eauto].
           ++ intros [|i'] a'; simpl; intros Y X; [injection X as <-; lra|]. eapply F; [|eauto]. lia.
      * destruct IH; discriminate.
    + apply Rltb_false in E. specialize (IH (S k) best d).
      destruct (nearest p (S k) t best d).
      * destruct IH as [[E1 H]|(i & a & -> & N & L & M & F)].
        -- left. split; auto. intros a [<-|I]; auto.
        -- right. exists (S i), a. repeat split; auto; try lia; try lra.
           ++ intros [|i'] a'; simpl; intros X; [injection X as <-; lra|eauto].
           ++ intros [|i'] a'; simpl; intros Y X; [injection X as <-; lra|]. eapply F; [|eauto]. lia.
      * destruct IH as [-> H]. split; auto. intros a [<-|I]; auto.
Qed.

Lemma dist_sqd p q : dist p q = sqrt (sqd q p).
Proof. reflexivity. Qed.
Lemma sqd_pos p q : 0 <= sqd p q.
Proof. unfold sqd. pose proof (Rle_0_sqr (px p - px q)). pose proof (Rle_0_sqr (py p - py q)). unfold Rsqr in *. lra. Qed.

Lemma nearest_first p (l : list (att RNum)) : (exists a, In a l /\ sqd (r a) p < dbl_max) ->
  exists k, nearest p 0 l None dbl_max = Some k /\ first_nearest p (map (@r RNum) l) k.
Proof.
  intros (a & I & L). pose proof (nearest_spec p l 0 None dbl_max) as N.
  destruct (nearest p 0 l None dbl_max) as [k|].
  - destruct N as [[N _]|(i & b & -> & E & L' & M & F)]; [discriminate|].
    exists i. split; [reflexivity|]. exists (r b). split; [rewrite nth_error_map, E; reflexivity|].
    split; intros j q'.
    + rewrite nth_error_map. destruct (nth_error l j) eqn:X; [|discriminate]. intros Y. injection Y as <-.
      rewrite !dist_sqd. apply sqrt_le_1_alt. eauto.
    + rewrite nth_error_map. intros J. destruct (nth_error l j) eqn:X; [|discriminate]. intros Y. injection Y as <-.
      rewrite !dist_sqd. apply sqrt_lt_1_alt. split; [apply sqd_pos|eauto].
  - destruct N as [_ N]. specialize (N a I). lra.
Qed.

(** * The whole test *)

Lemma invalid_generic b p : let r0 := refresh (K:=RNum) inf b in
  alist b <> [] -> generic p (corners r0) -> (exists a, In a (alist r0) /\ sqd (r a) p < dbl_max) ->
  exists i, inside p (corners r0) i /\
    if xorb i (Rleb (area r0) 0)
    then exists k, is_point_invalid (K:=RNum) dbl_max r0 p = Some (Some k) /\ first_nearest p (map (@r RNum) (alist r0)) k
    else is_point_invalid (K:=RNum) dbl_max r0 p = Some None.
Proof.
  intros r0 N G B. destruct (parity_inside p (corners r0) (Rleb (area r0) 0) G) as (i & I & E).
  exists i. split; [exact I|]. unfold is_point_invalid, in_contour.
  change (map (@corner RNum) (alist r0)) with (corners r0).
  change (area r0 <=? nofZ 0)%num with (Rleb (area r0) 0).
  assert (NE : corners r0 <> []).
  { unfold r0. rewrite corners_refresh. unfold corners. destruct (alist b); [congruence|discriminate]. }
  destruct (negb (Rleb (area r0) 0) && outside_box r0 p) eqn:O.
  - apply andb_true_iff in O. destruct O as [O1 O2]. apply negb_true_iff in O1.
    pose proof (shortcut_sound b p G O2) as S. rewrite parity_tog in E. fold r0 in S. idtac. unfold pt in *. rewrite S, O1 in E.
    rewrite O1. destruct i; [discriminate|]. reflexivity.
  - destruct (corners r0); [congruence|]. rewrite E.
    destruct (xorb i (Rleb (area r0) 0)); [|reflexivity].
    destruct (nearest_first p (alist r0) B) as (k & -> & F). exists k. auto.
Qed.
End Data.
