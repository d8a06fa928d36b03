(** Property C113: the shape a script reads is that of the corners. *)

From Coq Require Import List ZArith Bool Reals Lra Lia.
From Verif.Base Require Import Num.
From Verif.Body Require Import Model Spec ProofsGeom ProofsBody Properties.
From Verif.Lua Require Import ModelShape.
Import ListNotations.
Local Open Scope R_scope.

(** Length, area, centre of mass and moment of inertia of the closed polygon, see C09. *)
Definition shape_of (inf : R) (l : list pt) (b : body RNum) : Prop :=
  slen b = perimeter l /\ area b = shoelace l /\
  (perimeter l <> 0 -> cofm b = cofm (of_corners (K:=RNum) inf l) /\ moi b = moi (of_corners (K:=RNum) inf l)).

Definition moving (c : shape_call RNum) : bool := match c with MoveR _ | MoveO _ | MoveD _ => true | _ => false end.
Definition reshaping (c : shape_call RNum) : bool := match c with CornerX _ _ | CornerY _ _ => true | _ => false end.

Section Shape.
Variable inf pi : R.
Notation run := (shape_run (K:=RNum) inf cos sin pi).
Notation step := (shape_step (K:=RNum) inf cos sin pi).

Lemma refresh_shape b : shape_of inf (corners b) (refresh (K:=RNum) inf b).
Proof.
  unfold shape_of. destruct (refresh_area inf b) as [A S]. split; [exact S|]. split; [exact A|]. intros H.
  destruct (refresh_props inf b H) as (_ & _ & -> & -> & _). unfold of_corners.
  set (b1 := set_alist _ _). assert (C : corners b1 = corners b) by (unfold b1, corners; cbn [set_alist alist]; rewrite !map_map; reflexivity).
  rewrite <- C in H |- *. destruct (refresh_props inf b1 H) as (_ & _ & -> & -> & _). rewrite C. now split.
Qed.
Lemma move_shape c b : moving c = true -> shape_of inf (corners (step c b)) (step c b).
Proof.
  assert (M : forall p, shape_of inf (corners (turn (K:=RNum) inf cos sin p b)) (turn (K:=RNum) inf cos sin p b)).
  { intros p. unfold turn, move. rewrite corners_refresh. apply refresh_shape. }
  destruct c; cbn [moving shape_step]; try discriminate; intros _; apply M.
Qed.
Lemma still_step c b l : moving c = false -> shape_of inf l b -> shape_of inf l (step c b).
Proof.
  assert (E : forall k f, shape_of inf l b -> shape_of inf l (set_corner (K:=RNum) k f b)).
  { intros k f S. unfold set_corner. destruct k as [|i]; [exact S|]. now destruct (nth_error (alist b) i). }
  destruct c; cbn [moving shape_step]; try discriminate; intros _ S; auto.
Qed.
Lemma still_run cs b l : forallb (fun c => negb (moving c)) cs = true -> shape_of inf l b -> shape_of inf l (run cs b).
Proof.
  unfold shape_run. revert b. induction cs as [|c cs IH]; intros b H S; [exact S|]. cbn [forallb fold_left] in *. apply andb_prop in H as [H1 H2].
  apply IH; [exact H2|]. apply still_step; [now apply negb_true_iff|exact S].
Qed.
Lemma still_corners cs b : forallb (fun c => negb (moving c || reshaping c)) cs = true -> corners (run cs b) = corners b.
Proof.
  unfold shape_run. revert b. induction cs as [|c cs IH]; intros b H; [reflexivity|]. cbn [forallb fold_left] in *. apply andb_prop in H as [H1 H2].
  rewrite (IH _ H2). destruct c; try discriminate; reflexivity.
Qed.

(** What is read is the shape at the last motion, or at the start if there was none. *)
Theorem C113_last : forall b0 cs1 cs2, forallb (fun c => negb (moving c)) cs2 = true ->
  (shape_of inf (corners b0) (run cs2 (refresh (K:=RNum) inf b0))) /\
  (forall m, moving m = true -> shape_of inf (corners (run (cs1 ++ [m]) b0)) (run (cs1 ++ m :: cs2) b0)).
Proof.
  intros b0 cs1 cs2 H. split.
  - apply still_run; [exact H|]. apply refresh_shape.
  - intros m M. unfold shape_run. rewrite !fold_left_app. cbn [fold_left]. apply still_run; [exact H|]. now apply move_shape.
Qed.

(** So it is the shape of the corners when none was assigned since. *)
Theorem C113_partial : forall b0 cs1 cs2, forallb (fun c => negb (moving c || reshaping c)) cs2 = true ->
  (let b := run cs2 (refresh (K:=RNum) inf b0) in shape_of inf (corners b) b) /\
  (forall m, moving m = true -> let b := run (cs1 ++ m :: cs2) b0 in shape_of inf (corners b) b).
Proof.
  intros b0 cs1 cs2 H. assert (H' : forallb (fun c => negb (moving c)) cs2 = true).
  { rewrite forallb_forall in *. intros c I. specialize (H c I). destruct (moving c); [discriminate|reflexivity]. }
  destruct (C113_last b0 cs1 cs2 H') as [A B]. split; cbv zeta.
  - rewrite (still_corners _ _ H), corners_refresh. exact A.
  - intros m M. specialize (B m M). unfold shape_run in *. rewrite fold_left_app in *. cbn [fold_left] in *.
    fold (run cs2 (step m (fold_left (fun b c => step c b) cs1 b0))). rewrite (still_corners _ _ H). rewrite fold_left_app in B. exact B.
Qed.

Lemma corners_set i f b p : nth_error (corners b) i = Some p ->
  corners (set_corner (K:=RNum) (S i) f b) = firstn i (corners b) ++ f p :: skipn (S i) (corners b).
Proof.
  unfold corners, set_corner. rewrite nth_error_map. destruct (nth_error (alist b) i) as [a|]; [|discriminate]. cbn [option_map set_alist alist]. intros E.
  assert (corner a = p) as <- by congruence. rewrite map_app. cbn [map edit corner]. now rewrite firstn_map, skipn_map.
Qed.

(** What one call does.  A motion carries the corners, the point of the holder and
    its angle; the position relative to the holder stays. *)
Definition carried (b b' : body RNum) (p : pt) (a : R) : Prop :=
  corners b' = map (fun q => P (px (get_axis b) + px p + (cos a * (px q - px (get_axis b)) - sin a * (py q - py (get_axis b))))
                               (py (get_axis b) + py p + (sin a * (px q - px (get_axis b)) + cos a * (py q - py (get_axis b))))) (corners b) /\
  px (r3 (holder b')) = px (r3 (holder b)) + px p /\ py (r3 (holder b')) = py (r3 (holder b)) + py p /\ o3 (holder b') = o3 (holder b) + a /\
  px (r3 (dpos b')) = px (r3 (dpos b)) /\ py (r3 (dpos b')) = py (r3 (dpos b)) /\ o3 (dpos b') = o3 (dpos b).
Definition replaced (l l' : list pt) (k : nat) (f : pt -> pt) : Prop :=
  length l' = length l /\ forall i, nth_error l' i = if Nat.eqb (S i) k then option_map f (nth_error l i) else nth_error l i.

Lemma nth_replaced {A} (l : list A) i a b : nth_error l i = Some a ->
  forall j, nth_error (firstn i l ++ b :: skipn (S i) l) j = if Nat.eqb j i then Some b else nth_error l j.
Proof.
  revert i. induction l as [|c l IH]; intros [|i] E j; try discriminate; cbn [firstn skipn app].
  - destruct j; reflexivity.
  - destruct j; [reflexivity|]. cbn [nth_error Nat.eqb]. apply IH. exact E.
Qed.
Lemma length_replaced {A} (l : list A) i a b : nth_error l i = Some a -> length (firstn i l ++ b :: skipn (S i) l) = length l.
Proof.
  revert i. induction l as [|c l IH]; intros [|i] E; try discriminate; cbn [firstn skipn app length]; [reflexivity|]. f_equal. apply IH. exact E.
Qed.
Lemma map_replaced {A B} (h : A -> B) (l : list A) i a b : nth_error l i = Some a -> h b = h a -> map h (firstn i l ++ b :: skipn (S i) l) = map h l.
Proof.
  revert i. induction l as [|c l IH]; intros [|i] E H; try discriminate; cbn [firstn skipn app map].
  - injection E as ->. rewrite H. reflexivity.
  - f_equal. apply IH; assumption.
Qed.

Theorem C113_calls : forall c (b : body RNum), let b' := step c b in
  match c with
  | CornerX k v => replaced (corners b) (corners b') k (fun q => P v (py q)) /\ holder b' = holder b /\ dpos b' = dpos b /\
      map dl (alist b') = map dl (alist b) /\ map r (alist b') = map r (alist b) /\ map slip (alist b') = map slip (alist b)
  | CornerY k v => replaced (corners b) (corners b') k (fun q => P (px q) v) /\ holder b' = holder b /\ dpos b' = dpos b /\
      map dl (alist b') = map dl (alist b) /\ map r (alist b') = map r (alist b) /\ map slip (alist b') = map slip (alist b)
  | MoveR p => carried b b' p 0
  | MoveO a => carried b b' (P 0 0) a
  | MoveD a => carried b b' (P 0 0) (a * pi / 180)
  | Holder p => holder b' = p /\ dpos b' = dpos b /\ alist b' = alist b
  | Delta p => holder b' = holder b /\ dpos b' = p /\ alist b' = alist b
  end.
Proof.
  assert (C : forall k f b, let b' := set_corner (K:=RNum) k f b in replaced (corners b) (corners b') k f /\ holder b' = holder b /\ dpos b' = dpos b /\
      map dl (alist b') = map dl (alist b) /\ map r (alist b') = map r (alist b) /\ map slip (alist b') = map slip (alist b)).
  { intros k f b. cbv zeta. unfold set_corner. destruct k as [|i].
    - split; [split; [reflexivity|intros i; reflexivity]|repeat split].
    - destruct (nth_error (alist b) i) as [a|] eqn:E.
      + assert (E' : nth_error (corners b) i = Some (corner a)) by (unfold corners; rewrite nth_error_map, E; reflexivity).
        pose proof (corners_set i f b (corner a) E') as X. unfold set_corner in X. rewrite E in X.
        split; [|cbn [set_alist holder dpos alist]; split; [reflexivity|split; [reflexivity|]]].
        * rewrite X. split; [apply (length_replaced _ i _ _ E')|]. intros j. rewrite (nth_replaced _ i _ _ E'). cbn [Nat.eqb].
          destruct (Nat.eqb_spec j i) as [->|]; [rewrite E'; reflexivity|reflexivity].
        * split; [|split]; apply (map_replaced _ _ i a _ E); reflexivity.
      + split; [|repeat split]. split; [reflexivity|]. intros j. cbn [Nat.eqb]. destruct (Nat.eqb_spec j i) as [->|]; [|reflexivity].
        unfold corners. rewrite nth_error_map, E. reflexivity. }
  assert (T : forall p b, carried b (turn (K:=RNum) inf cos sin p b) (r3 p) (o3 p)).
  { intros p b. unfold turn. split.
    - rewrite move_corners. apply map_ext. intros q. unfold motion, rigid, px, py, P. cbn [x y]. f_equal; ring.
    - assert (F : forall m, holder (refresh (K:=RNum) inf m) = holder m /\ dpos (refresh (K:=RNum) inf m) = dpos m) by (intros m; unfold refresh, fill_properties; destruct (alist (set_alist _ m)); [|destruct (fill_cofm _)]; split; reflexivity).
      unfold move. destruct (F (@mkBody RNum (map (fun a => @mkAtt RNum (move_corner (get_axis b) (r3 p) (cos (o3 p)) (sin (o3 p)) (corner a)) (slip a) (dl a) (r a) (eps1 a)) (alist b)) (@mkVec3 RNum (vadd (r3 (holder b)) (r3 p)) (nadd (n:=RNum) (o3 (holder b)) (o3 p))) (@mkVec3 RNum (vadd (r3 (dpos b)) (vsub (r3 p) (r3 p))) (nadd (n:=RNum) (o3 (dpos b)) (nsub (n:=RNum) (o3 p) (o3 p)))) (speed_slae b) (speed_slae b) (slip_ b) (slen b) (area b) (cofm b) (moi b) (disc_r2 b) (rect_bl b) (rect_tr b) (heat_layer b))) as [F1 F2].
      cbv zeta. rewrite F1, F2. cbn [holder dpos r3 o3]. unfold px, py, vadd, vsub. cbn [x y].
      change (@nadd RNum) with Rplus. change (@nsub RNum) with Rminus. change (Num.T RNum) with R in *. repeat split; match goal with |- @eq _ ?u ?v => change (@eq R u v) end; first [ring|lra]. }
  intros c b. cbv zeta. destruct c as [k v|k v|p|v|v|p|p]; cbn [shape_step].
  - apply (C k (fun p => @mkVec RNum v (y p)) b).
  - apply (C k (fun p => @mkVec RNum (x p) v) b).
  - apply (T (@mkVec3 RNum p 0) b).
  - apply (T (@mkVec3 RNum (vzero (K:=RNum)) v) b).
  - apply (T (@mkVec3 RNum (vzero (K:=RNum)) (v * pi / 180)) b).
  - repeat split.
  - repeat split.
Qed.

Definition drawn : list pt := [P 0 0; P 0 6; P 4 0].
Lemma drawn_corners b : corners b = tri -> corners (step (CornerY (K:=RNum) 2 6) b) = drawn.
Proof. intros C. cbn [shape_step]. rewrite (corners_set 1 _ b (P 0 3)) by now rewrite C. now rewrite C. Qed.
Lemma drawn_area : shoelace drawn = 12.
Proof. unfold drawn, shoelace, edges, total, px, py, P. simpl. lra. Qed.

(** Assigning a corner leaves the old values: the triangle (0,0), (0,3), (4,0) with
    its second corner drawn to (0,6) still has the area 6. *)
Theorem C113_refuted : exists b0 cs, let b := run cs (refresh (K:=RNum) inf b0) in area b = 6 /\ shoelace (corners b) = 12.
Proof.
  exists (of_corners (K:=RNum) inf tri), [CornerY (K:=RNum) 2 6]. cbv zeta. split.
  - destruct (C113_last (of_corners (K:=RNum) inf tri) [] [CornerY (K:=RNum) 2 6] eq_refl) as [(_ & A & _) _]. rewrite A, corners_of. exact tri_area_ex.
  - unfold shape_run. cbn [fold_left]. rewrite drawn_corners by now rewrite corners_refresh, corners_of. exact drawn_area.
Qed.

(** A motion by nothing brings the values up to date. *)
Example C113_ex : let b := run [CornerY (K:=RNum) 2 6; MoveR (K:=RNum) (P 0 0)] (of_corners (K:=RNum) inf tri) in area b = 12.
Proof.
  pose proof (proj2 (C113_partial (of_corners (K:=RNum) inf tri) [CornerY (K:=RNum) 2 6] [] eq_refl) (MoveR (K:=RNum) (P 0 0)) eq_refl) as S. cbv zeta in S. cbn [app] in S.
  destruct S as (_ & A & _). cbv zeta. rewrite A. clear A. unfold shape_run. cbn [fold_left]. set (b := step (CornerY (K:=RNum) 2 6) _).
  assert (C : corners b = drawn) by (apply drawn_corners, corners_of). clearbody b. cbn [shape_step]. unfold turn. rewrite move_corners, C.
  rewrite <- drawn_area. unfold drawn, motion, shoelace, edges, total, rigid, px, py, P. simpl. rewrite cos_0, sin_0. lra.
Qed.

End Shape.
Print Assumptions C113_last.
Print Assumptions C113_partial.
Print Assumptions C113_calls.
Print Assumptions C113_refuted.
