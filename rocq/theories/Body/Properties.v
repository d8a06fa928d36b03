(** C08 to C11 and C52 to C54: bodies. *)

From Coq Require Import ZArith QArith Bool List Reals Lra Lia String.
From Flocq Require Import IEEE754.BinarySingleNaN.
From Verif.Base Require Import Num F64.
From Verif.Tree Require Import ProofsNum.
From Verif.Body Require Import Model Spec ProofsGeom ProofsBody ProofsShape ProofsContour ProofsText.
Import ListNotations.
Local Open Scope R_scope.

(** * C08 *)

(** Any sequence of motions of a body with a boundary.  [inf] is the initial
    value of the bounding box and has no influence on what is stated. *)
Theorem C08_rigid inf (b0 : body RNum) (ds : list (vec3 RNum * vec3 RNum)) : perimeter (corners b0) <> 0 ->
  let b := refresh (K:=RNum) inf b0 in
  let b' := moves inf ds b in
  exists c s t, c * c + s * s = 1 /\
    corners b' = map (rigid c s t) (corners b) /\
    slen b' = slen b /\ area b' = area b /\ moi b' = moi b /\ cofm b' = rigid c s t (cofm b) /\
    px (get_axis b') = px (get_axis b) + total (fun d => px (r3 (snd d))) ds /\
    py (get_axis b') = py (get_axis b) + total (fun d => py (r3 (snd d))) ds.
Proof. intros H b b'. destruct (moves_props inf ds b0 H) as (c & s & t & X). exists c, s, t. exact X. Qed.

(** ... so all distances between corners are kept. *)
Theorem C08_distances inf (b0 : body RNum) (ds : list (vec3 RNum * vec3 RNum)) : perimeter (corners b0) <> 0 ->
  let b := refresh (K:=RNum) inf b0 in
  let b' := moves inf ds b in
  List.length (corners b') = List.length (corners b) /\
  forall i j p q p' q', nth_error (corners b) i = Some p -> nth_error (corners b) j = Some q ->
    nth_error (corners b') i = Some p' -> nth_error (corners b') j = Some q' -> dist p' q' = dist p q.
Proof.
  intros H b b'. destruct (moves_props inf ds b0 H) as (c & s & t & U & E & _). fold b b' in E. rewrite E.
  split; [apply map_length|]. intros i j p q p' q' Hp Hq Hp' Hq'. rewrite nth_error_map, Hp in Hp'. rewrite nth_error_map, Hq in Hq'.
  injection Hp' as <-. injection Hq' as <-. apply dist_rigid, U.
Qed.

(** What one motion is: a turn about the axis by the given angle, then a shift. *)
Theorem C08_one_motion inf (b0 : body RNum) (dh db : vec3 RNum) (p : pt) i : let b := refresh (K:=RNum) inf b0 in
  nth_error (corners b) i = Some p ->
  let b' := moves inf [(dh, db)] b in
  let a := get_axis b in
  nth_error (corners b') i = Some (P
    (px a + px (r3 db) + cos (o3 db) * (px p - px a) - sin (o3 db) * (py p - py a))
    (py a + py (r3 db) + sin (o3 db) * (px p - px a) + cos (o3 db) * (py p - py a))).
Proof.
  intros b H b' a. unfold b', moves. cbn [fold_left fst snd]. rewrite move_corners, nth_error_map, H. cbn [option_map].
  f_equal. unfold motion. apply pt_eq; fold a; unfold rigid, px, py, P; simpl; ring.
Qed.

Lemma corners_of inf (l : list pt) : corners (of_corners (K:=RNum) inf l) = l.
Proof. unfold of_corners. rewrite corners_refresh. unfold corners. cbn [set_alist alist]. rewrite map_map. apply map_id. Qed.

Definition tri : list pt := [P 0 0; P 0 3; P 4 0].
Lemma tri_area_ex : shoelace tri = 6.
Proof. unfold shoelace, tri, edges, total, px, py, P. simpl. lra. Qed.
(** A right triangle turned by a right angle about its corner (0, 0). *)
Example C08_ex inf :
  let b := of_corners (K:=RNum) inf tri in
  let z := @vzero RNum in
  let b' := moves inf [(mkVec3 z 0, mkVec3 z (PI / 2)); (mkVec3 z 0, mkVec3 (P 1 1) 0)] b in
  corners b' = [P 1 1; P (-2) 1; P 1 5] /\ area b' = 6.
Proof.
  assert (HP : perimeter tri <> 0) by (apply area_perimeter; rewrite tri_area_ex; lra).
  intros b z b'.
  assert (NE : perimeter (corners (set_alist (map (fun c => mkAtt c false vzero vzero (nofZ 0)) tri) (@new RNum))) <> 0) by exact HP.
  split.
  - unfold b', moves. cbn [fold_left fst snd]. rewrite !move_corners.
    replace (corners b) with tri by (symmetry; apply corners_of).
    assert (A0 : get_axis b = P 0 0).
    { unfold b, of_corners. rewrite axis_refresh. apply pt_eq; unfold px, py, P; simpl; lra. }
    assert (A1 : get_axis (move (K:=RNum) inf cos sin (mkVec3 z 0) (mkVec3 z (PI / 2)) b) = P 0 0).
    { destruct (move_axis inf (mkVec3 z 0) (mkVec3 z (PI / 2)) b) as [X Y]. rewrite A0 in X, Y.
      apply pt_eq; [rewrite X|rewrite Y]; unfold px, py, P, z; simpl; lra. }
    rewrite A0, A1. unfold tri. cbn [map r3 o3]. unfold motion. rewrite cos_PI2, sin_PI2, cos_0, sin_0.
    unfold rigid. repeat f_equal; unfold px, py, P, z; simpl; lra.
  - destruct (moves_props inf [(mkVec3 z 0, mkVec3 z (PI / 2)); (mkVec3 z 0, mkVec3 (P 1 1) 0)] _ NE) as (c & s & t & _ & _ & _ & A & _).
    transitivity (area b); [exact A|]. unfold b, of_corners. rewrite (proj1 (refresh_area inf _)). exact tri_area_ex.
Qed.

Print Assumptions C08_rigid.
Print Assumptions C08_distances.
Print Assumptions C08_one_motion.

(** * C09 *)

Theorem C09_closed inf (l : list pt) : let b := of_corners (K:=RNum) inf l in
  total (fun a => px (dl a)) (alist b) = 0 /\ total (fun a => py (dl a)) (alist b) = 0.
Proof.
  cbv zeta.
  assert (E : alist (of_corners (K:=RNum) inf l) = update_segments (map (fun c => mkAtt c false vzero vzero (nofZ 0)) l)).
  { unfold of_corners, refresh, fill_properties. cbn [set_alist alist].
    destruct (update_segments _) eqn:E; [reflexivity|]. destruct (fill_cofm _). reflexivity. }
  rewrite E. split.
  - rewrite (segments_corner _ (fun e => px (snd e) - px (fst e))) by reflexivity. apply edges_tele.
  - rewrite (segments_corner _ (fun e => py (snd e) - py (fst e))) by reflexivity. apply edges_tele.
Qed.

Theorem C09_area inf (l : list pt) : area (of_corners (K:=RNum) inf l) = shoelace l.
Proof. unfold of_corners. rewrite (proj1 (refresh_area inf _)). unfold corners. cbn [set_alist alist]. rewrite map_map. cbn [corner]. rewrite map_id. reflexivity. Qed.

Theorem C09_reverse inf (l : list pt) :
  area (of_corners (K:=RNum) inf (rev l)) = - area (of_corners (K:=RNum) inf l).
Proof. rewrite !C09_area. apply shoelace_rev. Qed.

Lemma made inf (l : list pt) : perimeter l <> 0 ->
  area (of_corners (K:=RNum) inf l) = shoelace l /\ cofm (of_corners (K:=RNum) inf l) = cofm_of l /\
  moi (of_corners (K:=RNum) inf l) = moi_of l.
Proof.
  intros H. set (b := set_alist (map (fun c => mkAtt c false vzero vzero (nofZ 0)) l) (@new RNum)).
  assert (C : corners b = l) by (unfold b, corners; cbn [set_alist alist]; rewrite map_map; apply map_id).
  rewrite <- C in H. destruct (refresh_props inf b H) as (_ & H2 & H3 & H4 & _). rewrite C in *.
  unfold of_corners. fold b. auto.
Qed.

Theorem C09_first_corner inf (l1 l2 : list pt) : perimeter (l1 ++ l2) <> 0 ->
  let b := of_corners (K:=RNum) inf (l1 ++ l2) in
  let b' := of_corners (K:=RNum) inf (l2 ++ l1) in
  area b' = area b /\ cofm b' = cofm b /\ moi b' = moi b.
Proof.
  intros H. pose proof H as H'. rewrite perimeter_rot in H'. cbv zeta.
  destruct (made inf _ H) as (-> & -> & ->). destruct (made inf _ H') as (-> & -> & ->).
  rewrite (shoelace_rotate l1 l2), (cofm_rotate l1 l2), (moi_rotate l1 l2). auto.
Qed.

Theorem C09_translate inf (l : list pt) (t : pt) : perimeter l <> 0 ->
  let b := of_corners (K:=RNum) inf l in
  let b' := of_corners (K:=RNum) inf (map (fun p => P (px p + px t) (py p + py t)) l) in
  area b' = area b /\ moi b' = moi b /\ cofm b' = P (px (cofm b) + px t) (py (cofm b) + py t).
Proof.
  intros H. cbv zeta.
  assert (E : map (fun p => P (px p + px t) (py p + py t)) l = map (rigid 1 0 t) l).
  { apply map_ext. intros p. apply pt_eq; unfold rigid, px, py, P; simpl; ring. }
  rewrite E. assert (U : 1 * 1 + 0 * 0 = 1) by ring.
  destruct (made inf l H) as (-> & -> & ->).
  assert (H' : perimeter (map (rigid 1 0 t) l) <> 0) by (rewrite perimeter_rigid; auto).
  destruct (made inf _ H') as (-> & -> & ->).
  rewrite shoelace_rigid, cofm_rigid, moi_rigid by assumption.
  repeat split. apply pt_eq; unfold rigid, px, py, P; simpl; ring.
Qed.

(** What the centre of mass and the moment are.  Triangles... *)
Theorem C09_triangle inf a b c : shoelace [a; b; c] <> 0 ->
  let t := of_corners (K:=RNum) inf [a; b; c] in
  cofm t = P ((px a + px b + px c) / 3) ((py a + py b + py c) / 3) /\
  moi t = area t * (Rsqr (dist a b) + Rsqr (dist b c) + Rsqr (dist c a)) / 36.
Proof.
  intros H t. unfold t. destruct (made inf _ (area_perimeter _ H)) as (-> & -> & ->).
  rewrite triangle_cofm, triangle_moi by assumption. split; auto.
  assert (S : forall p q, sq p q = Rsqr (dist p q)).
  { intros p q. unfold dist. rewrite Rsqr_sqrt; [reflexivity|].
    pose proof (Rle_0_sqr (px q - px p)). pose proof (Rle_0_sqr (py q - py p)). unfold Rsqr in *. lra. }
  rewrite !S. reflexivity.
Qed.

(** ... and any polygon from the two parts a diagonal [a b] cuts it into: areas,
    first moments and moments of inertia about the origin add up. *)
Theorem C09_cut inf (a : pt) (l1 : list pt) (b : pt) (l2 : list pt) :
  let whole := of_corners (K:=RNum) inf (a :: l1 ++ b :: l2) in
  let u := of_corners (K:=RNum) inf (a :: l1 ++ [b]) in
  let v := of_corners (K:=RNum) inf (a :: b :: l2) in
  area whole = area u + area v /\
  (area whole <> 0 -> area u <> 0 -> area v <> 0 ->
   area whole * px (cofm whole) = area u * px (cofm u) + area v * px (cofm v) /\
   area whole * py (cofm whole) = area u * py (cofm u) + area v * py (cofm v) /\
   let J (s : body RNum) := moi s + area s * (Rsqr (px (cofm s)) + Rsqr (py (cofm s))) in J whole = J u + J v).
Proof.
  cbv zeta. rewrite !C09_area. split; [apply cut_area|].
  intros N1 N2 N3.
  destruct (made inf _ (area_perimeter _ N1)) as (_ & -> & ->).
  destruct (made inf _ (area_perimeter _ N2)) as (_ & -> & ->).
  destruct (made inf _ (area_perimeter _ N3)) as (_ & -> & ->).
  unfold Rsqr. rewrite !moment_x, !moment_y, !moment_0 by assumption.
  pose proof (cut_Mx a l1 b l2) as X. pose proof (cut_My a l1 b l2) as Y. pose proof (cut_M12 a l1 b l2) as Z. unfold pt in *.
  rewrite X, Y, Z. split; [|split]; lra.
Qed.

Example C09_ex inf :
  area (of_corners (K:=RNum) inf tri) = 6 /\
  cofm (of_corners (K:=RNum) inf tri) = P (4/3) 1 /\
  moi (of_corners (K:=RNum) inf tri) = 25 / 3.
Proof.
  assert (N : shoelace tri <> 0) by (rewrite tri_area_ex; lra).
  destruct (made inf _ (area_perimeter _ N)) as (-> & -> & ->). rewrite tri_area_ex.
  unfold tri in *. rewrite triangle_cofm, triangle_moi by assumption. fold tri. rewrite tri_area_ex.
  repeat split; [apply pt_eq; unfold px, py, P; simpl; lra|unfold sq, px, py, P; simpl; lra].
Qed.

(** Without a boundary the centre is 0/0: a body with one corner, in doubles. *)
Example C09_one_corner_ex :
  is_nan (x (cofm (of_corners (K:=F64) f64_inf [@mkVec F64 (f64_ofZ 1) (f64_ofZ 2)]))) = true.
Proof. vm_compute. reflexivity. Qed.

Print Assumptions C09_closed.
Print Assumptions C09_area.
Print Assumptions C09_reverse.
Print Assumptions C09_first_corner.
Print Assumptions C09_translate.
Print Assumptions C09_triangle.
Print Assumptions C09_cut.

(** * C10 and C53 *)

(** At heights where there is no corner, the answer is the even-odd rule
    whatever the shortcut says, turned over for an outer contour, and the
    segment returned is the first nearest one. *)
Theorem C10_even_odd_partial inf dbl_max (b0 : body RNum) p :
  let b := refresh (K:=RNum) inf b0 in
  alist b0 <> [] -> generic p (corners b) ->
  (exists a, In a (alist b) /\ sqd (r a) p < dbl_max) ->
  exists i, inside p (corners b) i /\
    let invalid := if Rleb (area b) 0 then negb i else i in
    (invalid = false -> is_point_invalid (K:=RNum) dbl_max b p = Some None) /\
    (invalid = true -> exists k, is_point_invalid (K:=RNum) dbl_max b p = Some (Some k) /\
       first_nearest p (map (@r RNum) (alist b)) k).
Proof.
  intros b N G B. destruct (invalid_generic inf dbl_max b0 p N G B) as (i & I & X). fold b in I, X.
  exists i. split; [exact I|]. cbv zeta. destruct (Rleb (area b) 0), i; cbn [xorb negb] in *; split; intros; try discriminate; exact X.
Qed.

(** The even-odd answer is unique, so the statement determines the result. *)
Theorem C10_unique p l i j : inside p l i -> inside p l j -> i = j.
Proof. apply odd_many_det. Qed.

Definition zv (q : Z * Z) : vec F64 := @mkVec F64 (f64_ofZ (fst q)) (f64_ofZ (snd q)).
Definition zbody (l : list (Z * Z)) : body F64 := of_corners (K:=F64) f64_inf (map zv l).
Definition diamond : list (Z * Z) := [(0,2); (2,0); (0,-2); (-2,0)]%Z.

(** At the height of a corner the ray test counts the tip once: it says
    inside, the shortcut outside. *)
Theorem C10_shortcut_refuted : exists l p, let b := zbody l in
  nleb (n:=F64) (area b) (nofZ (n:=F64) 0) = false /\
  parity (zv p) (map (@corner F64) (alist b)) false = true /\
  is_point_invalid (K:=F64) dbl_max b (zv p) = Some None.
Proof. exists diamond, (1, 2)%Z. vm_compute. auto. Qed.

Example C10_ex : is_point_invalid (K:=F64) dbl_max (zbody diamond) (zv (1, 0)%Z) = Some (Some 0%nat) /\
  is_point_invalid (K:=F64) dbl_max (zbody diamond) (zv (5, 1)%Z) = Some None /\
  inside (P 1 (1/2)) [P 0 2; P 2 0; P 0 (-2); P (-2) 0] true.
Proof.
  split; [vm_compute; reflexivity|]. split; [vm_compute; reflexivity|].
  unfold inside, edges. simpl.
  change true with (negb false).
  apply OddNo. { unfold hits_left, px, py, P; simpl. intros [[A|A] B]; lra. }
  apply OddNo. { unfold hits_left, px, py, P; simpl. intros [[A|A] B]; lra. }
  apply OddNo. { unfold hits_left, px, py, P; simpl. intros [[A|A] B]; lra. }
  apply OddYes. { unfold hits_left, px, py, P; simpl. split; [left|]; lra. }
  apply OddNil.
Qed.

(** Strictly on the other side of a line than all corners. *)
Definition separated (p : Z * Z) (l : list (Z * Z)) : Prop :=
  exists a c, Forall (fun q => a * fst q + c * snd q < a * fst p + c * snd p)%Z l.
Definition house : list (Z * Z) := [(0,0); (0,2); (4,4); (8,2); (8,0)]%Z.

(** A point beside the top of a house is reported inside. *)
Theorem C53_beside_the_top_refuted : exists l p k, let b := zbody l in
  nleb (n:=F64) (area b) (nofZ (n:=F64) 0) = false /\
  separated p l /\ is_point_invalid (K:=F64) dbl_max b (zv p) = Some (Some k).
Proof.
  exists house, (5, 4)%Z, 2%nat. split; [vm_compute; reflexivity|]. split; [|vm_compute; reflexivity].
  exists 1%Z, 3%Z. repeat constructor.
Qed.

(** A separated point away from corner heights is never reported inside. *)
Theorem C53_separated_partial inf dbl_max (b0 : body RNum) p a c :
  let b := refresh (K:=RNum) inf b0 in
  alist b0 <> [] -> generic p (corners b) -> 0 < area b ->
  (forall q, In q (corners b) -> a * px q + c * py q < a * px p + c * py p) ->
  is_point_invalid (K:=RNum) dbl_max b p = Some None.
Proof.
  intros b N G A H. unfold is_point_invalid, in_contour.
  change (map (@corner RNum) (alist b)) with (corners b).
  change (area b <=? nofZ 0)%num with (Rleb (area b) 0).
  assert (NE : corners b <> []).
  { unfold b. rewrite corners_refresh. unfold corners. destruct (alist b0); [congruence|discriminate]. }
  assert (E : Rleb (area b) 0 = false) by (destruct (Rleb (area b) 0) eqn:E; auto; rbool; lra).
  rewrite E. destruct (_ && _); [reflexivity|].
  assert (Q : parity p (corners b) false = false).
  { rewrite parity_tog. rewrite (half_plane p a c); auto. intros u I. specialize (H u I). lra. }
  destruct (corners b); [congruence|]. rewrite Q. reflexivity.
Qed.

Print Assumptions C10_even_odd_partial.
Print Assumptions C10_unique.
Print Assumptions C10_shortcut_refuted.
Print Assumptions C53_beside_the_top_refuted.
Print Assumptions C53_separated_partial.

(** * C11 *)

(** The requirements in the order they are checked. *)
Definition requirements (p : params F64) : list (string * bool) :=
  let '(dx, dy, da) := damping p in
  let '(kx, ky, ka) := kspring p in
  let '(lx, ly, la) := collision_min p in
  let '(hx, hy, ha) := collision_max p in
  let fin := @is_finite 53 1024 in
  let pos k := negb (@is_nan 53 1024 k) && negb (Bltb k (f64_ofZ 0)) in
  let rng lo hi := negb (Bleb hi lo) in
  [("spring_damping.r.x", fin dx); ("spring_damping.r.y", fin dy); ("spring_damping.o", fin da);
   ("spring_const.r.x", pos kx); ("spring_const.r.y", pos ky); ("spring_const.o", pos ka);
   ("collision_max.r.x", rng lx hx); ("collision_max.r.y", rng ly hy); ("collision_max.o", rng la ha)]%string.

Lemma first_error_spec (p : params F64) :
  first_error p = option_map fst (find (fun r => negb (snd r)) (requirements p)).
Proof.
  destruct p as [[[dx dy] da] [[kx ky] ka] [[lx ly] la] [[hx hy] ha]].
  unfold first_error, requirements, bad_damping, bad_kspring, bad_range. cbn [damping kspring collision_min collision_max].
  cbn [find snd fst option_map nfinite nnan nltb nleb nofZ F64].
  repeat match goal with |- context [is_finite ?a] => destruct (is_finite a) end; cbn [negb option_map fst]; auto.
  all: repeat match goal with |- context [is_nan ?a] => destruct (is_nan a) end; cbn [negb orb andb option_map fst]; auto.
  all: repeat match goal with |- context [Bltb ?a ?b] => destruct (Bltb a b) end; cbn [negb orb andb option_map fst]; auto.
  all: repeat match goal with |- context [Bleb ?a ?b] => destruct (Bleb a b) end; cbn [negb orb andb option_map fst]; auto.
Qed.

(** Critical validation accepts exactly the bodies that meet all requirements,
    unchanged, and otherwise names the first violated one. *)
Theorem C11_critical inf (p : params F64) :
  (Forall (fun r => snd r = true) (requirements p) /\ validate (K:=F64) inf true p = Accepted p) \/
  (exists what, In (what, false) (requirements p) /\ validate (K:=F64) inf true p = Throws what).
Proof.
  unfold validate. rewrite first_error_spec. destruct (find _ _) as [[w v]|] eqn:E; cbn [option_map fst].
  - right. exists w. apply find_some in E. destruct E as [I V]. cbn [snd] in V. destruct v; [discriminate|]. auto.
  - left. split; auto. apply Forall_forall. intros r0 I. pose proof (find_none _ _ E r0 I) as X. cbn in X. destruct (snd r0); auto.
Qed.

(** What acceptance means in numbers: the bounds, when they are numbers, are a non-empty range. *)
Theorem C11_accepted_partial inf (p q : params F64) : validate (K:=F64) inf true p = Accepted q ->
  q = p /\
  (forall d, In d (let '(a, b, c) := damping p in [a; b; c]) -> @is_finite 53 1024 d = true) /\
  (forall k, In k (let '(a, b, c) := kspring p in [a; b; c]) -> k = f64_inf \/ (@is_finite 53 1024 k = true /\ 0 <= @B2R 53 1024 k)) /\
  (forall lo hi, In (lo, hi) (let '(a, b, c) := collision_min p in let '(a', b', c') := collision_max p in [(a, a'); (b, b'); (c, c')]) ->
     @is_finite 53 1024 lo = true -> @is_finite 53 1024 hi = true -> @B2R 53 1024 lo < @B2R 53 1024 hi).
Proof.
  intros H. destruct (C11_critical inf p) as [[F A]|(w & _ & A)]; [|rewrite A in H; discriminate].
  rewrite A in H. injection H as <-. split; [reflexivity|]. clear A.
  assert (KP : forall k : f64, negb (is_nan k) && negb (Bltb k (f64_ofZ 0)) = true -> k = f64_inf \/ (is_finite k = true /\ 0 <= B2R k)).
  { intros k E. apply andb_true_iff in E. destruct E as [E1 E2]. apply negb_true_iff in E1, E2.
    destruct k as [s|s| |s m e Be]; try discriminate.
    - right. split; auto. simpl. lra.
    - left. destruct s; [discriminate E2|reflexivity].
    - right. split; auto. destruct s; [discriminate E2|]. simpl. unfold Defs.F2R. simpl.
      apply Rmult_le_pos; [apply IZR_le; lia|apply Raux.bpow_ge_0]. }
  assert (RG : forall lo hi : f64, negb (Bleb hi lo) = true -> is_finite lo = true -> is_finite hi = true -> B2R lo < B2R hi).
  { intros lo hi E F1 F2. apply negb_true_iff in E. destruct (Rlt_le_dec (B2R lo) (B2R hi)); auto.
    rewrite Bleb_correct in E by assumption. rewrite Raux.Rle_bool_true in E by assumption. discriminate. }
  destruct p as [[[dx dy] da] [[kx ky] ka] [[lx ly] la] [[hx hy] ha]].
  unfold requirements in F. cbn [damping kspring collision_min collision_max] in *.
  repeat match goal with F : Forall _ (_ :: _) |- _ => inversion F; clear F; subst end. cbn [snd] in *.
  split; [|split].
  - intros d I. simpl in I. destruct I as [<-|[<-|[<-|[]]]]; assumption.
  - intros k I. simpl in I. destruct I as [<-|[<-|[<-|[]]]]; apply KP; assumption.
  - intros lo hi I F1 F2. simpl in I. destruct I as [I|[I|[I|[]]]]; injection I as <- <-; apply RG; assumption.
Qed.

(** A NaN bound passes although no position is within the range. *)
Theorem C11_nan_range_refuted : exists p : params F64,
  validate (K:=F64) f64_inf true p = Accepted p /\
  forall v : f64, ~ (@nleb F64 (fst (fst (collision_min p))) v = true).
Proof.
  exists (let z := f64_ofZ 0 in let n := f64_nan in
          @mkParams F64 (z, z, z) (z, z, z) (n, n, n) (z, z, z)).
  split; [reflexivity|]. intros v. cbn. destruct v; discriminate.
Qed.

(** Loading makes negative spring constants infinite and changes nothing else. *)
Theorem C11_loading inf (p : params F64) : exists q, validate (K:=F64) inf false p = Accepted q /\
  damping q = damping p /\ collision_min q = collision_min p /\ collision_max q = collision_max p /\
  let f k := if Bltb k (f64_ofZ 0) then inf else k in
  kspring q = let '(a, b, c) := kspring p in (f a, f b, f c).
Proof. unfold validate. destruct (kspring p) as [[a b] c]. eexists. split; [reflexivity|]. cbn. auto. Qed.

Example C11_ex : let z := f64_ofZ 0 in let o := f64_ofZ 1 in let n := f64_nan in let i := f64_inf in
  validate (K:=F64) i true (@mkParams F64 (z, z, z) (i, i, i) (z, z, z) (o, o, o)) = Accepted (@mkParams F64 (z, z, z) (i, i, i) (z, z, z) (o, o, o)) /\
  validate (K:=F64) i true (@mkParams F64 (z, z, z) (i, n, i) (z, z, z) (o, o, o)) = Throws "spring_const.r.y" /\
  validate (K:=F64) i true (@mkParams F64 (z, z, z) (i, i, i) (o, z, z) (o, o, o)) = Throws "collision_max.r.x".
Proof. repeat split; reflexivity. Qed.

Print Assumptions C11_critical.
Print Assumptions C11_accepted_partial.
Print Assumptions C11_nan_range_refuted.
Print Assumptions C11_loading.

(** * C52 *)

Definition square : list (Z * Z) := [(0,0); (0,4); (4,4); (4,0)]%Z.
Definition ten : vec3 F64 := mkVec3 (zv (10, 0)%Z) (f64_ofZ 0).
(** A shift to the right; cosine and sine of 0. *)
Definition shift (b : body F64) : body F64 :=
  move (K:=F64) f64_inf (fun _ => f64_ofZ 1) (fun _ => f64_ofZ 0) ten ten b.

Lemma asked_alist b p : alist (shift (fst (is_point_in_heat_layer (K:=F64) dbl_max b p))) = alist (shift b).
Proof.
  unfold shift, move, refresh, is_point_in_heat_layer, fill_properties, set_alist, get_axis.
  cbn [fst alist holder dpos]. destruct (update_segments _); [reflexivity|]. destruct (fill_cofm _). reflexivity.
Qed.

(** Two bodies that differ in the history of questions only give different
    answers: the layer computed before the motion is used after it. *)
Theorem C52_stale_layer_refuted : exists b p q,
  let asked := shift (fst (is_point_in_heat_layer (K:=F64) dbl_max b p)) in
  let fresh := shift b in
  alist asked = alist fresh /\
  snd (is_point_in_heat_layer (K:=F64) dbl_max asked q) = Some None /\
  snd (is_point_in_heat_layer (K:=F64) dbl_max fresh q) = Some (Some 0%nat).
Proof.
  exists (zbody square), (zv (1, 1)%Z), (zv (11, 1)%Z). split; [apply asked_alist|]. split; vm_compute; reflexivity.
Qed.

(** A point between the body and its layer is not reported when it is outside the body's box. *)
Theorem C52_outside_box_refuted : exists l p, let b := zbody l in
  parity (zv p) (layer b) false = true /\ parity (zv p) (map (@corner F64) (alist b)) false = false /\
  snd (is_point_in_heat_layer (K:=F64) dbl_max b (zv p)) = Some None.
Proof. exists square, (6, 1)%Z. vm_compute. auto. Qed.

(** While nothing moves, questions do not influence each other. *)
Theorem C52_same_place_partial (K : Num) (dm : K) (b : body K) (ps : list (vec K)) q :
  alist b <> [] -> heat_layer b = [] ->
  snd (is_point_in_heat_layer dm (fold_left (fun b p => fst (is_point_in_heat_layer dm b p)) ps b) q)
  = snd (is_point_in_heat_layer dm b q).
Proof.
  intros N H.
  assert (F : forall (b : body K) p, layer b <> [] -> fst (is_point_in_heat_layer dm (fst (is_point_in_heat_layer dm b p)) p) = fst (is_point_in_heat_layer dm b p)).
  { intros b1 p X. unfold is_point_in_heat_layer. cbn [fst heat_layer]. destruct (heat_layer b1) eqn:E; [|reflexivity].
    destruct (layer b1) eqn:Y; [congruence|]. reflexivity. }
  set (b1 := fst (is_point_in_heat_layer dm b q)).
  assert (NL : layer b <> []) by (unfold layer; destruct (alist b); [congruence|discriminate]).
  assert (S : forall ps, fold_left (fun b p => fst (is_point_in_heat_layer dm b p)) ps b1 = b1).
  { induction ps0 as [|p t IH]; [reflexivity|]. cbn [fold_left].
    replace (fst (is_point_in_heat_layer dm b1 p)) with b1; [exact IH|]. symmetry. apply (F b q NL). }
  assert (Q : snd (is_point_in_heat_layer dm b1 q) = snd (is_point_in_heat_layer dm b q)).
  { unfold b1, is_point_in_heat_layer. cbn [fst snd heat_layer]. rewrite H.
    destruct (layer b) eqn:Y; [congruence|]. reflexivity. }
  destruct ps as [|p t]; [reflexivity|]. cbn [fold_left].
  change (fst (is_point_in_heat_layer dm b p)) with b1. rewrite S. exact Q.
Qed.

Example C52_ex :
  snd (is_point_in_heat_layer (K:=F64) dbl_max (zbody square) (zv (1, 1)%Z)) = Some (Some 0%nat) /\
  List.length (heat_layer (fst (is_point_in_heat_layer (K:=F64) dbl_max (zbody square) (zv (1, 1)%Z)))) = 4%nat.
Proof. split; vm_compute; reflexivity. Qed.

Print Assumptions C52_stale_layer_refuted.
Print Assumptions C52_outside_box_refuted.
Print Assumptions C52_same_place_partial.

(** * C54 *)

(** Lines with a slip flag each: the corners are the lines. *)
Theorem C54_complete_lines_partial (K : Num) (scan : string -> option K * option K * option Z) lines vals :
  Forall2 (fun line v => let '(a, b, s) := v in scan line = (Some a, Some b, Some s)) lines vals ->
  load_txt scan lines = mkLoaded (map (fun v => let '(a, b, s) := v in (a, b, negb (s =? 0)%Z)) vals) false.
Proof. apply load_complete. Qed.

(** Lines without: no corner slips. *)
Theorem C54_no_flags_partial (K : Num) (scan : string -> option K * option K * option Z) lines vals :
  Forall2 (fun line v => let '(a, b) := v in scan line = (Some a, Some b, None)) lines vals ->
  load_txt scan lines = mkLoaded (map (fun v => let '(a, b) := v in (a, b, false)) vals) false.
Proof. apply load_plain. Qed.

(** A line without a flag after one with flag 1 slips, the same line alone does not. *)
Theorem C54_sticky_refuted (K : Num) (scan : string -> option K * option K * option Z) l1 l2 a b c d :
  scan l1 = (Some a, Some b, Some 1%Z) -> scan l2 = (Some c, Some d, None) ->
  load_txt scan [l1; l2] = mkLoaded [(a, b, true); (c, d, true)] false /\
  load_txt scan [l2] = mkLoaded [(c, d, false)] false.
Proof. intros H1 H2. unfold load_txt, load_lines. rewrite H1, H2. auto. Qed.

(** A line without two numbers is reported. *)
Theorem C54_bad_line (K : Num) (scan : string -> option K * option K * option Z) lines :
  failed (load_txt scan lines) = true <->
  exists line, In line lines /\ forall a b s, scan line <> (Some a, Some b, s).
Proof. apply load_bad. Qed.

Definition ex_scan (s : string) : option Q * option Q * option Z :=
  if (s =? "0 0 1")%string then (Some 0%Q, Some 0%Q, Some 1%Z)
  else if (s =? "1 0")%string then (Some 1%Q, Some 0%Q, None)
  else (None, None, None).
Example C54_ex :
  load_txt (K:=QNum) ex_scan ["1 0"; "0 0 1"; "1 0"]%string = @mkLoaded QNum [(1%Q, 0%Q, false); (0%Q, 0%Q, true); (1%Q, 0%Q, true)] false /\
  failed (load_txt (K:=QNum) ex_scan ["1 0"; "?"]%string) = true.
Proof. split; reflexivity. Qed.

Print Assumptions C54_complete_lines_partial.
Print Assumptions C54_no_flags_partial.
Print Assumptions C54_sticky_refuted.
Print Assumptions C54_bad_line.
