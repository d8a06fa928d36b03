(** Properties of refreshed and moved bodies. *)

From Coq Require Import ZArith Bool List Permutation Reals Lra Lia Psatz.
From Verif.Base Require Import Num.
From Verif.Body Require Import Model Spec ProofsGeom.
Import ListNotations.
Local Open Scope R_scope.

Definition crs (e : pt * pt) : R := px (fst e) * py (snd e) - py (fst e) * px (snd e).
Definition Mx (l : list pt) : R := total (fun e => - ((px (fst e) + px (snd e)) / 2 * crs e)) (edges l).
Definition My (l : list pt) : R := total (fun e => - ((py (fst e) + py (snd e)) / 2 * crs e)) (edges l).
Definition M12 (l : list pt) : R :=
  total (fun e => - ((px (fst e) * px (fst e) + py (fst e) * py (fst e)
                      + (px (fst e) * px (snd e) + py (fst e) * py (snd e))
                      + (px (snd e) * px (snd e) + py (snd e) * py (snd e))) * crs e)) (edges l).
Definition Lx (l : list pt) : R := total (fun e => (px (fst e) + px (snd e)) / 2 * dist (fst e) (snd e)) (edges l).
Definition Ly (l : list pt) : R := total (fun e => (py (fst e) + py (snd e)) / 2 * dist (fst e) (snd e)) (edges l).

(** Centre of mass and moment of inertia of a corner list. *)
Definition cofm_of (l : list pt) : pt :=
  if Req_EM_T (shoelace l) 0 then P (Lx l / perimeter l) (Ly l / perimeter l)
  else P (Mx l / (3 * shoelace l)) (My l / (3 * shoelace l)).
Definition moi_of (l : list pt) : R :=
  if Req_EM_T (shoelace l) 0 then 0
  else M12 l / 12 - shoelace l * (px (cofm_of l) * px (cofm_of l) + py (cofm_of l) * py (cofm_of l)).

Lemma shoelace_crs l : shoelace l = total (fun e => - (1/2) * crs e) (edges l).
Proof.
  unfold shoelace. rewrite total_scale. unfold crs. unfold Rdiv. 
  rewrite (total_ext (fun e : pt * pt => px (fst e) * py (snd e) - py (fst e) * px (snd e))
     (fun e => (-1) * (py (fst e) * px (snd e) - px (fst e) * py (snd e)))) by (intros; ring).
  rewrite total_scale. lra.
Qed.

Lemma sum_edges (F : pt -> pt -> pt -> pt -> R) (f : att RNum * att RNum -> R) (G : pt * pt -> R) l :
  (forall e, f e = F (corner (fst e)) (dl (fst e)) (r (fst e)) (corner (snd e))) ->
  (forall p q, F p (P (px q - px p) (py q - py p)) (P ((px q + px p) * (1 / 2)) ((py q + py p) * (1 / 2))) q = G (p, q)) ->
  @sum RNum f (update_segments l) = total G (edges (cs l)).
Proof.
  intros Hf HG. rewrite sum_total. rewrite (total_ext f _ _ (fun e _ => Hf e)). rewrite edges_update.
  apply total_ext. intros [p q] _. apply HG.
Qed.

Lemma dif_edges (F : pt -> pt -> pt -> pt -> R) (f : att RNum * att RNum -> R) (G : pt * pt -> R) l :
  (forall e, f e = F (corner (fst e)) (dl (fst e)) (r (fst e)) (corner (snd e))) ->
  (forall p q, - F p (P (px q - px p) (py q - py p)) (P ((px q + px p) * (1 / 2)) ((py q + py p) * (1 / 2))) q = G (p, q)) ->
  @dif RNum f (update_segments l) = total G (edges (cs l)).
Proof.
  intros Hf HG. rewrite dif_total. rewrite (total_ext f _ _ (fun e _ => Hf e)). rewrite edges_update.
  rewrite <- (Rmult_1_l (total _ _)), Ropp_mult_distr_l, <- total_scale.
  apply total_ext. intros [p q] _. rewrite <- HG. cbn [fst snd]. ring.
Qed.

Lemma area_shoelace (l : list (att RNum)) : fill_area (update_segments l) = shoelace (cs l).
Proof.
  unfold fill_area.
  rewrite (sum_edges (fun _ d m _ => py m * px d) _ (fun e => (py (snd e) + py (fst e)) * (1/2) * (px (snd e) - px (fst e))))
    by reflexivity.
  rewrite shoelace_crs.
  apply (edges_sum _ _ (fun p => px p * py p / 2)).
  intros [a b] [c d]. unfold crs, px, py. simpl. field.
Qed.

Lemma slen_perimeter (l : list (att RNum)) : fill_slen (update_segments l) = perimeter (cs l).
Proof.
  unfold fill_slen, perimeter.
  apply (sum_edges (fun _ d _ _ => sqrt (px d * px d + py d * py d))); reflexivity.
Qed.

Lemma pt_eq (p q : pt) : px p = px q -> py p = py q -> p = q.
Proof. destruct p, q. unfold px, py. simpl. congruence. Qed.

Lemma cofm_correct (l : list (att RNum)) :
  perimeter (cs l) <> 0 -> fill_cofm (update_segments l) = (cofm_of (cs l), moi_of (cs l)).
Proof.
  intros HP. unfold fill_cofm. rewrite area_shoelace, slen_perimeter.
  change (@neqb RNum (shoelace (cs l)) (@nofZ RNum 0)) with (Reqb (shoelace (cs l)) 0).
  unfold moi_of, cofm_of, Reqb. destruct (Req_EM_T (shoelace (cs l)) 0) as [E|E].
  - f_equal.
    rewrite (sum_edges (fun _ d m _ => px m * sqrt (px d * px d + py d * py d)) _
               (fun e => (px (fst e) + px (snd e)) / 2 * dist (fst e) (snd e)));
      [|reflexivity|intros; unfold dist, px, py; simpl; field].
    rewrite (sum_edges (fun _ d m _ => py m * sqrt (px d * px d + py d * py d)) _
               (fun e => (py (fst e) + py (snd e)) / 2 * dist (fst e) (snd e)));
      [|reflexivity|intros; unfold dist, px, py; simpl; field].
    apply pt_eq; unfold Lx, Ly, px, py; simpl; field; auto.
  - cbv zeta.
    rewrite (dif_edges (fun c d m n => px m * ((- py c) * px n + px c * py n)) _
               (fun e => - ((px (fst e) + px (snd e)) / 2 * crs e)));
      [|reflexivity|intros; unfold crs, px, py; simpl; field].
    rewrite (dif_edges (fun c d m n => py m * ((- py c) * px n + px c * py n)) _
               (fun e => - ((py (fst e) + py (snd e)) / 2 * crs e)));
      [|reflexivity|intros; unfold crs, px, py; simpl; field].
    rewrite (dif_edges (fun c d m n => (px c * px c + py c * py c + (px c * px n + py c * py n) + (px n * px n + py n * py n))
              * ((- py c) * px n + px c * py n)) _
               (fun e => - ((px (fst e) * px (fst e) + py (fst e) * py (fst e)
                      + (px (fst e) * px (snd e) + py (fst e) * py (snd e))
                      + (px (snd e) * px (snd e) + py (snd e) * py (snd e))) * crs e)));
      [|reflexivity|intros; unfold crs, px, py; simpl; ring].
    fold (Mx (cs l)). fold (My (cs l)). fold (M12 (cs l)).
    assert (C : @vdiv RNum (mkVec (Mx (cs l) : RNum) (My (cs l))) (@nmul RNum (@nofZ RNum 3) (shoelace (cs l)))
                = P (Mx (cs l) / (3 * shoelace (cs l))) (My (cs l) / (3 * shoelace (cs l)))).
    { apply pt_eq; unfold px, py; simpl; field; auto. }
    rewrite C. f_equal.
Qed.

(** * Rigid motions of corner lists *)

Section Rigid.
Variables c s : R.
Variable t : pt.
Hypothesis unit : c * c + s * s = 1.
Notation g := (rigid c s t).

Lemma dist_rigid p q : dist (g p) (g q) = dist p q.
Proof.
  unfold dist. f_equal. destruct p as [a b], q as [a' b'], t as [t1 t2]. unfold rigid, px, py, P. simpl.
  transitivity ((c*c+s*s) * ((a'-a)*(a'-a) + (b'-b)*(b'-b))); [ring|rewrite unit; ring].
Qed.

Lemma perimeter_rigid l : perimeter (map g l) = perimeter l.
Proof.
  unfold perimeter. rewrite edges_map, total_map. apply total_ext. intros [p q] _. simpl. apply dist_rigid.
Qed.

Lemma shoelace_rigid l : shoelace (map g l) = shoelace l.
Proof.
  rewrite !shoelace_crs. rewrite edges_map, total_map.
  apply (edges_sum _ _ (fun p => - (1/2) * (px t * (s * px p + c * py p) - py t * (c * px p - s * py p)))).
  intros [a b] [a' b']. destruct t as [t1 t2]. unfold crs, rigid, px, py, P. simpl.
  transitivity (- (1/2) * ((c*c+s*s) * (a * b' - b * a') + (t1 * ((s * a' + c * b') - (s * a + c * b)) - t2 * ((c * a' - s * b') - (c * a - s * b))))); [ring|].
  rewrite unit. ring.
Qed.

End Rigid.

Lemma total_lin3 {A} (f g h : A -> R) a b d l :
  total (fun e => a * f e + b * g e + d * h e) l = a * total f l + b * total g l + d * total h l.
Proof. unfold total. induction l; simpl; [ring|]. rewrite IHl. ring. Qed.

Section Rotation.
Variables c s : R.
Hypothesis unit : c * c + s * s = 1.
Notation g := (rigid c s (P 0 0)).

Lemma crs_rot p q : crs (g p, g q) = crs (p, q).
Proof.
  destruct p as [a b], q as [a' b']. unfold crs, rigid, px, py, P. simpl.
  transitivity ((c*c+s*s) * (a * b' - b * a')); [ring|rewrite unit; ring].
Qed.

Lemma Mx_rot l : Mx (map g l) = c * Mx l - s * My l.
Proof.
  unfold Mx, My. rewrite edges_map, total_map.
  replace (c * _ - s * _) with (c * total (fun e => - ((px (fst e) + px (snd e)) / 2 * crs e)) (edges l) + (-s) * total (fun e => - ((py (fst e) + py (snd e)) / 2 * crs e)) (edges l) + 0 * total (fun e => 0) (edges l)) by ring.
  rewrite <- total_lin3. apply total_ext. intros [p q] _. cbn [fst snd]. rewrite crs_rot. generalize (crs (p, q)). intros k.
  destruct p as [a b], q as [a' b']. unfold rigid, px, py, P. simpl. field.
Qed.
Lemma My_rot l : My (map g l) = s * Mx l + c * My l.
Proof.
  unfold Mx, My. rewrite edges_map, total_map.
  replace (s * _ + c * _) with (s * total (fun e => - ((px (fst e) + px (snd e)) / 2 * crs e)) (edges l) + c * total (fun e => - ((py (fst e) + py (snd e)) / 2 * crs e)) (edges l) + 0 * total (fun e => 0) (edges l)) by ring.
  rewrite <- total_lin3. apply total_ext. intros [p q] _. cbn [fst snd]. rewrite crs_rot. generalize (crs (p, q)). intros k.
  destruct p as [a b], q as [a' b']. unfold rigid, px, py, P. simpl. field.
Qed.
Lemma M12_rot l : M12 (map g l) = M12 l.
Proof.
  unfold M12. rewrite edges_map, total_map. apply total_ext. intros [p q] _. cbn [fst snd]. rewrite crs_rot.
  generalize (crs (p, q)). intros k.
  destruct p as [a b], q as [a' b']. unfold rigid, px, py, P. simpl.
  transitivity (- ((c*c+s*s) * (a * a + b * b + (a * a' + b * b') + (a' * a' + b' * b')) * k)); [ring|rewrite unit; ring].
Qed.
End Rotation.

Section Translation.
Variable t : pt.
Notation g := (rigid 1 0 t).

Lemma Mx_tr l : Mx (map g l) = Mx l + 3 * shoelace l * px t.
Proof.
  rewrite shoelace_crs. unfold Mx. rewrite edges_map, total_map.
  match goal with |- _ = ?A + 3 * ?B * ?C => replace (A + 3 * B * C) with (1 * A + (3 * px t) * B + 0 * total (fun e => 0) (edges l)) by ring end.
  rewrite <- total_lin3.
  apply (edges_sum _ _ (fun q => - ((px t + px (g q)) / 2 * crs (t, g q)))).
  intros [a b] [a' b']. destruct t as [t1 t2]. unfold crs, rigid, px, py, P. simpl. field.
Qed.
Lemma My_tr l : My (map g l) = My l + 3 * shoelace l * py t.
Proof.
  rewrite shoelace_crs. unfold My. rewrite edges_map, total_map.
  match goal with |- _ = ?A + 3 * ?B * ?C => replace (A + 3 * B * C) with (1 * A + (3 * py t) * B + 0 * total (fun e => 0) (edges l)) by ring end.
  rewrite <- total_lin3.
  apply (edges_sum _ _ (fun q => - ((py t + py (g q)) / 2 * crs (t, g q)))).
  intros [a b] [a' b']. destruct t as [t1 t2]. unfold crs, rigid, px, py, P. simpl. field.
Qed.
Lemma M12_tr l : M12 (map g l) = M12 l + 8 * (px t * Mx l + py t * My l) + 12 * shoelace l * (px t * px t + py t * py t).
Proof.
  rewrite shoelace_crs. unfold M12, Mx, My. rewrite edges_map, total_map.
  match goal with |- _ = ?A + 8 * (_ * ?B + _ * ?C) + 12 * ?D * _ =>
    replace (A + 8 * (px t * B + py t * C) + 12 * D * (px t * px t + py t * py t))
      with (1 * (1 * A + (8 * px t) * B + (8 * py t) * C) + (12 * (px t * px t + py t * py t)) * D + 0 * total (fun e => 0) (edges l)) by ring end.
  rewrite <- !total_lin3.
  apply (edges_sum _ _ (fun q => - ((px t * px t + py t * py t + (px t * px (g q) + py t * py (g q)) + (px (g q) * px (g q) + py (g q) * py (g q))) * crs (t, g q)))).
  intros [a b] [a' b']. destruct t as [t1 t2]. unfold crs, rigid, px, py, P. simpl. field.
Qed.
End Translation.

Section Both.
Variables c s : R.
Variable t : pt.
Hypothesis unit : c * c + s * s = 1.
Notation g := (rigid c s t).

Lemma rigid_comp l : map g l = map (rigid 1 0 t) (map (rigid c s (P 0 0)) l).
Proof.
  rewrite map_map. apply map_ext. intros [a b]. apply pt_eq; destruct t as [t1 t2]; unfold rigid, px, py, P; simpl; ring.
Qed.

Lemma cofm_rigid l : perimeter l <> 0 -> cofm_of (map g l) = g (cofm_of l).
Proof.
  intros HP. unfold cofm_of. rewrite shoelace_rigid, perimeter_rigid by assumption.
  destruct (Req_EM_T (shoelace l) 0) as [E|E].
  - assert (X : Lx (map g l) = c * Lx l - s * Ly l + px t * perimeter l).
    { unfold Lx, Ly, perimeter. rewrite edges_map, total_map.
      match goal with |- _ = c * ?A - s * ?B + ?u * ?D => replace (c * A - s * B + u * D) with (c * A + (- s) * B + u * D) by ring end.
      rewrite <- total_lin3. apply total_ext. intros [p q] _. cbn [fst snd]. rewrite (dist_rigid c s t unit).
      generalize (dist p q). intros d. destruct p as [a b], q as [a' b'], t as [t1 t2]. unfold rigid, px, py, P. simpl. field. }
    assert (Y : Ly (map g l) = s * Lx l + c * Ly l + py t * perimeter l).
    { unfold Lx, Ly, perimeter. rewrite edges_map, total_map.
      rewrite <- total_lin3. apply total_ext. intros [p q] _. cbn [fst snd]. rewrite (dist_rigid c s t unit).
      generalize (dist p q). intros d. destruct p as [a b], q as [a' b'], t as [t1 t2]. unfold rigid, px, py, P. simpl. field. }
    apply pt_eq.
    + change (Lx (map g l) / perimeter l = c * (Lx l / perimeter l) - s * (Ly l / perimeter l) + px t). rewrite X. field. auto.
    + change (Ly (map g l) / perimeter l = s * (Lx l / perimeter l) + c * (Ly l / perimeter l) + py t). rewrite Y. field. auto.
  - apply pt_eq.
    + change (Mx (map g l) / (3 * shoelace l) = c * (Mx l / (3 * shoelace l)) - s * (My l / (3 * shoelace l)) + px t).
      rewrite rigid_comp, Mx_tr, Mx_rot, shoelace_rigid by assumption. field. auto.
    + change (My (map g l) / (3 * shoelace l) = s * (Mx l / (3 * shoelace l)) + c * (My l / (3 * shoelace l)) + py t).
      rewrite rigid_comp, My_tr, My_rot, shoelace_rigid by assumption. field. auto.
Qed.

Lemma moi_rigid l : perimeter l <> 0 -> moi_of (map g l) = moi_of l.
Proof.
  intros HP. unfold moi_of. rewrite (cofm_rigid l HP), shoelace_rigid by assumption.
  destruct (Req_EM_T (shoelace l) 0) as [E|E]; auto.
  rewrite rigid_comp, M12_tr, M12_rot, Mx_rot, My_rot, shoelace_rigid by assumption.
  unfold cofm_of. destruct (Req_EM_T (shoelace l) 0) as [|_]; [contradiction|].
  set (A := shoelace l) in *. set (X := Mx l). set (Y := My l). clearbody A X Y.
  destruct t as [t1 t2]. unfold rigid, px, py, P. simpl.
  transitivity (M12 l / 12 - (c*c+s*s) * (A * (X / (3 * A) * (X / (3 * A)) + Y / (3 * A) * (Y / (3 * A))))); [field; auto|].
  rewrite unit. ring.
Qed.
End Both.

(** * Bodies *)

Section Bodies.
Variable inf : R.
Notation refresh := (refresh (K:=RNum) inf).
Notation move := (move (K:=RNum) inf cos sin).

Lemma update_nonempty (l : list (att RNum)) : l <> [] -> update_segments l <> [].
Proof. destruct l as [|a [|b t]]; intros H; try congruence; unfold update_segments, nexts; simpl; discriminate. Qed.

Lemma corners_refresh b : corners (refresh b) = corners b.
Proof.
  unfold corners, refresh, Model.refresh, fill_properties. cbn [set_alist alist].
  destruct (update_segments (alist b)) eqn:E.
  - cbn [alist]. rewrite <- E. apply update_corners.
  - destruct (fill_cofm (a :: l)). cbn [alist]. rewrite <- E. apply update_corners.
Qed.

Lemma refresh_props b : perimeter (corners b) <> 0 ->
  slen (refresh b) = perimeter (corners b) /\ area (refresh b) = shoelace (corners b) /\
  cofm (refresh b) = cofm_of (corners b) /\ moi (refresh b) = moi_of (corners b) /\
  get_axis (refresh b) = get_axis b.
Proof.
  intros HP. unfold refresh, Model.refresh, fill_properties. cbn [set_alist alist].
  assert (N : alist b <> []).
  { intros E. apply HP. unfold corners. rewrite E. reflexivity. }
  apply update_nonempty in N.
  destruct (update_segments (alist b)) eqn:E; [congruence|]. rewrite <- E.
  rewrite (cofm_correct (alist b) HP).
  cbn [slen area cofm moi]. rewrite slen_perimeter, area_shoelace. repeat split; reflexivity.
Qed.

(** Degenerate bodies still report area and length. *)
Lemma refresh_area b : area (refresh b) = shoelace (corners b) /\ slen (refresh b) = perimeter (corners b).
Proof.
  unfold refresh, Model.refresh, fill_properties. cbn [set_alist alist].
  destruct (update_segments (alist b)) eqn:E.
  - destruct (alist b) as [|a t] eqn:Ea.
    + unfold corners. rewrite Ea. cbn. split; [unfold shoelace|]; unfold edges, total; simpl; auto. lra.
    + exfalso. eapply update_nonempty; [|exact E]. discriminate.
  - destruct (fill_cofm (a :: l)). cbn [area slen]. rewrite <- E. rewrite slen_perimeter, area_shoelace. auto.
Qed.

Lemma sin_cos_unit a : cos a * cos a + sin a * sin a = 1.
Proof. pose proof (sin2_cos2 a) as H. unfold Rsqr in H. lra. Qed.

(** What one motion does to the corners: rotation about the axis, then translation. *)
Definition motion (axis d : pt) (a : R) : pt -> pt :=
  rigid (cos a) (sin a) (P (px axis + px d - (cos a * px axis - sin a * py axis))
                           (py axis + py d - (sin a * px axis + cos a * py axis))).

Lemma move_corners dh db b :
  corners (move dh db b) = map (motion (get_axis b) (r3 db) (o3 db)) (corners b).
Proof.
  unfold Model.move. rewrite corners_refresh. unfold corners. cbn [alist]. rewrite !map_map.
  apply map_ext. intros a. cbn [corner]. apply pt_eq; unfold motion, rigid, px, py, P; simpl; ring.
Qed.

Lemma axis_refresh b : get_axis (refresh b) = get_axis b.
Proof.
  unfold get_axis, refresh, Model.refresh, fill_properties. cbn [set_alist alist].
  destruct (update_segments (alist b)); [reflexivity|]. destruct (fill_cofm _). reflexivity.
Qed.

Lemma move_axis dh db b : px (get_axis (move dh db b)) = px (get_axis b) + px (r3 db) /\
  py (get_axis (move dh db b)) = py (get_axis b) + py (r3 db).
Proof.
  unfold Model.move. rewrite axis_refresh. unfold get_axis, px, py. simpl. split; ring.
Qed.

Lemma move_props dh db b : perimeter (corners b) <> 0 ->
  let b' := move dh db b in
  slen b' = perimeter (corners b) /\ area b' = shoelace (corners b) /\ moi b' = moi_of (corners b) /\
  cofm b' = motion (get_axis b) (r3 db) (o3 db) (cofm_of (corners b)).
Proof.
  intros HP b'. pose proof (move_corners dh db b) as C. unfold b', Model.move in *. rewrite corners_refresh in C.
  match goal with |- slen (Model.refresh inf ?m) = _ /\ _ => set (m0 := m) in * end.
  unfold motion in C.
  assert (HP' : perimeter (corners m0) <> 0) by (rewrite C, perimeter_rigid by apply sin_cos_unit; exact HP).
  destruct (refresh_props m0 HP') as (H1 & H2 & H3 & H4 & _).
  rewrite H1, H2, H3, H4, C, perimeter_rigid, shoelace_rigid, moi_rigid, cofm_rigid by (assumption || apply sin_cos_unit).
  auto.
Qed.

(** A sequence of motions. *)
Definition moves (ds : list (vec3 RNum * vec3 RNum)) (b : body RNum) : body RNum :=
  fold_left (fun b d => move (fst d) (snd d) b) ds b.

Lemma rigid_rigid c1 s1 t1 c2 s2 t2 (p : pt) :
  rigid c2 s2 t2 (rigid c1 s1 t1 p) = rigid (c2*c1 - s2*s1) (s2*c1 + c2*s1) (rigid c2 s2 t2 t1) p.
Proof. destruct p, t1, t2. apply pt_eq; unfold rigid, px, py, P; simpl; ring. Qed.

Lemma unit_prod c1 s1 c2 s2 : c1*c1+s1*s1 = 1 -> c2*c2+s2*s2 = 1 ->
  (c2*c1 - s2*s1)*(c2*c1 - s2*s1) + (s2*c1 + c2*s1)*(s2*c1 + c2*s1) = 1.
Proof. intros H1 H2. transitivity ((c1*c1+s1*s1)*(c2*c2+s2*s2)); [ring|rewrite H1, H2; ring]. Qed.

Lemma moves_props ds : forall b0, perimeter (corners b0) <> 0 -> exists c s t,
  c * c + s * s = 1 /\
  let b := refresh b0 in
  let b' := moves ds b in
  corners b' = map (rigid c s t) (corners b) /\
  slen b' = slen b /\ area b' = area b /\ moi b' = moi b /\ cofm b' = rigid c s t (cofm b) /\
  px (get_axis b') = px (get_axis b) + total (fun d => px (r3 (snd d))) ds /\
  py (get_axis b') = py (get_axis b) + total (fun d => py (r3 (snd d))) ds.
Proof.
  induction ds as [|[dh db] ds IH]; intros b0 HP.
  - exists 1, 0, (P 0 0). split; [ring|]. cbv zeta. unfold moves. cbn [fold_left].
    assert (ID : forall p, rigid 1 0 (P 0 0) p = p) by (intros [a b]; apply pt_eq; unfold rigid, px, py, P; simpl; ring).
    rewrite (map_ext _ (fun p => p)), map_id by exact ID. rewrite ID. unfold total; simpl. repeat split; auto; ring.
  - set (b := refresh b0).
    assert (HPb : perimeter (corners b) <> 0) by (unfold b; rewrite corners_refresh; exact HP).
    pose proof (move_corners dh db b) as MC. pose proof (move_axis dh db b) as [MX MY].
    destruct (move_props dh db b HPb) as (M1 & M2 & M3 & M4).
    (* the moved body is a refreshed one *)
    set (m := mkBody (map (fun a : att RNum => mkAtt (move_corner (get_axis b) (r3 db) (cos (o3 db)) (sin (o3 db)) (corner a)) (slip a) (dl a) (r a) (eps1 a)) (alist b))
      (mkVec3 (vadd (r3 (holder b)) (r3 dh)) (o3 (holder b) + o3 dh))%num
      (mkVec3 (vadd (r3 (dpos b)) (vsub (r3 db) (r3 dh))) (o3 (dpos b) + (o3 db - o3 dh)))%num
      (speed_slae b) (speed_slae b) (slip_ b) (slen b) (area b) (cofm b) (moi b) (disc_r2 b) (rect_bl b) (rect_tr b) (heat_layer b)).
    assert (EM : move dh db b = refresh m) by reflexivity.
    assert (HPm : perimeter (corners m) <> 0).
    { rewrite <- (corners_refresh m), <- EM, MC. unfold motion. rewrite perimeter_rigid by apply sin_cos_unit. exact HPb. }
    destruct (IH m HPm) as (c & s & t & U & I). rewrite <- EM in I. cbv zeta in I.
    destruct I as (I1 & I2 & I3 & I4 & I5 & I6 & I7).
    destruct (refresh_props b0 HP) as (R1 & R2 & R3 & R4 & _). fold b in R1, R2, R3, R4.
    assert (CB : corners b = corners b0) by apply corners_refresh.
    unfold motion in MC, M4. rewrite CB in M1, M2, M3, M4.
    set (u := P _ _) in *.
    exists (c * cos (o3 db) - s * sin (o3 db)), (s * cos (o3 db) + c * sin (o3 db)), (rigid c s t u).
    split; [apply unit_prod; auto; apply sin_cos_unit|]. cbv zeta. cbn [moves fold_left fst snd].
    fold (moves ds (move dh db b)).
    split; [|split; [|split; [|split; [|split]]]].
    + rewrite I1, MC, map_map. apply map_ext. intros p. apply rigid_rigid.
    + congruence.
    + congruence.
    + congruence.
    + rewrite I5, M4, R3, rigid_rigid. reflexivity.
    + unfold total in *. cbn [fold_right fst snd]. rewrite I6, I7, MX, MY. split; ring.
Qed.
End Bodies.
