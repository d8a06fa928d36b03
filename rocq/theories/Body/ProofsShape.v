(** Area, centre of mass and moment of inertia of triangles and of cut polygons. *)

From Coq Require Import ZArith Bool List Permutation Reals Lra Lia.
From Verif.Base Require Import Num.
From Verif.Body Require Import Model Spec ProofsGeom ProofsBody.
Import ListNotations.
Local Open Scope R_scope.

Lemma total_nonneg {A} (f : A -> R) l : (forall e, In e l -> 0 <= f e) -> 0 <= total f l.
Proof. unfold total. induction l; intros H; simpl; [lra|]. pose proof (H a (or_introl eq_refl)). assert (0 <= fold_right (fun e s => f e + s) 0 l) by (apply IHl; intros; apply H; right; auto). lra. Qed.

Lemma total_zero {A} (f : A -> R) l : (forall e, In e l -> 0 <= f e) -> total f l = 0 -> forall e, In e l -> f e = 0.
Proof.
  induction l as [|b t IH]; intros H E e I; [contradiction|].
  assert (0 <= total f t) by (apply total_nonneg; intros; apply H; right; auto).
  pose proof (H b (or_introl eq_refl)). unfold total in *. simpl in E.
  destruct I as [<-|I]; [lra|]. apply IH; auto; [intros; apply H; right; auto|lra].
Qed.

Lemma dist_zero p q : dist p q = 0 -> p = q.
Proof.
  unfold dist. intros H. apply sqrt_eq_0 in H.
  - pose proof (Rle_0_sqr (px q - px p)) as A. pose proof (Rle_0_sqr (py q - py p)) as B. unfold Rsqr in *.
    apply pt_eq; symmetry; apply Rminus_diag_uniq; apply Rsqr_0_uniq; unfold Rsqr; lra.
  - pose proof (Rle_0_sqr (px q - px p)) as A. pose proof (Rle_0_sqr (py q - py p)) as B. unfold Rsqr in *. lra.
Qed.

(** A polygon with area has a boundary. *)
Lemma area_perimeter l : shoelace l <> 0 -> perimeter l <> 0.
Proof.
  intros N E. apply N. rewrite shoelace_crs. clear N. unfold perimeter in E.
  assert (Z : forall e, In e (edges l) -> dist (fst e) (snd e) = 0).
  { apply total_zero with (f := fun e => dist (fst e) (snd e)); auto. intros e _. apply sqrt_pos. }
  rewrite (total_ext _ (fun _ => 0)).
  - clear. unfold total. induction (edges l); simpl; lra.
  - intros [p q] I. pose proof (Z _ I) as D. cbn [fst snd] in D. apply dist_zero in D. subst q. unfold crs. simpl. ring.
Qed.

Lemma glue_M (k : pt -> pt -> R) a l1 b l2 : (forall p q, k p q = k q p) ->
  total (fun e => - (k (fst e) (snd e) * crs e)) (edges (a :: l1 ++ b :: l2)) =
  total (fun e => - (k (fst e) (snd e) * crs e)) (edges (a :: l1 ++ [b])) +
  total (fun e => - (k (fst e) (snd e) * crs e)) (edges (a :: b :: l2)).
Proof.
  intros S. apply edges_glue. intros p q. cbn [fst snd]. rewrite (S q p). unfold crs. simpl. ring.
Qed.

Lemma cut_area a l1 b l2 :
  shoelace (a :: l1 ++ b :: l2) = shoelace (a :: l1 ++ [b]) + shoelace (a :: b :: l2).
Proof. rewrite !shoelace_crs. apply edges_glue. intros p q. unfold crs. simpl. ring. Qed.

(** First moments and the moment about the origin. *)
Lemma moment_x l : shoelace l <> 0 -> shoelace l * px (cofm_of l) = Mx l / 3.
Proof. intros N. unfold cofm_of. destruct (Req_EM_T (shoelace l) 0); [contradiction|]. change (px (P ?a ?b)) with a. unfold px, P; simpl. field. auto. Qed.
Lemma moment_y l : shoelace l <> 0 -> shoelace l * py (cofm_of l) = My l / 3.
Proof. intros N. unfold cofm_of. destruct (Req_EM_T (shoelace l) 0); [contradiction|]. unfold py, P; simpl. field. auto. Qed.
Lemma moment_0 l : shoelace l <> 0 ->
  moi_of l + shoelace l * (px (cofm_of l) * px (cofm_of l) + py (cofm_of l) * py (cofm_of l)) = M12 l / 12.
Proof. intros N. unfold moi_of. destruct (Req_EM_T (shoelace l) 0); [contradiction|]. ring. Qed.

Lemma cut_Mx a l1 b l2 : Mx (a :: l1 ++ b :: l2) = Mx (a :: l1 ++ [b]) + Mx (a :: b :: l2).
Proof. apply (glue_M (fun p q => (px p + px q) / 2)). intros. lra. Qed.
Lemma cut_My a l1 b l2 : My (a :: l1 ++ b :: l2) = My (a :: l1 ++ [b]) + My (a :: b :: l2).
Proof. apply (glue_M (fun p q => (py p + py q) / 2)). intros. lra. Qed.
Lemma cut_M12 a l1 b l2 : M12 (a :: l1 ++ b :: l2) = M12 (a :: l1 ++ [b]) + M12 (a :: b :: l2).
Proof. apply (glue_M (fun p q => px p * px p + py p * py p + (px p * px q + py p * py q) + (px q * px q + py q * py q))). intros. ring. Qed.

(** A triangle: the centre of mass is the mean of the corners and the moment is
    area times the sum of squared sides over 36. *)
Lemma triangle_cofm a b c : shoelace [a; b; c] <> 0 ->
  cofm_of [a; b; c] = P ((px a + px b + px c) / 3) ((py a + py b + py c) / 3).
Proof.
  intros N. apply pt_eq; apply (Rmult_eq_reg_l (shoelace [a; b; c])); auto;
    [rewrite moment_x by auto|rewrite moment_y by auto]; rewrite shoelace_crs; unfold Mx, My, crs, edges, total; simpl;
    destruct a, b, c; unfold px, py, P; simpl; field.
Qed.

Definition sq (p q : pt) : R := (px q - px p) * (px q - px p) + (py q - py p) * (py q - py p).

Lemma triangle_moi a b c : shoelace [a; b; c] <> 0 ->
  moi_of [a; b; c] = shoelace [a; b; c] * (sq a b + sq b c + sq c a) / 36.
Proof.
  intros N. pose proof (moment_0 _ N) as M. rewrite (triangle_cofm a b c N) in M.
  apply (Rplus_eq_reg_r (shoelace [a; b; c] * (px (P ((px a + px b + px c) / 3) ((py a + py b + py c) / 3)) * px (P ((px a + px b + px c) / 3) ((py a + py b + py c) / 3)) + py (P ((px a + px b + px c) / 3) ((py a + py b + py c) / 3)) * py (P ((px a + px b + px c) / 3) ((py a + py b + py c) / 3))))).
  rewrite M. rewrite shoelace_crs. unfold M12, crs, edges, total, sq. simpl.
  destruct a, b, c; unfold px, py, P; simpl; field.
Qed.

(** Reversal and another first corner. *)
Lemma shoelace_rev l : shoelace (rev l) = - shoelace l.
Proof.
  rewrite !shoelace_crs, (total_perm _ _ _ (edges_rev l)), total_map.
  replace (- total (fun e => -(1/2) * crs e) (edges l)) with ((-1) * total (fun e => -(1/2) * crs e) (edges l)) by ring.
  rewrite <- total_scale. apply total_ext. intros [p q] _. unfold flip, crs. simpl. ring.
Qed.

Lemma perimeter_rot l1 l2 : perimeter (l1 ++ l2) = perimeter (l2 ++ l1).
Proof. apply total_perm, edges_rotations. Qed.
Lemma shoelace_rotate l1 l2 : shoelace (l1 ++ l2) = shoelace (l2 ++ l1).
Proof. rewrite !shoelace_crs. apply total_perm, edges_rotations. Qed.
Lemma cofm_rotate l1 l2 : cofm_of (l1 ++ l2) = cofm_of (l2 ++ l1).
Proof.
  unfold cofm_of, Lx, Ly, Mx, My. rewrite (shoelace_rotate l1 l2), (perimeter_rot l1 l2).
  rewrite !(total_perm _ _ _ (edges_rotations l1 l2)). reflexivity.
Qed.
Lemma moi_rotate l1 l2 : moi_of (l1 ++ l2) = moi_of (l2 ++ l1).
Proof.
  unfold moi_of, M12. rewrite (cofm_rotate l1 l2), (shoelace_rotate l1 l2), (total_perm _ _ _ (edges_rotations l1 l2)). reflexivity.
Qed.

(** The segments of a refreshed body. *)
Lemma segments_corner (f : att RNum -> R) (G : pt * pt -> R) (l : list (att RNum)) :
  (forall a b : att RNum, f (segment (a, b)) = G (corner a, corner b)) ->
  total f (update_segments l) = total G (edges (cs l)).
Proof.
  intros H. unfold update_segments. rewrite total_map, nexts_edges. unfold cs. rewrite edges_map, total_map.
  apply total_ext. intros [a b] _. apply H.
Qed.
