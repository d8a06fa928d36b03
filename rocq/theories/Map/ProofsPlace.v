(** Moving the flow moves tree and particles and keeps velocities and radii. *)

From Coq Require Import ZArith Bool List Lia Permutation Reals Lra.
From Verif.Base Require Import Num.
From Verif.Body Require Import Model Spec.
From Verif.Tree Require Import Model Spec Proofs ProofsNum.
From Verif.Vortex Require Import Model ModelFar ProofsKernel.
From Verif.Map Require Import Model ModelLinear ModelPlace SpecPlace.
From Verif.Tree Require Import Model.
Import ListNotations.
Local Open Scope R_scope.

(** ** Partition *)

Section Parts.
Context {A B : Type} (f : A -> B) (lo hi : A -> bool) (lo' hi' : B -> bool).
Hypothesis Hlo : forall a, lo' (f a) = lo a.
Hypothesis Hhi : forall a, hi' (f a) = hi a.

Lemma scan_up_map fuel : forall l p, scan_up lo' fuel (map f l) p = scan_up lo fuel l p.
Proof.
  induction fuel as [|k IH]; intros l p; [reflexivity|]. cbn [scan_up]. rewrite nth_error_map.
  destruct (nth_error l p); cbn [option_map]; [|reflexivity]. rewrite Hlo, IH. reflexivity.
Qed.
Lemma scan_down_map l q : scan_down hi' (map f l) q = scan_down hi l q.
Proof.
  induction q as [|k IH]; [reflexivity|]. cbn [scan_down]. rewrite nth_error_map.
  destruct (nth_error l k); cbn [option_map]; [|reflexivity]. rewrite Hhi, IH. reflexivity.
Qed.
Lemma set_nth_map l : forall k v, set_nth (map f l) k (f v) = map f (set_nth l k v).
Proof. induction l as [|a l IH]; intros [|k] v; cbn; [reflexivity..|]. rewrite IH. reflexivity. Qed.
Lemma swap_map l i j : swap (map f l) i j = map f (swap l i j).
Proof.
  unfold swap. rewrite !nth_error_map. destruct (nth_error l i), (nth_error l j); cbn [option_map]; try reflexivity.
  rewrite !set_nth_map. reflexivity.
Qed.
Lemma partition_map fuel : forall l p q, partition_loop lo' hi' fuel (map f l) p q =
  let '(l', k) := partition_loop lo hi fuel l p q in (map f l', k).
Proof.
  induction fuel as [|k IH]; intros l p q; [reflexivity|]. cbn [partition_loop]. destruct (Nat.ltb p q); [|reflexivity].
  cbv zeta. rewrite map_length, scan_up_map, scan_down_map. destruct (Nat.ltb _ _); [|reflexivity].
  rewrite swap_map, IH. reflexivity.
Qed.
Lemma distribute_map l : distribute lo' hi' (map f l) = (map f (fst (distribute lo hi l)), map f (snd (distribute lo hi l))).
Proof.
  unfold distribute. rewrite map_length, partition_map. destruct (partition_loop lo hi _ l 0 _) as [l' k].
  cbn [fst snd]. rewrite firstn_map, skipn_map. reflexivity.
Qed.
Lemma filter_map' l : filter lo' (map f l) = map f (filter lo l).
Proof. induction l as [|a l IH]; [reflexivity|]. cbn. rewrite Hlo. destruct (lo a); cbn; rewrite IH; reflexivity. Qed.
End Parts.
Lemma distribute_list_map {A B} (f : A -> B) lo lo' (H : forall a, lo' (f a) = lo a) l :
  distribute_list lo' (map f l) = (map f (fst (distribute_list lo l)), map f (snd (distribute_list lo l))).
Proof.
  unfold distribute_list. cbn [fst snd]. rewrite (filter_map' f lo lo' H). f_equal.
  apply filter_map'. intros a. rewrite H. reflexivity.
Qed.

Section Moved.
Variable d : vec RNum.
Notation mo := (obj_at d).

Lemma ltb_plus (a b c : R) : Rltb (a + c) (b + c) = Rltb a b.
Proof.
  destruct (Rltb a b) eqn:E; [apply Rltb_true in E; apply Rltb_true; lra|apply Rltb_false in E; apply Rltb_false; lra].
Qed.
Lemma leb_plus (a b c : R) : Rleb (a + c) (b + c) = Rleb a b.
Proof.
  destruct (Rleb a b) eqn:E; [apply Rleb_true in E; apply Rleb_true; lra|].
  destruct (Rleb (a + c) (b + c)) eqn:F; [|reflexivity]. apply Rleb_true in F. rewrite <- E. symmetry. apply Rleb_true. lra.
Qed.
Lemma below_at n o : below (K:=RNum) (node_at d n) (mo o) = below (K:=RNum) n o.
Proof.
  unfold below. cbn [nh nw nx ny node_at rx ry obj_at]. change (@nltb RNum) with Rltb. rewrite !ltb_plus. reflexivity.
Qed.
Lemma above_at n o : above (K:=RNum) (node_at d n) (mo o) = above (K:=RNum) n o.
Proof.
  unfold above. cbn [nh nw nx ny node_at rx ry obj_at]. change (@nleb RNum) with Rleb. rewrite !leb_plus. reflexivity.
Qed.

(** ** Boxes *)

Lemma cmax_plus (a b c : R) : cmax (K:=RNum) (a + c) (b + c) = (cmax (K:=RNum) a b + c)%R.
Proof. unfold cmax. change (@nltb RNum) with Rltb. rewrite ltb_plus. destruct (Rltb a b); reflexivity. Qed.
Lemma cmin_plus (a b c : R) : cmin (K:=RNum) (a + c) (b + c) = (cmin (K:=RNum) a b + c)%R.
Proof. unfold cmin. change (@nltb RNum) with Rltb. rewrite ltb_plus. destruct (Rltb b a); reflexivity. Qed.

Section Fold.
Variables (f : obj RNum -> R) (c : R).
Hypothesis Hf : forall o, f (mo o) = f o + c.
Lemma max_plus l : forall a, fold_left (fun a o => cmax (K:=RNum) a (f o)) (map mo l) (a + c) =
  fold_left (fun a o => cmax (K:=RNum) a (f o)) l a + c.
Proof. induction l as [|o l IH]; intros a; [reflexivity|]. cbn [map fold_left]. rewrite Hf, cmax_plus. apply IH. Qed.
Lemma min_plus l : forall a, fold_left (fun a o => cmin (K:=RNum) a (f o)) (map mo l) (a + c) =
  fold_left (fun a o => cmin (K:=RNum) a (f o)) l a + c.
Proof. induction l as [|o l IH]; intros a; [reflexivity|]. cbn [map fold_left]. rewrite Hf, cmin_plus. apply IH. Qed.

Lemma abs_in (a b : R) : Rabs a <= b -> - b <= a <= b.
Proof. unfold Rabs. destruct (Rcase_abs a); lra. Qed.
Variable big : R.
Lemma max_at l : l <> [] -> (forall o, In o l -> Rabs (f o) <= big /\ Rabs (f (mo o)) <= big) ->
  fold_left (fun a o => cmax (K:=RNum) a (f o)) (map mo l) (- big) = fold_left (fun a o => cmax (K:=RNum) a (f o)) l (- big) + c.
Proof.
  destruct l as [|o l]; [congruence|]. intros _ H. cbn [map fold_left]. destruct (H o (or_introl eq_refl)) as [B1 B2].
  apply abs_in in B1, B2. rewrite Hf in *.
  assert (E : forall q, - big <= q -> cmax (K:=RNum) (- big) q = q).
  { intros q Q. unfold cmax. change (@nltb RNum) with Rltb. destruct (Rltb (- big) q) eqn:L; [reflexivity|]. apply Rltb_false in L. change (Num.T RNum) with R in *. lra. }
  rewrite (E (f o + c)), (E (f o)) by lra. apply max_plus.
Qed.
Lemma min_at l : l <> [] -> (forall o, In o l -> Rabs (f o) <= big /\ Rabs (f (mo o)) <= big) ->
  fold_left (fun a o => cmin (K:=RNum) a (f o)) (map mo l) big = fold_left (fun a o => cmin (K:=RNum) a (f o)) l big + c.
Proof.
  destruct l as [|o l]; [congruence|]. intros _ H. cbn [map fold_left]. destruct (H o (or_introl eq_refl)) as [B1 B2].
  apply abs_in in B1, B2. rewrite Hf in *.
  assert (E : forall q, q <= big -> cmin (K:=RNum) big q = q).
  { intros q Q. unfold cmin. change (@nltb RNum) with Rltb. destruct (Rltb q big) eqn:L; [reflexivity|]. apply Rltb_false in L. change (Num.T RNum) with R in *. lra. }
  rewrite (E (f o + c)), (E (f o)) by lra. apply min_plus.
Qed.
End Fold.

Variables big minSize maxSize : R.
Definition both (l : list (obj RNum)) : Prop := in_range big l /\ in_range big (map mo l).
Lemma both_in l : both l -> forall o, In o l -> (Rabs (rx o) <= big /\ Rabs (rx (mo o)) <= big) /\ (Rabs (ry o) <= big /\ Rabs (ry (mo o)) <= big).
Proof. intros [H1 H2] o Ho. destruct (H1 o Ho). destruct (H2 (mo o) (in_map mo l o Ho)). auto. Qed.

Lemma stretch_at b v h s : b ++ v ++ h ++ s <> [] -> both (b ++ v ++ h ++ s) ->
  stretch (K:=RNum) big (map mo b) (map mo v) (map mo h) (map mo s) = node_at d (stretch (K:=RNum) big b v h s).
Proof.
  intros N B. pose proof (both_in _ B) as C. unfold stretch. rewrite <- !map_app. cbv zeta.
  set (l := b ++ v ++ h ++ s) in *. clearbody l.
  change (@nopp RNum big) with (- big)%R.
  rewrite (max_at (fun o => rx o) (x d) ltac:(reflexivity) big l N) by (intros; apply C; assumption).
  rewrite (max_at (fun o => ry o) (y d) ltac:(reflexivity) big l N) by (intros; apply C; assumption).
  rewrite (min_at (fun o => rx o) (x d) ltac:(reflexivity) big l N) by (intros; apply C; assumption).
  rewrite (min_at (fun o => ry o) (y d) ltac:(reflexivity) big l N) by (intros; apply C; assumption).
  assert (Hh : @half RNum = 1 / 2) by (unfold half; unr; reflexivity). rewrite Hh.
  unfold node_at. cbn [nx ny nh nw]. unr. change (Num.T RNum) with R in *. f_equal; lra.
Qed.

Lemma bottom_at n b v h s : is_bottom (K:=RNum) minSize maxSize (node_at d n) (map mo b) (map mo v) (map mo h) (map mo s) =
  is_bottom (K:=RNum) minSize maxSize n b v h s.
Proof. unfold is_bottom. rewrite !map_length. reflexivity. Qed.

Hypotheses (Hbig : 0 < big) (Hmin : 0 <= minSize) (Hmax : 0 < maxSize).

Lemma divide_at fuel : forall b v h s, b ++ v ++ h ++ s <> [] -> both (b ++ v ++ h ++ s) ->
  divide (K:=RNum) big minSize maxSize fuel (node_at d (stretch (K:=RNum) big b v h s)) (map mo b) (map mo v) (map mo h) (map mo s) =
  option_map (tree_at d) (divide (K:=RNum) big minSize maxSize fuel (stretch (K:=RNum) big b v h s) b v h s).
Proof.
  induction fuel as [|k IH]; intros b v h s N B; cbn [divide]; rewrite bottom_at;
    destruct (is_bottom _ _ (stretch (K:=RNum) big b v h s) b v h s) eqn:BOT; try reflexivity.
  pose proof (r_splits big minSize maxSize Hbig Hmin Hmax b v h s) as SP.
  cbv zeta in SP. set (n := stretch (K:=RNum) big b v h s) in *.
  rewrite (distribute_map mo (below n) (above n) _ _ (below_at n) (above_at n) v).
  rewrite (distribute_map mo (below n) (above n) _ _ (below_at n) (above_at n) h).
  rewrite (distribute_map mo (below n) (above n) _ _ (below_at n) (above_at n) s).
  rewrite (distribute_list_map mo (below n) _ (below_at n) b).
  assert (EX : forall e, above n e = true -> below n e = false) by (apply excl_node; apply r_excl).
  pose proof (distribute_ok (below n) (above n) EX v) as Dv. pose proof (distribute_ok (below n) (above n) EX h) as Dh.
  pose proof (distribute_ok (below n) (above n) EX s) as Ds. pose proof (distribute_list_ok (below n) b) as Db.
  destruct (distribute (below n) (above n) v) as [v1 v2]. destruct (distribute (below n) (above n) h) as [h1 h2].
  destruct (distribute (below n) (above n) s) as [s1 s2]. destruct (distribute_list (below n) b) as [b1 b2].
  cbn [fst snd].
  destruct (Dv _ _ eq_refl) as (Pv & Fv1 & Fv2). destruct (Dh _ _ eq_refl) as (Ph & Fh1 & Fh2).
  destruct (Ds _ _ eq_refl) as (Ps & Fs1 & Fs2). destruct (Db _ _ eq_refl) as (Pb & Fb1 & Fb2).
  clear Dv Dh Ds Db.
  assert (I : forall o, In o (b ++ v ++ h ++ s) <-> In o (b1 ++ v1 ++ h1 ++ s1) \/ In o (b2 ++ v2 ++ h2 ++ s2)).
  { intros o. rewrite !in_app_iff. rewrite Pv, Ph, Ps, Pb, !in_app_iff. tauto. }
  assert (F1 : forall o, In o (b1 ++ v1 ++ h1 ++ s1) -> below n o = true).
  { intros o. rewrite !in_app_iff. rewrite Forall_forall in *. intros [Q|[Q|[Q|Q]]]; auto. }
  assert (F2 : forall o, In o (b2 ++ v2 ++ h2 ++ s2) -> below n o = false).
  { intros o. rewrite !in_app_iff. rewrite Forall_forall in *. intros [Q|[Q|[Q|Q]]]; auto. }
  destruct SP as [(o1 & O1 & L1) (o2 & O2 & L2)].
  { apply Forall_forall. intros o Ho. exact (proj1 B o Ho). }
  { exact BOT. }
  assert (N1 : b1 ++ v1 ++ h1 ++ s1 <> []).
  { intros E. apply I in O1. destruct O1 as [O1|O1]; [rewrite E in O1; destruct O1|]. apply F2 in O1. congruence. }
  assert (N2 : b2 ++ v2 ++ h2 ++ s2 <> []).
  { intros E. apply I in O2. destruct O2 as [O2|O2]; [|rewrite E in O2; destruct O2]. apply F1 in O2. congruence. }
  assert (sub : forall l, (forall o, In o l -> In o (b ++ v ++ h ++ s)) -> both l).
  { intros l Hl. destruct B as [B1 B2]. split; [intros o Ho; apply B1, Hl, Ho|].
    intros o Ho. apply in_map_iff in Ho. destruct Ho as (q & <- & Hq). apply B2, in_map, Hl, Hq. }
  assert (B1 : both (b1 ++ v1 ++ h1 ++ s1)) by (apply sub; intros o Ho; apply I; auto).
  assert (B2 : both (b2 ++ v2 ++ h2 ++ s2)) by (apply sub; intros o Ho; apply I; auto).
  rewrite (stretch_at _ _ _ _ N1 B1), (stretch_at _ _ _ _ N2 B2), (IH _ _ _ _ N1 B1), (IH _ _ _ _ N2 B2).
  destruct (divide _ _ _ k (stretch (K:=RNum) big b1 v1 h1 s1) b1 v1 h1 s1); [|reflexivity].
  destruct (divide _ _ _ k (stretch (K:=RNum) big b2 v2 h2 s2) b2 v2 h2 s2); reflexivity.
Qed.

Lemma build_at fuel b v h s : b ++ v ++ h ++ s <> [] -> both (b ++ v ++ h ++ s) ->
  build (K:=RNum) big minSize maxSize fuel (map mo b) (map mo v) (map mo h) (map mo s) =
  option_map (tree_at d) (build (K:=RNum) big minSize maxSize fuel b v h s).
Proof. intros N B. unfold build. rewrite (stretch_at _ _ _ _ N B). apply divide_at; assumption. Qed.

(** ** Names of nodes, look-up *)

Lemma node_of_at t : node_of (tree_at d t) = node_at d (node_of t).
Proof. destruct t; reflexivity. Qed.

Lemma far_at k n m : far (K:=RNum) k (node_at d n) (node_at d m) = far (K:=RNum) k n m.
Proof.
  unfold far. cbn [nx ny nh nw node_at]. change (@nsub RNum) with Rminus. change (@nltb RNum) with Rltb. cbv zeta.
  assert (E : forall a b c : R, a + c - (b + c) = a - b) by (intros; lra). rewrite !E. reflexivity.
Qed.

Lemma find_near_at k n t : forall path, find_near (far (K:=RNum) k (node_at d n)) path (tree_at d t) = find_near (far (K:=RNum) k n) path t.
Proof.
  induction t as [m b v h s|m t1 IH1 t2 IH2]; intros path; cbn [tree_at find_near node_of].
  - rewrite far_at. reflexivity.
  - rewrite far_at, IH1, IH2. reflexivity.
Qed.

Lemma subtree_at t : forall path, subtree (tree_at d t) path = option_map (tree_at d) (subtree t path).
Proof.
  induction t as [m b v h s|m t1 IH1 t2 IH2]; intros [|[] path]; cbn [tree_at subtree option_map]; auto.
Qed.

Lemma nodes_at t names : nodes (tree_at d t) names = map (tree_at d) (nodes t names).
Proof.
  unfold nodes. induction names as [|p l IH]; [reflexivity|]. cbn [flat_map]. rewrite map_app, IH, subtree_at.
  destruct (subtree t p); reflexivity.
Qed.

Lemma leaves_at t : leaves (tree_at d t) = map (tree_at d) (leaves t).
Proof. induction t as [m b v h s|m t1 IH1 t2 IH2]; cbn [tree_at leaves]; [reflexivity|]. rewrite IH1, IH2, map_app. reflexivity. Qed.
Lemma leaf_v_at t : leaf_v (tree_at d t) = map mo (leaf_v t).
Proof. destruct t; reflexivity. Qed.

Lemma below_nodes_at us : below_nodes (map (tree_at d) us) = map (part_at d) (below_nodes us).
Proof.
  unfold below_nodes. rewrite map_map.
  assert (E : forall u, flat_map leaf_v (leaves (tree_at d u)) = map mo (flat_map leaf_v (leaves u))).
  { intros u. rewrite leaves_at. induction (leaves u) as [|a l IH]; [reflexivity|]. cbn [map flat_map]. rewrite IH, leaf_v_at, map_app. reflexivity. }
  induction us as [|u us IH]; [reflexivity|]. cbn [map flat_map]. rewrite E, !map_app, IH, !map_map. reflexivity.
Qed.

Lemma find_node_at t p : find_node (K:=RNum) (tree_at d t) (x (at_ d p)) (y (at_ d p)) = tree_at d (find_node (K:=RNum) t (x p) (y p)).
Proof.
  induction t as [m b v h s|m t1 IH1 t2 IH2]; [reflexivity|]. cbn [tree_at find_node].
  cbn [nh nw nx ny node_at x y at_] in *. change (@nltb RNum) with Rltb in *. rewrite !ltb_plus, IH1, IH2.
  destruct (Rltb (nh m) (nw m)); [destruct (Rltb (x p) (nx m))|destruct (Rltb (y p) (ny m))]; reflexivity.
Qed.

(** ** Summaries *)

Definition mass_at (m : mass RNum) : mass RNum := @mkMass RNum (mx m + x d) (my m + y d) (mg m).

(** Sums before division: the first moment changes by the shift times the
    circulation. *)
Definition sum_at (m : mass RNum) : mass RNum := @mkMass RNum (mx m + x d * mg m) (my m + y d * mg m) (mg m).

Lemma mass_ext (a b : mass RNum) : (mx a = mx b :> R) -> (my a = my b :> R) -> (mg a = mg b :> R) -> a = b.
Proof. destruct a, b; cbn; intros -> -> ->; reflexivity. Qed.

Lemma add_obj_at m o : add_obj (K:=RNum) (sum_at m) (mo o) = sum_at (add_obj (K:=RNum) m o).
Proof. apply mass_ext; cbn [add_obj sum_at obj_at mx my mg rx ry g]; unr; change (Num.T RNum) with R in *; lra. Qed.

Lemma eqb_zero (a : R) : @neqb RNum a 0 = true <-> a = 0.
Proof.
  change (@neqb RNum a 0) with (Reqb a 0). apply Reqb_true.
Qed.
Lemma eqb_nonzero (a : R) : @neqb RNum a 0 = false -> a <> 0.
Proof. intros E H. apply eqb_zero in H. congruence. Qed.

Lemma centre_at n m : Tree.Model.centre (K:=RNum) (node_at d n) (sum_at m) = mass_at (Tree.Model.centre (K:=RNum) n m).
Proof.
  unfold Tree.Model.centre. cbn [sum_at mg]. change (@nofZ RNum 0) with 0.
  destruct (@neqb RNum (mg m) 0) eqn:E; [reflexivity|]. apply eqb_nonzero in E.
  apply mass_ext; cbn [mass_at sum_at mx my mg]; unr; change (Num.T RNum) with R in *; [field|field|reflexivity]; assumption.
Qed.

Lemma mass_leaf_at n v : mass_leaf (K:=RNum) (node_at d n) (map mo v) =
  (mass_at (fst (mass_leaf (K:=RNum) n v)), mass_at (snd (mass_leaf (K:=RNum) n v))).
Proof.
  unfold mass_leaf.
  set (st := fun '(p, m) (o : obj RNum) => if @nltb RNum (nofZ 0) (g o) then (add_obj p o, m) else (p, add_obj m o)).
  assert (E : forall v (p m : mass RNum), fold_left st (map mo v) (sum_at p, sum_at m) =
    (sum_at (fst (fold_left st v (p, m))), sum_at (snd (fold_left st v (p, m))))).
  { induction v0 as [|o v0 IH]; intros p m; [reflexivity|]. cbn [map fold_left]. unfold st at 2 4 6. cbn [g obj_at].
    rewrite !add_obj_at. destruct (@nltb RNum (nofZ 0) (g o)); apply IH. }
  set (z := mkMass (nofZ 0) (nofZ 0) (nofZ 0)).
  assert (Z : sum_at z = z) by (apply mass_ext; cbn [z sum_at mx my mg]; unr; change (Num.T RNum) with R in *; lra).
  pose proof (E v z z) as F. rewrite Z in F. rewrite F.
  destruct (fold_left st v (z, z)) as [p m]. cbn [fst snd]. rewrite !centre_at. reflexivity.
Qed.

Lemma mass_join_at n a b : mass_join (K:=RNum) (node_at d n) (mass_at a) (mass_at b) = mass_at (mass_join (K:=RNum) n a b).
Proof.
  unfold mass_join. cbn [mass_at mg]. change (@nofZ RNum 0) with 0. cbv zeta. change (@nadd RNum (mg a) (mg b)) with (mg a + mg b)%R.
  destruct (@neqb RNum (mg a + mg b)%R 0) eqn:E; [reflexivity|]. apply eqb_nonzero in E.
  apply mass_ext; cbn [mass_at mx my mg]; unr; change (Num.T RNum) with R in *; [field|field|reflexivity]; assumption.
Qed.

Lemma masses_at t : masses (K:=RNum) (tree_at d t) = (mass_at (fst (masses (K:=RNum) t)), mass_at (snd (masses (K:=RNum) t))).
Proof.
  induction t as [m b v h s|m t1 IH1 t2 IH2]; cbn [tree_at masses]; [apply mass_leaf_at|].
  rewrite IH1, IH2. destruct (masses t1), (masses t2). cbn [fst snd]. rewrite !mass_join_at. reflexivity.
Qed.

Lemma summed_at inf m : summed (K:=RNum) inf (mass_at m) = part_at d (summed (K:=RNum) inf m).
Proof. reflexivity. Qed.
Lemma summaries_at inf us : summaries (K:=RNum) inf (map (tree_at d) us) =
  map (fun e => (part_at d (fst e), part_at d (snd e))) (summaries (K:=RNum) inf us).
Proof. unfold summaries. rewrite !map_map. apply map_ext. intros u. rewrite masses_at. reflexivity. Qed.
Lemma summary_list_at inf us : summary_list (K:=RNum) inf (map (tree_at d) us) = map (part_at d) (summary_list (K:=RNum) inf us).
Proof.
  unfold summary_list. induction us as [|u us IH]; [reflexivity|]. cbn [map flat_map]. rewrite masses_at, IH. reflexivity.
Qed.

Lemma nears_at k t u : nears (K:=RNum) k (tree_at d t) (tree_at d u) = map (part_at d) (nears (K:=RNum) k t u).
Proof. unfold nears. rewrite node_of_at, find_near_at, nodes_at, below_nodes_at. reflexivity. Qed.
Lemma fars_at k t u : fars (K:=RNum) k (tree_at d t) (tree_at d u) = map (tree_at d) (fars (K:=RNum) k t u).
Proof. unfold fars. rewrite node_of_at, find_near_at, nodes_at. reflexivity. Qed.

(** ** Influences *)

Lemma vsub_at (p q : vec RNum) : vsub (K:=RNum) (at_ d p) (at_ d q) = vsub (K:=RNum) p q.
Proof. unfold vsub, at_. cbn [x y]. unr. f_equal; change (Num.T RNum) with R in *; lra. Qed.
Lemma at_vadd (p q : vec RNum) : vadd (K:=RNum) (at_ d p) q = at_ d (vadd (K:=RNum) p q).
Proof. unfold vadd, at_. cbn [x y]. unr. f_equal; change (Num.T RNum) with R in *; lra. Qed.
Lemma at_vsub (p q : vec RNum) : vsub (K:=RNum) (at_ d p) q = at_ d (vsub (K:=RNum) p q).
Proof. unfold vsub, at_. cbn [x y]. unr. f_equal; change (Num.T RNum) with R in *; lra. Qed.

Lemma biot_at o p : biot_savart (K:=RNum) (part_at d o) (at_ d p) = biot_savart (K:=RNum) o p.
Proof. unfold biot_savart. cbn [part_at pr pg pe]. rewrite vsub_at. reflexivity. Qed.

Lemma fold_map {A B C} (f : A -> B) (h : C -> B -> C) l : forall a, fold_left h (map f l) a = fold_left (fun a b => h a (f b)) l a.
Proof. induction l as [|b l IH]; intros a; [reflexivity|]. cbn. apply IH. Qed.
Lemma fold_ext {A B} (h k : A -> B -> A) l : (forall a b, h a b = k a b) -> forall a, fold_left h l a = fold_left k l a.
Proof. intros H. induction l as [|b l IH]; intros a; [reflexivity|]. cbn. rewrite H. apply IH. Qed.

Lemma near_influence_at c nb vs p : near_influence (K:=RNum) c nb (map (part_at d) vs) (at_ d p) = near_influence (K:=RNum) c nb vs p.
Proof.
  unfold near_influence. f_equal. apply fold_ext. intros s j. rewrite nth_error_map. destruct (nth_error vs j); [|reflexivity].
  cbn [option_map part_at pg]. rewrite biot_at. reflexivity.
Qed.
Lemma far_influence_at c cm p : far_influence (K:=RNum) c (map (part_at d) cm) (at_ d p) = far_influence (K:=RNum) c cm p.
Proof. unfold far_influence. rewrite fold_map. f_equal. apply fold_ext. intros s o. rewrite biot_at. reflexivity. Qed.
Lemma sink_influence_at a b dt l p : sink_influence (K:=RNum) a b dt (map (part_at d) l) (at_ d p) = sink_influence (K:=RNum) a b dt l p.
Proof. unfold sink_influence. rewrite fold_map. f_equal. apply fold_ext. intros s o. cbn [part_at pr pg]. rewrite vsub_at. reflexivity. Qed.

Section Walls.
Variables (lnf : R -> R) (atan2f : R -> R -> R) (tiny10 c : R).
Notation line := (linear_influence (K:=RNum) lnf atan2f).
Lemma line_at p a q1 q2 : line (at_ d p) (att_at d a) q1 q2 = line p a q1 q2.
Proof. unfold linear_influence. cbn [att_at r dl]. rewrite (at_vadd (r a)), (at_vsub (r a)), !vsub_at. reflexivity. Qed.
Lemma speed_at_at b p : speed_at (K:=RNum) (shape_at d b) (at_ d p) = speed_at (K:=RNum) b p.
Proof. unfold speed_at. cbn [shape_at speed axis]. rewrite vsub_at. reflexivity. Qed.
Lemma segment_speed_at b p w : segment_speed (K:=RNum) line (shape_at d b) (at_ d p) (wall_at d w) = segment_speed (K:=RNum) line b p w.
Proof.
  unfold segment_speed. cbv zeta. cbn [wall_at seg att_at r dl corner]. rewrite vsub_at, !line_at, !speed_at_at, at_vadd.
  cbn [shape_at speed axis]. rewrite vsub_at. reflexivity.
Qed.
Lemma body_influence_at bs p : body_influence (K:=RNum) tiny10 c line (map (shape_at d) bs) (at_ d p) = body_influence (K:=RNum) tiny10 c line bs p.
Proof.
  unfold body_influence. rewrite fold_map. f_equal. apply fold_ext. intros s b. cbn [shape_at Map.Model.walls speed].
  assert (X : existsb (fun w : @wall RNum => slip (seg w)) (map (wall_at d) (Map.Model.walls b)) = existsb (fun w => slip (seg w)) (Map.Model.walls b)).
  { induction (Map.Model.walls b) as [|w l IH]; [reflexivity|]. cbn. rewrite IH. reflexivity. }
  rewrite X, !fold_map.
  assert (Y : fold_left (fun a w => if slip (seg (wall_at d w)) then vadd (K:=RNum) a (biot_savart (part_of (wall_at d w)) (at_ d p)) else a) (Map.Model.walls b) s =
              fold_left (fun a w => if slip (seg w) then vadd (K:=RNum) a (biot_savart (part_of w) p) else a) (Map.Model.walls b) s).
  { apply fold_ext. intros a w. cbn [wall_at seg att_at slip]. destruct (slip (seg w)); [|reflexivity]. f_equal. apply (biot_at (part_of w)). }
  rewrite Y. destruct (at_rest (K:=RNum) tiny10 (speed b)); [reflexivity|]. apply fold_ext. intros a w. rewrite <- (segment_speed_at b p w). reflexivity.
Qed.
End Walls.

Lemma taylor_at a b c cm : taylor_of (K:=RNum) a b (at_ d c) (map (fun e => (part_at d (fst e), part_at d (snd e))) cm) = taylor_of (K:=RNum) a b c cm.
Proof.
  unfold taylor_of. cbv zeta. rewrite fold_map.
  assert (E : forall t, fold_left (fun t e => taylor_step (K:=RNum) (at_ d c) t (part_at d (fst e), part_at d (snd e))) cm t = fold_left (taylor_step (K:=RNum) c) cm t).
  { intros t. apply fold_ext. intros s [P M]. cbn [fst snd]. unfold taylor_step. cbn [part_at pr pg]. rewrite !vsub_at. reflexivity. }
  rewrite E. reflexivity.
Qed.
End Moved.
