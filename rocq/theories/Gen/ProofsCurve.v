(** Corners of segments, arcs and closed curves over the reals. *)

From Coq Require Import ZArith Bool List String Reals Lia Lra Psatz.
From Flocq Require Import Core.Core.
From Verif.Base Require Import Num.
From Verif.Body Require Import Model Spec.
From Verif.Gen Require Import Model Spec.
Import ListNotations.
Local Open Scope R_scope.

Notation rp := (piece RNum).
Notation rtable := (table RNum).

Lemma pt_eq (p q : pt) : px p = px q -> py p = py q -> p = q.
Proof. destruct p, q. unfold px, py. simpl. intros -> ->. reflexivity. Qed.

Lemma R_floor_spec v : R_floor v = Zfloor v.
Proof. reflexivity. Qed.

Lemma nofZ_INR i : @nofZ RNum (Z.of_nat i) = INR i.
Proof. cbn [nofZ RNum]. symmetry. apply INR_IZR_INZ. Qed.

(** The corner [i] of [n] lies at the fraction i/n. *)
Lemma place_along (p : rp) n i : (0 < n)%nat -> place Rlib p n i = along p (INR i / INR n).
Proof.
  intros N. assert (INR n <> 0) by (apply not_0_INR; lia).
  destruct p as [p1 p2 d s|c r a1 a2 d s|c r a1 a2 m s]; unfold place, along, seg_corner, arc_corner; rewrite !nofZ_INR.
  - apply pt_eq; unfold px, py, P; cbn; field; assumption.
  - apply pt_eq; unfold px, py, P, V; cbn;
      replace (a1 + (a2 - a1) * INR i / INR n) with (a1 + INR i / INR n * (a2 - a1)) by (field; assumption); reflexivity.
  - apply pt_eq; unfold px, py, P, V; cbn;
      replace (a1 + (a2 - a1) * INR i / INR n) with (a1 + INR i / INR n * (a2 - a1)) by (field; assumption); reflexivity.
Qed.

Lemma vabs_dist (p q : pt) : @vabs RNum (vsub q p) = dist p q.
Proof. reflexivity. Qed.

Lemma len_nonneg_seg p1 p2 d s : 0 <= len (Seg (K:=RNum) p1 p2 d s).
Proof. apply sqrt_pos. Qed.

Definition by_step (p : rp) : Prop := match p with ArcN _ _ _ _ _ _ => False | _ => True end.

Lemma count_eq (p : rp) : by_step p -> count Rlib p = R_floor_size (len p / step p + 1 / 2).
Proof. destruct p; [reflexivity|reflexivity|intros []]. Qed.

(** How many corners: the number of steps nearest to the length. *)
Lemma count_nearest (p : rp) n : by_step p -> count Rlib p = Some n -> nearest (len p / step p) (Z.of_nat n).
Proof.
  intros B. rewrite (count_eq p B). unfold R_floor_size. rewrite R_floor_spec. generalize (len p / step p). intros v.
  destruct ((0 <=? _)%Z && _) eqn:F; [|discriminate]. apply andb_prop in F as [F _]. apply Z.leb_le in F.
  intros E. injection E as <-. rewrite Z2Nat.id by exact F. unfold nearest.
  pose proof (Zfloor_lb (v + 1 / 2)). pose proof (Zfloor_ub (v + 1 / 2)). lra.
Qed.

(** The converse; counts stay below the range of the type. *)
Lemma count_of (p : rp) z : by_step p ->
  nearest (len p / step p) z -> (0 <= z < 2 ^ 64)%Z -> count Rlib p = Some (Z.to_nat z).
Proof.
  intros B. rewrite (count_eq p B). unfold R_floor_size, nearest. rewrite R_floor_spec. generalize (len p / step p). intros v N Z.
  assert (F : Zfloor (v + 1 / 2) = z) by (apply Zfloor_imp; rewrite plus_IZR; lra).
  rewrite F. replace (0 <=? z)%Z with true by (symmetry; apply Z.leb_le; lia).
  replace (z <? 2 ^ 64)%Z with true by (symmetry; apply Z.ltb_lt; lia). reflexivity.
Qed.

(** * Lists of corners *)

Definition counts (l : list rp) : option (list nat) :=
  fold_right (fun p r => match count Rlib p, r with Some n, Some r => Some (n :: r) | _, _ => None end) (Some []) l.

Definition corner_row (p : rp) (n : nat) : list pt := map (fun i => along p (INR i / INR n)) (seq 0 n).

Lemma corner_row_place (p : rp) n : map fst (map (fun i => (place Rlib p n i, slips p)) (seq 0 n)) = corner_row p n.
Proof.
  rewrite map_map. cbn [fst]. unfold corner_row. apply map_ext_in. intros i I. apply in_seq in I. apply place_along. lia.
Qed.

Lemma make_counts (l : list rp) r : make Rlib l = Ok r -> exists ns, counts l = Some ns /\
  points r = List.concat (map (fun pn => corner_row (fst pn) (snd pn)) (combine l ns)) /\ List.length ns = List.length l /\
  Forall2 (fun p n => count Rlib p = Some n) l ns.
Proof.
  revert r. induction l as [|p l IH]; intros r; cbn [make].
  - intros E. injection E as <-. exists []. repeat split; constructor.
  - destruct (count Rlib p) as [n|] eqn:C; [|discriminate]. destruct (make Rlib l) as [r'| |] eqn:M; try discriminate. cbn [bind].
    intros E. injection E as <-. destruct (IH _ eq_refl) as (ns & A & B & D & F). exists (n :: ns).
    split; [cbn [counts fold_right]; fold (counts l); rewrite C, A; reflexivity|].
    split; [|split; [cbn; lia|constructor; assumption]].
    unfold points in *. rewrite map_app, B. cbn [combine map List.concat]. f_equal. apply corner_row_place.
Qed.

Lemma make_of (l : list rp) ns : Forall2 (fun p n => count Rlib p = Some n) l ns -> exists r, make Rlib l = Ok r.
Proof.
  induction 1 as [|p n l ns C _ [r IH]]; [exists []; reflexivity|]. cbn [make]. rewrite C, IH. cbn [bind]. eexists. reflexivity.
Qed.

(** * The edges of the polygon *)

Lemma chain_app {A} (a : A) l1 b l2 : chain a (l1 ++ b :: l2) = chain a (l1 ++ [b]) ++ chain b l2.
Proof. revert a. induction l1 as [|c l1 IH]; intros a; cbn; [reflexivity|]. rewrite IH. reflexivity. Qed.

(** The chain through the corners of one piece. *)
Lemma chain_row (p : rp) n e : (0 < n)%nat -> e = along p 1 ->
  match corner_row p n with [] => [] | a :: t => chain a (t ++ [e]) end = cuts p n.
Proof.
  intros N ->. assert (INR n <> 0) by (apply not_0_INR; lia).
  unfold corner_row, cuts.
  assert (G : forall k m, (k + m = n)%nat -> (0 < m)%nat ->
    match map (fun i => along p (INR i / INR n)) (seq k m) with [] => [] | a :: t => chain a (t ++ [along p 1]) end =
    map (fun i => (along p (INR i / INR n), along p (INR (S i) / INR n))) (seq k m)).
  { intros k m. revert k. induction m as [|m IH]; intros k E L; [lia|]. cbn [seq map].
    destruct m as [|m].
    - cbn [seq map app chain]. replace (INR (S k) / INR n) with 1; [reflexivity|]. replace (S k) with n by lia. field. assumption.
    - specialize (IH (S k) ltac:(lia) ltac:(lia)). cbn [seq map app chain] in IH |- *. f_equal. exact IH. }
  apply G; lia.
Qed.

Lemma row_head (p : rp) n : (0 < n)%nat -> exists t, corner_row p n = along p 0 :: t.
Proof.
  intros N. destruct n as [|n]; [lia|]. unfold corner_row. cbn [seq map]. eexists. f_equal. f_equal. cbn [INR]. unfold Rdiv. ring.
Qed.

Lemma chain_rows (l : list (rp * nat)) e : (forall p n, In (p, n) l -> (0 < n)%nat) ->
  (forall p q, In (p, q) (chain (hd (ArcN (@vzero RNum) 0 0 0 0 false) (map fst l)) (tl (map fst l))) -> along p 1 = along q 0) ->
  (l <> [] -> e = along (last (map fst l) (ArcN (@vzero RNum) 0 0 0 0 false)) 1) ->
  match List.concat (map (fun pn => corner_row (fst pn) (snd pn)) l) with [] => [] | a :: t => chain a (t ++ [e]) end =
  List.concat (map (fun pn => cuts (fst pn) (snd pn)) l).
Proof.
  induction l as [|[p n] l IH]; intros N J E; [reflexivity|].
  cbn [map List.concat fst snd]. pose proof (N p n (or_introl eq_refl)) as Np.
  destruct (row_head p n Np) as [t Et].
  destruct l as [|[q m] l].
  - cbn [map List.concat]. rewrite !app_nil_r. apply chain_row; [exact Np|]. apply E. discriminate.
  - assert (Nq : (0 < m)%nat) by (eapply N; right; left; reflexivity).
    destruct (row_head q m Nq) as [tq Eq].
    specialize (IH (fun p' n' I => N p' n' (or_intror I)) (fun p' q' I => J p' q' (or_intror I))).
    assert (E' : (q, m) :: l <> [] -> e = along (last (map fst ((q, m) :: l)) (ArcN (@vzero RNum) 0 0 0 0 false)) 1).
    { intros _. apply E. discriminate. }
    specialize (IH E'). clear E E'.
    rewrite <- (chain_row p n (along q 0) Np) by (symmetry; apply J; left; reflexivity).
    rewrite <- IH. rewrite Et. cbn [map List.concat fst snd]. rewrite Eq. cbn [app].
    rewrite <- app_assoc. cbn [app]. rewrite chain_app. reflexivity.
Qed.

Lemma edges_closed (A : Type) (d a : A) l p q : In (p, q) (chain a l) -> In (p, q) (edges (a :: l)).
Proof.
  cbn [edges]. generalize [a]. intros e. revert a. induction l as [|b l IH]; intros a; [intros []|].
  cbn [chain app]. intros [E|I]; [left; exact E|right; apply IH, I].
Qed.

Lemma edges_last (A : Type) (d a : A) l : In (last (a :: l) d, a) (edges (a :: l)).
Proof.
  cbn [edges]. assert (G : forall b, In (last (b :: l) d, a) (chain b (l ++ [a]))); [|apply G].
  induction l as [|c l IH]; intros b; [left; reflexivity|]. right. exact (IH c).
Qed.

(** The polygon through the corners of a closed curve none of whose pieces is
    left out consists of the polygons inscribed in the pieces. *)
Lemma polygon (l : list rp) (ns : list nat) : closed l -> List.length ns = List.length l -> Forall (fun n => (0 < n)%nat) ns ->
  edges (List.concat (map (fun pn => corner_row (fst pn) (snd pn)) (combine l ns))) =
  List.concat (map (fun pn => cuts (fst pn) (snd pn)) (combine l ns)).
Proof.
  intros C L N. assert (M : map fst (combine l ns) = l).
  { clear -L. revert ns L. induction l as [|p l IH]; intros [|n ns] L; try discriminate; [reflexivity|]. cbn. f_equal. apply IH. injection L; auto. }
  set (z := ArcN (@vzero RNum) 0 0 0 0 false) in *.
  assert (N' : forall p n, In (p, n) (combine l ns) -> (0 < n)%nat).
  { intros p n I. apply in_combine_r in I. rewrite Forall_forall in N. apply N, I. }
  destruct l as [|p l]; [destruct ns; [reflexivity|discriminate]|].
  assert (X := chain_rows (combine (p :: l) ns) (along p 0) N').
  fold z in X. rewrite M in X. cbn [hd tl] in X.
  specialize (X (fun a b I => C a b (edges_closed _ z p l a b I))).
  specialize (X (fun _ => eq_sym (C _ _ (edges_last _ z p l)))).
  rewrite <- X. unfold edges.
  destruct ns as [|n ns]; [discriminate|]. cbn [combine map List.concat fst snd].
  destruct (row_head p n ltac:(apply (N' p n); left; reflexivity)) as [t ->]. reflexivity.
Qed.

(** * Sums *)

Lemma total_app {A} (f : A -> R) l1 l2 : total f (l1 ++ l2) = total f l1 + total f l2.
Proof.
  induction l1 as [|a l1 IH]; cbn [app total fold_right]; [symmetry; apply Rplus_0_l|].
  fold (total f (l1 ++ l2)) (total f l1). rewrite IH. symmetry. apply Rplus_assoc.
Qed.

Lemma total_concat {A} (f : A -> R) l : total f (List.concat l) = total (total f) l.
Proof.
  induction l as [|a l IH]; [reflexivity|]. cbn [List.concat]. rewrite total_app, IH. reflexivity.
Qed.

Lemma total_map {A B} (f : B -> R) (g : A -> B) l : total f (map g l) = total (fun a => f (g a)) l.
Proof.
  induction l as [|a l IH]; [reflexivity|]. cbn [map total fold_right]. fold (total f (map g l)). rewrite IH. reflexivity.
Qed.

Lemma total_const {A} (f : A -> R) c l : (forall a, In a l -> f a = c) -> total f l = INR (List.length l) * c.
Proof.
  induction l as [|a l IH]; intros H; [cbn [total fold_right List.length INR]; ring|]. cbn [total fold_right]. fold (total f l).
  rewrite (H a (or_introl eq_refl)), IH by (intros; apply H; right; assumption). cbn [List.length]. rewrite S_INR. ring.
Qed.

Lemma total_ext {A} (f g : A -> R) l : (forall a, In a l -> f a = g a) -> total f l = total g l.
Proof.
  induction l as [|a l IH]; intros H; [reflexivity|]. cbn [total fold_right]. fold (total f l) (total g l).
  rewrite (H a (or_introl eq_refl)), IH by (intros; apply H; right; assumption). reflexivity.
Qed.

Definition cross2 (e : pt * pt) : R := py (fst e) * px (snd e) - px (fst e) * py (snd e).

(** The contribution of a straight piece to the area does not depend on the
    number of corners. *)
Lemma seg_cross p1 p2 d s n : (0 < n)%nat -> total cross2 (cuts (Seg (K:=RNum) p1 p2 d s) n) = cross2 (p1, p2).
Proof.
  intros N. assert (D : INR n <> 0) by (apply not_0_INR; lia). unfold cuts. rewrite total_map.
  rewrite (total_const _ (cross2 (p1, p2) / INR n)).
  - rewrite seq_length. field. exact D.
  - intros i _. unfold cross2. cbn [fst snd along]. unfold P, px, py. cbn [x y]. rewrite S_INR.
    generalize (x p1) (x p2) (y p1) (y p2). intros a b a' b'. change (T RNum) with R in *. field. exact D.
Qed.

(** ... and of an arc about the origin. *)
Lemma arc_cross r a1 a2 d s n : (0 < n)%nat ->
  total cross2 (cuts (Arc (K:=RNum) (P 0 0) r a1 a2 d s) n) = INR n * (r * r * sin ((a1 - a2) / INR n)).
Proof.
  intros N. assert (D : INR n <> 0) by (apply not_0_INR; lia). unfold cuts. rewrite total_map.
  rewrite (total_const _ (r * r * sin ((a1 - a2) / INR n))); [rewrite seq_length; reflexivity|].
  intros i _. unfold cross2. cbn [fst snd along]. unfold P, px, py. cbn [x y]. rewrite S_INR.
  set (u := a1 + INR i / INR n * (a2 - a1)). set (v := a1 + (INR i + 1) / INR n * (a2 - a1)).
  replace ((a1 - a2) / INR n) with (u - v) by (unfold u, v; field; exact D).
  rewrite sin_minus. ring.
Qed.
