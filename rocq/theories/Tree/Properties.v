(** C12 to C16: the search tree. *)

From Coq Require Import ZArith Bool List Permutation Reals Lia Lra.
From Flocq Require Import Core.Core IEEE754.BinarySingleNaN.
From Verif.Base Require Import Num F64.
From Verif.Tree Require Import Model ModelRange Spec Proofs ProofsNum ProofsRange.
Import ListNotations.

(** * C12 *)

(** For any numbers at all, in particular doubles with NaN and infinities. *)
Theorem C12_no_object_lost (K : Num) (big minSize maxSize : K) fuel b L L' bot :
  build_range big minSize maxSize fuel b L = Some (L', bot) ->
  Permutation (VL L) (VL L') /\ Permutation (HL L) (HL L') /\ Permutation (SL L) (SL L') /\
  tiles 0 (length (VL L')) (map (@vR K) bot) /\
  tiles 0 (length (HL L')) (map (@hR K) bot) /\
  tiles 0 (length (SL L')) (map (@sR K) bot) /\
  Permutation b (flat_map (@bb K) bot).
Proof.
  intros E. destruct (build_range_ok _ _ _ _ _ _ _ _ E) as (t & T & F & A1 & A2 & A3 & P1 & P2 & P3).
  repeat (split; [assumption|]).
  apply divide_perm in T. destruct T as (T & _). rewrite T.
  replace (flat_map (@bb K) bot) with (flat_map leaf_b (leaves t)); [reflexivity|].
  clear -F. induction F; simpl; auto. rewrite IHF. f_equal. rewrite H. reflexivity.
Qed.

(** A leaf holds the objects its bounding box was computed from, and every
    range of the tree is below or not below the split line as the tree says:
    the in-place subdivision agrees with the one on separate lists. *)
Theorem C12_in_place (K : Num) (big minSize maxSize : K) fuel b L L' bot :
  build_range big minSize maxSize fuel b L = Some (L', bot) ->
  exists t, build big minSize maxSize fuel b (VL L) (HL L) (SL L) = Some t /\
    Forall2 (fun x u => u = Leaf (bnode x) (bb x) (slice (VL L') (vR x)) (slice (HL L') (hR x)) (slice (SL L') (sR x)))
      bot (leaves t).
Proof. intros E. destruct (build_range_ok _ _ _ _ _ _ _ _ E) as (t & T & F & _). exists t. auto. Qed.

Definition ob (x y c : Z) : obj F64 := @mkObj F64 (f64_ofZ x) (f64_ofZ y) (f64_ofZ c) (f64_ofZ 0) (f64_ofZ 0) (f64_ofZ 0).
Definition obnan : obj F64 := @mkObj F64 f64_nan (f64_ofZ 3) (f64_ofZ 1) (f64_ofZ 0) (f64_ofZ 0) (f64_ofZ 0).

(** Five vortices in five leaves (the second holds a streak point only), one of them with a NaN coordinate. *)
Definition ex_lists : lists F64 :=
  mkLists [ob 9 0 1; ob 0 1 2; obnan; ob 5 2 (-1); ob 8 3 4] [] [ob 2 2 0].
Definition ranges (r : option (lists F64 * list (bottom F64))) : list (nat * nat) :=
  match r with Some (_, bot) => map (fun x => (first (vR x), last (vR x))) bot | None => [] end.
Definition order (r : option (lists F64 * list (bottom F64))) : list (option Z) :=
  match r with Some (L, _) => map (fun o : obj F64 => f64_to_i32 (rx o)) (VL L) | None => [] end.
Example C12_ex :
  ranges (build_range (K:=F64) dbl_max (f64_ofZ 1) (f64_ofZ 2) 20 [] ex_lists) = [(0,1); (1,1); (1,2); (2,3); (3,5)] /\
  order (build_range (K:=F64) dbl_max (f64_ofZ 1) (f64_ofZ 2) 20 [] ex_lists) = [Some 0; Some 5; Some 9; None; Some 8]%Z.
Proof. split; vm_compute; reflexivity. Qed.

Print Assumptions C12_no_object_lost.
Print Assumptions C12_in_place.

(** * C13 *)

Theorem C13_cover (K : Num) (criteria : K) (t : tree K) (n : node K) near farr :
  find_near (far criteria n) [] t = (near, farr) ->
  Permutation (near ++ flat_map (leaves_below t) farr) (leaf_paths t) /\
  NoDup (near ++ flat_map (leaves_below t) farr) /\
  (forall p, In p near -> exists u, subtree t p = Some u /\ leaves u = [u] /\ far criteria n (node_of u) = false) /\
  (forall p, In p farr -> exists u, subtree t p = Some u /\ far criteria n (node_of u) = true).
Proof.
  intros E. assert (S : subtree t [] = Some t) by (destruct t; reflexivity).
  pose proof (near_cover t _ _ _ _ _ S E) as P.
  rewrite (map_ext (app []) (fun p => p)), map_id in P by reflexivity.
  destruct (near_are_leaves t _ _ _ _ _ S E) as [A B].
  split; [exact P|]. split; [|split; assumption].
  eapply Permutation_NoDup; [apply Permutation_sym, P|apply leaf_paths_nodup].
Qed.

(** [leaf_paths] names exactly the nodes without children. *)
Theorem C13_names (K : Num) (t : tree K) :
  NoDup (leaf_paths t) /\ forall p, In p (leaf_paths t) <-> exists u, subtree t p = Some u /\ leaves u = [u].
Proof. split; [apply leaf_paths_nodup|apply leaf_paths_leaf]. Qed.

Definition ex_tree : option (tree F64) :=
  build (K:=F64) dbl_max (f64_ofZ 1) (f64_ofZ 2) 20 [] [ob 900 0 1; ob 0 1 2; ob 5 2 (-1); ob 8 3 4] [] [].
Example C13_ex :
  match ex_tree with
  | Some t => find_near (@far F64 (f64_ofZ 8) (node_of (find_node t (f64_ofZ 5) (f64_ofZ 2)))) [] t
  | None => ([], [])
  end = ([[false; true; false]], [[false; false]; [false; true; true]; [true]]).
Proof. vm_compute. reflexivity. Qed.

Print Assumptions C13_cover.
Print Assumptions C13_names.

(** * C14 *)

Theorem C14_summaries (t : tree RNum) :
  summary (plus (vortices t)) (fst (masses t)) /\ summary (minus (vortices t)) (snd (masses t)).
Proof. apply masses_ok. Qed.

(** Every node of a built tree summarises vortices of the list, the root all of them. *)
Theorem C14_root (big minSize maxSize : R) fuel b v h s (t : tree RNum) :
  build (K:=RNum) big minSize maxSize fuel b v h s = Some t ->
  Permutation v (vortices t).
Proof. intros E. apply divide_perm in E. apply E. Qed.

(** A node with circulations 2 at x=1, 3 at x=6 and -4 at x=5. *)
Definition obr (x y c : R) : obj RNum := @mkObj RNum x y c 0%R 0%R 0%R.
Definition ex_split : tree RNum :=
  Split (@mkNode RNum 0 0 0 0)%R (Leaf (@mkNode RNum 0 0 0 0)%R [] [obr 1 0 2] [] [])%R
    (Leaf (@mkNode RNum 7 7 0 0)%R [] [obr 5 1 (-4); obr 6 0 3] [] [])%R.
Example C14_ex : mx (fst (masses ex_split)) = 4%R /\ mg (fst (masses ex_split)) = 5%R /\
  mx (snd (masses ex_split)) = 5%R /\ mg (snd (masses ex_split)) = (-4)%R.
Proof.
  destruct (C14_summaries ex_split) as [(P1 & P2 & _) (M1 & M2 & _)].
  assert (PL : plus (vortices ex_split) = [obr 1 0 2; obr 6 0 3]%R).
  { unfold plus, vortices, positive. simpl. rewrite (proj2 (Rltb_true 0 2)), (proj2 (Rltb_false 0 (-4))), (proj2 (Rltb_true 0 3)) by lra. reflexivity. }
  assert (ML : minus (vortices ex_split) = [obr 5 1 (-4)]%R).
  { unfold minus, vortices, positive. simpl. rewrite (proj2 (Rltb_true 0 2)), (proj2 (Rltb_false 0 (-4))), (proj2 (Rltb_true 0 3)) by lra. reflexivity. }
  rewrite PL in P1, P2. rewrite ML in M1, M2. cbn [sumR fold_right rx ry g obr] in *.
  set (p := fst (masses ex_split)) in *. set (m := snd (masses ex_split)) in *. clearbody p m.
  assert (G1 : mg p = 5%R) by lra. assert (G2 : mg m = (-4)%R) by lra.
  rewrite G1 in P2. rewrite G2 in M2. repeat split; lra.
Qed.

Print Assumptions C14_summaries.
Print Assumptions C14_root.

(** * C15 *)

Theorem C15_find (minSize maxSize : f64) fuel b v h s (t : tree F64) :
  build (K:=F64) dbl_max minSize maxSize fuel b v h s = Some t ->
  (forall o, In o b -> In o (leaf_b (find_node t (rx o) (ry o)))) /\
  (forall o, In o v -> In o (leaf_v (find_node t (rx o) (ry o)))) /\
  (forall o, In o h -> In o (leaf_h (find_node t (rx o) (ry o)))) /\
  (forall o, In o s -> In o (leaf_s (find_node t (rx o) (ry o)))).
Proof. apply divide_find. apply f64_excl. Qed.

Theorem C15_leaf (K : Num) (t : tree K) x y : In (find_node t x y) (leaves t).
Proof. apply find_leaf. Qed.

(** A point on the split line 450 goes with the objects not below it. *)
Example C15_ex :
  match ex_tree with
  | Some t => map (fun o : obj F64 => f64_to_i32 (rx o)) (leaf_v (find_node t (f64_ofZ 450) (f64_ofZ 0)))
  | None => []
  end = [Some 900%Z].
Proof. vm_compute. reflexivity. Qed.

Print Assumptions C15_find.
Print Assumptions C15_leaf.

(** * C16 *)

(** Over binary64: coordinates up to 2^e, both node limits at least 2^(e-50).
    The depth does not exceed the number of objects. *)
Theorem C16_terminates_partial (e : Z) (minSize maxSize : f64) b (L : lists F64) :
  (-900 <= e <= 1000)%Z ->
  is_finite minSize = true -> is_finite maxSize = true ->
  (bpow radix2 (e - 50) <= B2R minSize)%R -> (bpow radix2 (e - 50) <= B2R maxSize)%R ->
  (forall o, In o (b ++ VL L ++ HL L ++ SL L) ->
     is_finite (rx o) = true /\ is_finite (ry o) = true /\
     (Rabs (B2R (rx o)) <= bpow radix2 e)%R /\ (Rabs (B2R (ry o)) <= bpow radix2 e)%R) ->
  exists r, build_range (K:=F64) dbl_max minSize maxSize (length (b ++ VL L ++ HL L ++ SL L)) b L = Some r.
Proof.
  intros He F1 F2 M1 M2 H.
  destruct (divide_terminates (K:=F64) dbl_max minSize maxSize f64_excl (bounded e)
              (f_splits e He minSize maxSize F1 F2 M1 M2) (length (b ++ VL L ++ HL L ++ SL L)) b (VL L) (HL L) (SL L)) as (t & T).
  - apply Forall_forall. exact H.
  - unfold Proofs.total. rewrite !app_length. lia.
  - eapply build_range_terminates. exact T.
Qed.

(** In exact arithmetic non-negative limits are enough. *)
Theorem C16_terminates_exact_partial (big minSize maxSize : R) b (L : lists RNum) :
  (0 < big)%R -> (0 <= minSize)%R -> (0 < maxSize)%R ->
  (forall o, In o (b ++ VL L ++ HL L ++ SL L) -> (Rabs (rx o) <= big)%R /\ (Rabs (ry o) <= big)%R) ->
  exists r, build_range (K:=RNum) big minSize maxSize (length (b ++ VL L ++ HL L ++ SL L)) b L = Some r.
Proof.
  intros Hb M1 M2 H.
  destruct (divide_terminates (K:=RNum) big minSize maxSize r_excl (in_box big)
              (r_splits big minSize maxSize Hb M1 M2) (length (b ++ VL L ++ HL L ++ SL L)) b (VL L) (HL L) (SL L)) as (t & T).
  - apply Forall_forall. exact H.
  - unfold Proofs.total. rewrite !app_length. lia.
  - eapply build_range_terminates. exact T.
Qed.

(** A space without bodies, as vvflow.cpp:200-203 builds its tree (limits 0 and
    the largest double): sixteen vortices at two neighbouring positions, (1,1)
    and the next doubles.  The recursion does not end at any depth. *)
Definition next1 : f64 := @nadd F64 (f64_ofZ 1) (@ndiv F64 (f64_ofZ 1) (f64_ofZ (2^52))).
Definition pt (x y : f64) : obj F64 := @mkObj F64 x y (f64_ofZ 1) (f64_ofZ 0) (f64_ofZ 0) (f64_ofZ 0).
Theorem C16_no_body_refuted :
  let v := repeat (pt (f64_ofZ 1) (f64_ofZ 1)) 8 ++ repeat (pt next1 next1) 8 in
  forall fuel, build (K:=F64) dbl_max (f64_ofZ 0) dbl_max fuel [] v [] [] = None.
Proof.
  intros v fuel. apply (divide_loops (K:=F64) dbl_max (f64_ofZ 0) dbl_max v (stretch (K:=F64) dbl_max [] v [] []) eq_refl);
    vm_compute; reflexivity.
Qed.

(** Limits 5*0.001 and 100*0.001: two vortices far away, at 2^57 and the next double. *)
Theorem C16_far_refuted :
  let v := [pt (f64_ofZ (2^57)) (f64_ofZ 0); pt (f64_ofZ (2^57 + 32)) (f64_ofZ 0)] in
  forall fuel, build (K:=F64) dbl_max (f64_dec 5 3) (f64_dec 100 3) fuel [] v [] [] = None.
Proof.
  intros v fuel. apply (divide_loops (K:=F64) dbl_max (f64_dec 5 3) (f64_dec 100 3) v (stretch (K:=F64) dbl_max [] v [] []) eq_refl);
    vm_compute; reflexivity.
Qed.

(** One vortex at infinity. *)
Theorem C16_infinite_refuted :
  let v := [pt f64_inf (f64_ofZ 0)] in
  forall fuel, build (K:=F64) dbl_max (f64_dec 5 3) (f64_dec 100 3) fuel [] v [] [] = None.
Proof.
  intros v fuel. apply (divide_loops (K:=F64) dbl_max (f64_dec 5 3) (f64_dec 100 3) v (stretch (K:=F64) dbl_max [] v [] []) eq_refl);
    vm_compute; reflexivity.
Qed.

(** Twenty vortices, limits 1 and 2: within the hypotheses for e = 50. *)
Example C16_ex :
  let v := map (fun k => ob (Z.of_nat k * 7 mod 20) (Z.of_nat k) 1) (seq 0 20) in
  match build (K:=F64) dbl_max (f64_ofZ 1) (f64_ofZ 2) 20 [] v [] [] with
  | Some t => length (leaves t) = 20
  | None => False
  end.
Proof. vm_compute. reflexivity. Qed.

Print Assumptions C16_terminates_partial.
Print Assumptions C16_terminates_exact_partial.
Print Assumptions C16_no_body_refuted.
Print Assumptions C16_far_refuted.
Print Assumptions C16_infinite_refuted.
