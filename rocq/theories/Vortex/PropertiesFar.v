(** C114 and C115: how far the far field is from the vortices it stands for. *)

From Coq Require Import ZArith Bool List Lia Permutation Reals Lra.
From Flocq Require Import Core.Core IEEE754.BinarySingleNaN.
From Verif.Base Require Import Num F64.
From Verif.Tree Require Import Spec Proofs ProofsNum.
From Verif.Body Require Import Model Spec.
From Verif.Vortex Require Import Model ProofsKernel.
From Verif.Tree Require Import Model.
From Verif.Vortex Require Import ModelFar SpecFar ProofsFar.
Import ListNotations.
Local Open Scope R_scope.

(** * C114: the particles *)

(** The objects of a leaf are in its box. *)
Theorem C114_boxes : forall (big minSize maxSize : R) fuel b v h s (t u : tree RNum),
  build (K:=RNum) big minSize maxSize fuel b v h s = Some t ->
  (forall o, In o (b ++ v ++ h ++ s) -> Rabs (rx o) <= big /\ Rabs (ry o) <= big) ->
  In u (leaves t) -> forall o, In o (leaf_b u ++ leaf_v u ++ leaf_h u ++ leaf_s u) -> inside (node_of u) (pr (particle o)).
Proof.
  intros * E B Hu o Ho. destruct (divide_good _ _ _ _ _ _ _ _ _ B E) as (_ & _ & G).
  destruct (leaf_subtree t u Hu) as (q & Q & L). apply (G q u Q o). unfold objects. rewrite L. cbn [flat_map]. rewrite app_nil_r. exact Ho.
Qed.

Section Bounds.
Variables (big minSize maxSize : R) (fuel : nat) (b v h s : list (obj RNum)) (t : tree RNum).
Hypothesis built : build (K:=RNum) big minSize maxSize fuel b v h s = Some t.
Hypothesis finite : forall o, In o (b ++ v ++ h ++ s) -> Rabs (rx o) <= big /\ Rabs (ry o) <= big.

Lemma far_boxes k n nears fars : find_near (far (K:=RNum) k n) [] t = (nears, fars) ->
  forall u, In u (nodes t fars) -> (forall o, In o (vortices u) -> holds (node_of u) o) /\ far (K:=RNum) k n (node_of u) = true.
Proof.
  intros F u Hu. destruct (divide_good _ _ _ _ _ _ _ _ _ finite built) as (_ & _ & G).
  destruct (nodes_found _ _ _ _ F) as [_ N]. destruct (N u Hu) as [(q & Q) Fu]. split; [|exact Fu].
  intros o Ho. apply (G q u Q), objects_vortices, Ho.
Qed.

Lemma eight_sum n nears fars p : inside n p -> find_near (far (K:=RNum) 8 n) [] t = (nears, fars) ->
  total (node_bound n) (nodes t fars) <= total (fun u => 6 / 100 * (strength (below_nodes [u]) / gap n (node_of u))) (nodes t fars).
Proof.
  intros Hp F. apply total_le. intros u Hu. destruct (far_boxes _ _ _ _ F u Hu) as [B Fu].
  assert (W : weight u = strength (below_nodes [u])) by (unfold weight, below_nodes; cbn [flat_map]; rewrite app_nil_r; reflexivity).
  unfold node_bound. rewrite W.
  assert (D : vortices u = [] \/ vortices u <> []) by (destruct (vortices u); [left; reflexivity|right; discriminate]).
  destruct D as [E|E].
  - assert (Z : strength (below_nodes [u]) = 0) by (rewrite <- W; unfold weight; rewrite E; reflexivity).
    rewrite Z. unfold Rdiv. rewrite !Rmult_0_l, Rmult_0_r. apply Rle_refl.
  - pose proof (weight_split 0 8 n u p ltac:(lra) B Hp Fu) as (_ & _ & X). destruct (X E) as [L Y]. cbv zeta in Y. destruct Y as (Y1 & _ & Y2 & Y3).
    pose proof (far_gap 8 n u Fu) as FG. unfold reach in *.
    assert (S0 : 0 <= sizes n (node_of u)).
    { pose proof (norm_pos (vsub p (@mkVec RNum (nx n) (ny n)))). destruct (vortices u) as [|o rest]; [congruence|].
      pose proof (Y2 (particle o) (or_introl eq_refl)) as C. unfold close in C.
      match type of C with norm ?w <= _ => pose proof (norm_pos w) end. lra. }
    apply eight; [|exact S0|lra|exact FG].
    unfold strength. rewrite <- (total_const0 (below_nodes [u])). apply total_le. intros. apply Rabs_pos.
Qed.

(** What process_all_lists adds to a particle of the leaf [u], or to any point in
    its box, from the far nodes: the vortices of the list it stands for, one by
    one, up to the bound; near and far nodes together have all vortices. *)
Theorem C114_any : forall (inf k : R) (u : tree RNum) p nears fars,
  1 <= k -> In u (leaves t) -> inside (node_of u) p ->
  find_near (far (K:=RNum) k (node_of u)) [] t = (nears, fars) ->
  Permutation (map particle v) (below_nodes (nodes t nears) ++ below_nodes (nodes t fars)) /\
  apart (induced (below_nodes (nodes t fars)) p) (far_of_particle (K:=RNum) inf (/ (2 * PI)) (/ PI) k t u p) <=
  / (2 * PI) * total (fun w => let S := sizes (node_of u) (node_of w) in let L := gap (node_of u) (node_of w) - S / 2 in
     strength (below_nodes [w]) * (S * S / 4 / (L * L * L))) (nodes t fars) /\
  (forall w, In w (nodes t fars) -> k * (sizes (node_of u) (node_of w) * sizes (node_of u) (node_of w)) < gap (node_of u) (node_of w) * gap (node_of u) (node_of w)).
Proof.
  intros * K1 Hu Hp F. split; [|split].
  - apply divide_perm in built as (_ & P & _). rewrite P. unfold below_nodes. rewrite <- map_app. apply Permutation_map.
    apply (vortices_cover t (far (K:=RNum) k (node_of u)) t [] nears fars); [destruct t; reflexivity|exact F].
  - unfold far_of_particle. rewrite F.
    eapply Rle_trans; [apply (taylor_apart inf k (node_of u) p (nodes t fars) K1)|].
    + intros w Hw. apply (far_boxes _ _ _ _ F w Hw).
    + exact Hp.
    + intros w Hw. apply (far_boxes _ _ _ _ F w Hw).
    + right. f_equal. apply total_ext'. intros w _. unfold node_bound, weight, reach, below_nodes. cbn [flat_map]. rewrite app_nil_r. reflexivity.
  - intros w Hw. apply far_gap, (far_boxes _ _ _ _ F w Hw).
Qed.

(** With the 8 all programs use: at most 6 per cent of the speed the strengths
    of the far nodes would give from the centres of their boxes. *)
Theorem C114_eight : forall (inf : R) (u : tree RNum) p nears fars,
  In u (leaves t) -> inside (node_of u) p ->
  find_near (far (K:=RNum) 8 (node_of u)) [] t = (nears, fars) ->
  Permutation (map particle v) (below_nodes (nodes t nears) ++ below_nodes (nodes t fars)) /\
  apart (induced (below_nodes (nodes t fars)) p) (far_of_particle (K:=RNum) inf (/ (2 * PI)) (/ PI) 8 t u p) <=
  / (2 * PI) * total (fun w => 6 / 100 * (strength (below_nodes [w]) / gap (node_of u) (node_of w))) (nodes t fars).
Proof.
  intros * Hu Hp F. destruct (C114_any inf 8 u p nears fars ltac:(lra) Hu Hp F) as (P & B & _). split; [exact P|].
  eapply Rle_trans; [exact B|]. pose proof PI_RGT_0.
  apply Rmult_le_compat_l; [apply Rlt_le, Rinv_0_lt_compat; lra|].
  eapply Rle_trans; [|apply (eight_sum _ _ _ p Hp F)].
  right. apply total_ext'. intros w _. unfold node_bound, weight, reach, below_nodes. cbn [flat_map]. rewrite app_nil_r. reflexivity.
Qed.

(** * C115: velocity at a point *)

(** For points in the box of the leaf the look-up ends in. *)
Theorem C115_partial : forall (inf : R) p nears fars,
  let u := find_node t (x p) (y p) in
  1 / inf = 0 -> inside (node_of u) p ->
  find_near (far (K:=RNum) 8 (node_of u)) [] t = (nears, fars) ->
  Permutation (map particle v) (below_nodes (nodes t nears) ++ below_nodes (nodes t fars)) /\
  apart (vadd (near_influence (K:=RNum) (/ (2 * PI)) (seq 0 (length (below_nodes (nodes t nears)))) (below_nodes (nodes t nears)) p)
              (induced (below_nodes (nodes t fars)) p))
        (velocity_of_vortices (K:=RNum) inf (/ (2 * PI)) 8 t p) <=
  / (2 * PI) * total (fun w => 6 / 100 * (strength (below_nodes [w]) / gap (node_of u) (node_of w))) (nodes t fars).
Proof.
  intros * Hi Hp F. split.
  - apply divide_perm in built as (_ & P & _). rewrite P. unfold below_nodes. rewrite <- map_app. apply Permutation_map.
    apply (vortices_cover t (far (K:=RNum) 8 (node_of u)) t [] nears fars); [destruct t; reflexivity|exact F].
  - unfold velocity_of_vortices. fold u. cbv zeta. rewrite F.
    set (N := near_influence _ _ _ _). set (A := induced _ _). set (B := far_influence _ _ _).
    replace (apart (vadd N A) _) with (apart A B).
    + unfold A, B. eapply Rle_trans; [apply (direct_apart inf 8 (node_of u) p (nodes t fars) ltac:(lra))|].
      * intros w Hw. apply (far_boxes _ _ _ _ F w Hw).
      * exact Hp.
      * intros w Hw. apply (far_boxes _ _ _ _ F w Hw).
      * exact Hi.
      * pose proof PI_RGT_0. apply Rmult_le_compat_l; [apply Rlt_le, Rinv_0_lt_compat; lra|]. apply (eight_sum _ _ _ p Hp F).
    + unfold apart, vadd. cbn [x y]. unr. f_equal. eqR. ring.
Qed.
End Bounds.

(** Four vortices; node limits of a body with segments of length 0.2. *)
Definition fz (z : Z) : f64 := f64_ofZ z.
Definition vort (x2 y : Z) : obj F64 := @mkObj F64 (@ndiv F64 (fz x2) (fz 2)) (fz y) (fz 1) (fz 0) (fz 0) (fz 10).
Definition four : list (obj F64) := [vort (-200) 0; vort (-99) 1; vort (-99) (-1); vort 2 0].
Definition C_1_2PI : f64 := f64_dec 15915494309189535 17.
Definition C_1_PI : f64 := f64_dec 3183098861837907 16.
Definition ftree : option (tree F64) := build (K:=F64) dbl_max (fz 1) (fz 20) 10 [] four [] [].
Definition alone (p : vec F64) : vec F64 := near_influence (K:=F64) C_1_2PI [0; 1; 2; 3]%nat (map particle four) p.
Definition fpt (x y : f64) : vec F64 := @mkVec F64 x y.

Lemma by_tree (o : option (tree F64)) (f : tree F64 -> bool) :
  match o with Some t => f t | None => false end = true -> exists t, o = Some t /\ f t = true.
Proof. destruct o as [t|]; [|discriminate]. intros H. exists t. auto. Qed.
Definition same_names (a b : list (list bool)) : bool := if list_eq_dec (list_eq_dec bool_dec) a b then true else false.

(** The vortex at (-100,0) has two far nodes: the pair, and the one on the right.
    The speed from these differs by less than a thousandth from that of the three
    vortices one by one. *)
Definition far_case (t : tree F64) : bool :=
  let u := find_node t (fz (-100)) (fz 0) in
  let w := y (far_of_particle (K:=F64) f64_inf C_1_2PI C_1_PI (fz 8) t u (fpt (fz (-100)) (fz 0))) in
  let d := y (alone (fpt (fz (-100)) (fz 0))) in
  same_names (snd (find_near (far (K:=F64) (fz 8) (node_of u)) [] t)) [[true; false]; [true; true]] &&
  @nltb F64 w (fz 0) && @nltb F64 (@nabs F64 (@nsub F64 w d)) (@ndiv F64 (@nabs F64 d) (fz 1000)).
Example C114_ex : exists t, ftree = Some t /\ far_case t = true.
Proof. apply by_tree. vm_compute. reflexivity. Qed.

(** A sensor between the two of the pair, one unit from either, and the look-up
    ends in the leaf of the vortex at (-100,0): the pair counts as one vortex
    right beside the sensor.  More than 300000 instead of less than one. *)
Definition sensor : vec F64 := fpt (@nsub F64 (@ndiv F64 (fz (-99)) (fz 2)) (@ndiv F64 (fz 1) (fz (2 ^ 20)))) (fz 0).
Theorem C115_refuted :
  (forall o, In o four -> @nleb F64 (fz 1) (@dist2 F64 (pr (particle o)) sensor) = true) /\
  @nltb F64 (@nabs F64 (y (alone sensor))) (fz 1) = true /\
  exists t, ftree = Some t /\
    @nltb F64 (fz 300000) (@nabs F64 (y (velocity_of_vortices (K:=F64) f64_inf C_1_2PI (fz 8) t sensor))) = true.
Proof.
  split; [|split].
  - apply Forall_forall. repeat constructor; vm_compute; reflexivity.
  - vm_compute. reflexivity.
  - apply (by_tree ftree (fun t => @nltb F64 (fz 300000) (@nabs F64 (y (velocity_of_vortices (K:=F64) f64_inf C_1_2PI (fz 8) t sensor))))).
    vm_compute. reflexivity.
Qed.

(** Half a unit to the right the look-up ends in the leaf of the pair. *)
Definition near_case (t : tree F64) : bool :=
  let p := fpt (fz (-49)) (fz 0) in
  let w := y (velocity_of_vortices (K:=F64) f64_inf C_1_2PI (fz 8) t p) in
  @nltb F64 (@nabs F64 (@nsub F64 w (y (alone p)))) (@ndiv F64 (@nabs F64 w) (fz 1000)).
Example C115_ex : exists t, ftree = Some t /\ near_case t = true.
Proof. apply by_tree. vm_compute. reflexivity. Qed.

Print Assumptions C114_boxes.
Print Assumptions C114_any.
Print Assumptions C114_eight.
Print Assumptions C115_partial.
Print Assumptions C115_refuted.
