(** C96-C99: the maps of vvplot. *)

From Coq Require Import List Reals ZArith Lra Psatz Bool Arith Ascii Lia Permutation.
From Verif.Base Require Import Num.
From Verif.Body Require Import Model.
From Verif.Vortex Require Import Model.
From Verif.Map Require Import Model Spec ProofsAngle ProofsStream ProofsFlow ProofsVelocity ProofsCut ProofsCell
  ProofsPressure ProofsFill ProofsExamples.
Import ListNotations.
Local Open Scope R_scope.

Notation still t := (fun b : rshape => at_rest (K := RNum) t (speed b)).

(** * C96 *)

(** The stream function is that of the flow of all vortices, sources and moving
    bodies, also of the circulation on the walls. *)
Theorem C96_stream_partial : forall f, principal f -> forall tiny10 (S : rspace) (e : R) ref near far p,
  (forall b, In b (bodies S) -> closed (walls b)) ->
  smooth (still tiny10) S e near far p ->
  stream_of (psi (K := RNum) ln f tiny10 (/ (4 * PI)) (/ (2 * PI)) S e ref near far) p
            (flow_of (still tiny10) S e ref near far p).
Proof. exact stream. Qed.
Print Assumptions C96_stream_partial.

(** The velocity is that flow when there are no sources, the bodies rest and have
    no circulation on their walls, and both maps use the same radii. *)
Theorem C96_velocity_partial : forall f, principal f -> forall tiny10 ls (S : rspace) nb (far : list rpart) (e : R) (p : rvec),
  sources S = [] ->
  (forall b, In b (bodies S) -> closed (walls b) /\ at_rest (K := RNum) tiny10 (speed b) = true) ->
  (forall b w, In b (bodies S) -> In w (walls b) -> slip (seg w) = false /\ wg w = 0) ->
  (forall o, In o far -> 1 / pe o * (1 / pe o) = e) ->
  (forall o, In o (picked nb (vortices S)) -> 1 / pe o * (1 / pe o) = x (pv o)) ->
  smooth (still tiny10) S e (picked nb (vortices S)) far p ->
  stream_of (psi (K := RNum) ln f tiny10 (/ (4 * PI)) (/ (2 * PI)) S e (at_ 0 0) (picked nb (vortices S)) far) p
            (velocity (K := RNum) tiny10 (/ (2 * PI)) (/ PI) ls S (Some (nb, far)) p).
Proof.
  intros f P tiny10 ls S nb far e p Hs Hb Hw Hf Hn Sm.
  rewrite (velocity_flow tiny10 ls S nb far e p Hs (fun b I => proj2 (Hb b I)) Hw Hf Hn Sm).
  apply stream; [exact P | intros b I; apply (Hb b I) | exact Sm].
Qed.
Print Assumptions C96_velocity_partial.

(** Circulation on the walls: in the stream function, not in the velocity. *)
Theorem C96_walls_refuted : forall f, principal f -> forall tiny10 ip ls, 0 < tiny10 ->
  exists (S : rspace) p, (forall b, In b (bodies S) -> closed (walls b)) /\ smooth (still tiny10) S 0 [] [] p /\
    ~ stream_of (psi (K := RNum) ln f tiny10 (/ (4 * PI)) (/ (2 * PI)) S 0 (at_ 0 0) [] []) p
        (velocity (K := RNum) tiny10 (/ (2 * PI)) ip ls S (Some ([], [])) p).
Proof.
  intros f P t ip ls H. exists wall_case, (at_ 3 0).
  assert (C : forall b, In b (bodies wall_case) -> closed (walls b)) by (intros b [<- | []]; apply square_closed).
  split; [exact C |]. split; [apply wall_smooth; exact H |]. intro St.
  pose proof (stream_unique _ _ _ _ (stream f P t wall_case 0 (at_ 0 0) [] [] (at_ 3 0) C (wall_smooth t H)) St) as E.
  pose proof (wall_flow t H) as W. rewrite E, wall_velocity in W by exact H. cbn [y at_] in W. change (T RNum) with R in *. lra.
Qed.
Print Assumptions C96_walls_refuted.

(** Sources: weaker in the velocity the longer the time step. *)
Theorem C96_source_refuted : forall f, principal f -> forall tiny10 ls,
  exists (S : rspace) p, bodies S = [] /\ smooth (still tiny10) S 0 [] [] p /\
    ~ stream_of (psi (K := RNum) ln f tiny10 (/ (4 * PI)) (/ (2 * PI)) S 0 (at_ 0 0) [] []) p
        (velocity (K := RNum) tiny10 (/ (2 * PI)) (/ PI) ls S (Some ([], [])) p).
Proof.
  intros f P t ls. exists source_case, (at_ 1 0). split; [reflexivity |]. split; [apply source_smooth |]. intro St.
  assert (C : forall b, In b (bodies source_case) -> closed (walls b)) by (intros b []).
  pose proof (stream_unique _ _ _ _ (stream f P t source_case 0 (at_ 0 0) [] [] (at_ 1 0) C (source_smooth _)) St) as E.
  pose proof (source_velocity t ls) as W. rewrite <- E, source_flow_case in W. lra.
Qed.
Print Assumptions C96_source_refuted.

(** A square that moves to the right, with a vortex and a source. *)
Definition moving_case : rspace :=
  mkSpace (K := RNum) [body_with (square 0 0 0 0 0 0 0 0) (at_ 1 0)] [] [mkPart (K := RNum) (at_ 0 5) 1 (at_ 0 0) 0] (at_ 1 0) 1.
Example C96_ex : forall tiny10, tiny10 <= 1 ->
  stream_of (psi (K := RNum) ln Ratan2 tiny10 (/ (4 * PI)) (/ (2 * PI)) moving_case 0 (at_ 0 0)
               [mkPart (K := RNum) (at_ 4 0) 2 (at_ 1 0) 1] []) (at_ 3 0)
    (flow_of (still tiny10) moving_case 0 (at_ 0 0) [mkPart (K := RNum) (at_ 4 0) 2 (at_ 1 0) 1] [] (at_ 3 0)).
Proof.
  intros t Ht. apply C96_stream_partial.
  - apply Ratan2_principal.
  - intros b [<- | []]. apply square_closed.
  - unfold smooth, moving_case. cbn [bodies sources In]. split; [| split; [| split; [| split]]].
    + intros b w [<- | []] Hw. apply in_square in Hw. destruct Hw as [_ [X Y]]. unfold sq. cbn [x y at_]. change (T RNum) with R in *. nra.
    + intros b w [<- | []] _ Hw. apply in_square in Hw. destruct Hw as [_ [X Y]]. intros [s [B [E _]]]. cbn [x y at_ mid body_with] in E.
      change (T RNum) with R in *. nra.
    + intros o [<- | []]. cbn. lra.
    + intros o [].
    + intros o [<- | []]. unfold sq. cbn. lra.
Qed.

(** * C97 *)

(** Along every side of a cell the corrected values grow by the flow of everything
    but the sources and the part of each source's flow that is seen there. *)
Theorem C97_cell_partial : forall f, principal f -> forall tiny10 i4 (S : rspace) e ref (near far : rvec -> list rpart)
    (o : rvec) (step : R) xres yres order,
  0 < step -> all_nodes xres yres order -> (Z.of_nat xres <= 65536)%Z -> (Z.of_nat yres <= 65536)%Z ->
  none_right o step xres yres (sources S) ->
  let psi_of S p := psi (K := RNum) ln f tiny10 i4 (/ (2 * PI)) S e ref (near p) (far p) p in
  let z i j := cell_corners (K := RNum) (fun i j => psi_of S (point o step i j)) (gap_list (sources S) o step order) i j in
  forall i j k a b u v, (j < yres)%nat ->
  nth_error (cell_points o step i j) k = Some a -> nth_error (cell_points o step i j) (Datatypes.S k) = Some b ->
  nth_error (z i j) k = Some u -> nth_error (z i j) (Datatypes.S k) = Some v ->
  (forall s, In s (sources S) -> ~ between a b (pr s)) ->
  exists t : rpart -> R,
    (forall s, In s (sources S) -> seen (vminus a (pr s)) (vminus b (pr s)) (t s)) /\
    v - u = psi_of (without S) b - psi_of (without S) a + total (fun s : rpart => pg s * t s) (sources S) / (2 * PI).
Proof.
  intros f P tiny10 i4 S e ref near far o step xres yres order Hs All Hx Hy Hr psi_of z i j k a b u v.
  exact (cell_edges f P tiny10 i4 S e ref near far o step xres yres order Hs All Hx Hy Hr i j k a b u v).
Qed.
Print Assumptions C97_cell_partial.

(** What goes wrong in a cell: the first side of the cell (i, 0) of a picture with one source. *)
Definition wrong_step (f : R -> R -> R) (tiny10 i4 : R) (a b : R) (order : list (nat * nat)) (i : nat) : Prop :=
  let psi_of S p := psi (K := RNum) ln f tiny10 i4 (/ (2 * PI)) S 0 (at_ 0 0) [] [] p in
  exists u v rest,
    cell_corners (K := RNum) (fun i j => psi_of (right_case a b) (point (at_ 0 0) 1 i j))
      (gap_list (sources (right_case a b)) (at_ 0 0) 1 order) i 0 = u :: v :: rest /\
    forall t, seen (vminus (point (at_ 0 0) 1 i 0) (at_ a b)) (vminus (point (at_ 0 0) 1 i 1) (at_ a b)) t -> v - u <> t / (2 * PI).

(** A source to the right of the picture. *)
Theorem C97_right_refuted : forall f, principal f -> forall tiny10 i4 order, all_nodes 2 2 order ->
  wrong_step f tiny10 i4 10 (/ 2) order 0.
Proof.
  intros f P t i4 order All. pose proof PI_RGT_0 as HPI. unfold wrong_step. cbv zeta.
  rewrite no_gaps_right; [| | lra].
  2:{ intros [c d] H. apply (Permutation_in _ All) in H. apply in_prod_iff in H. rewrite !in_seq in H. cbn. lia. }
  unfold cell_corners, shifted. cbn [fold_left]. do 3 eexists. split; [reflexivity |].
  intros s [B _] E. rewrite !psi_right in E. unfold point in E. cbn [x y at_ INR] in E.
  pose proof (jump f P (0 + 0 * 1 - 10) (0 + 0 * 1 - / 2) (0 + 1 * 1 - / 2)) as J. specialize (J ltac:(lra) ltac:(lra) ltac:(lra)).
  change (T RNum) with R in *.
  set (A := f (0 + 1 * 1 - / 2) (0 + 0 * 1 - 10)) in *. set (C := f (0 + 0 * 1 - / 2) (0 + 0 * 1 - 10)) in *.
  assert (A - C = s). { apply Rmult_eq_reg_r with (/ (2 * PI)); [| apply Rinv_neq_0_compat; lra]. unfold Rdiv in E. lra. }
  lra.
Qed.
Print Assumptions C97_right_refuted.

(** A picture with more columns than a 16-bit number has values. *)
Theorem C97_wide_refuted : forall f, principal f -> forall tiny10 i4 order, all_nodes (Z.to_nat 65540) 2 order ->
  wrong_step f tiny10 i4 (65536 + / 2) (/ 2) order 1.
Proof.
  intros f P t i4 order All. pose proof PI_RGT_0 as HPI. unfold wrong_step. cbv zeta.
  unfold cell_corners. cbv zeta. rewrite wide_shift. do 3 eexists. split; [reflexivity |].
  intros s [B _] E. rewrite !psi_right in E. unfold point in E. cbn [x y at_ INR] in E.
  pose proof (jump f P (0 + 1 * 1 - (65536 + / 2)) (0 + 0 * 1 - / 2) (0 + 1 * 1 - / 2)) as J. specialize (J ltac:(lra) ltac:(lra) ltac:(lra)).
  change (T RNum) with R in *.
  set (A := f (0 + 1 * 1 - / 2) (0 + 1 * 1 - (65536 + / 2))) in *. set (C := f (0 + 0 * 1 - / 2) (0 + 1 * 1 - (65536 + / 2))) in *.
  assert (A - C = s). { apply Rmult_eq_reg_r with (/ (2 * PI)); [| apply Rinv_neq_0_compat; lra]. unfold Rdiv in E. lra. }
  lra.
Qed.
Print Assumptions C97_wide_refuted.

(** A source on a line of nodes may belong to no cell: rounding. *)
Definition tenth64 : F64 := (nofZ 1 / nofZ 10)%num.
Definition lost_source : @part F64 := mkPart (mkVec (nofZ 1 / nofZ 4)%num (nofZ 6 * tenth64)%num) (nofZ 1) (mkVec (nofZ 0) (nofZ 0)) (nofZ 0).
Theorem C97_rounding_refuted :
  let order := list_prod (seq 0 10) (seq 0 10) in
  let o := mkVec (K := F64) (nofZ 0) (nofZ 0) in
  nltb (nofZ 0) (y (pr lost_source)) = true /\ nltb (y (pr lost_source)) (y (node o tenth64 9 9)) = true /\
  nltb (nofZ 0) (x (pr lost_source)) = true /\ nltb (x (pr lost_source)) (x (node o tenth64 9 9)) = true /\
  gap_list [lost_source] o tenth64 order = [].
Proof.
  cbv zeta. repeat split; try (vm_compute; reflexivity).
Qed.
Print Assumptions C97_rounding_refuted.

(** A source in the middle of a picture of 3 by 3 nodes; the side crossed by its cut. *)
Example C97_ex : forall tiny10 i4, let S := right_case (3 / 2) (/ 2) in
  exists u v t, nth_error (cell_corners (K := RNum) (fun i j => psi (K := RNum) ln Ratan2 tiny10 i4 (/ (2 * PI)) S 0 (at_ 0 0) [] [] (point (at_ 0 0) 1 i j))
      (gap_list (sources S) (at_ 0 0) 1 (list_prod (seq 0 3) (seq 0 3))) 0 0) 0 = Some u /\
    nth_error (cell_corners (K := RNum) (fun i j => psi (K := RNum) ln Ratan2 tiny10 i4 (/ (2 * PI)) S 0 (at_ 0 0) [] [] (point (at_ 0 0) 1 i j))
      (gap_list (sources S) (at_ 0 0) 1 (list_prod (seq 0 3) (seq 0 3))) 0 0) 1 = Some v /\
    seen (at_ (-3 / 2) (- / 2)) (at_ (-3 / 2) (/ 2)) t /\ v - u = t / (2 * PI).
Proof.
  intros t i4 S.
  destruct (nth_error (cell_corners (K := RNum) (fun i j => psi (K := RNum) ln Ratan2 t i4 (/ (2 * PI)) S 0 (at_ 0 0) [] [] (point (at_ 0 0) 1 i j))
      (gap_list (sources S) (at_ 0 0) 1 (list_prod (seq 0 3) (seq 0 3))) 0 0) 0) as [u |] eqn:Eu; [| discriminate Eu].
  destruct (nth_error (cell_corners (K := RNum) (fun i j => psi (K := RNum) ln Ratan2 t i4 (/ (2 * PI)) S 0 (at_ 0 0) [] [] (point (at_ 0 0) 1 i j))
      (gap_list (sources S) (at_ 0 0) 1 (list_prod (seq 0 3) (seq 0 3))) 0 0) 1) as [v |] eqn:Ev; [| discriminate Ev].
  destruct (C97_cell_partial Ratan2 Ratan2_principal t i4 S 0 (at_ 0 0) (fun _ => []) (fun _ => []) (at_ 0 0) 1 3 3 (list_prod (seq 0 3) (seq 0 3))
    Rlt_0_1 (Permutation_refl _) ltac:(lia) ltac:(lia)) with (i := 0%nat) (j := 0%nat) (k := 0%nat) (a := point (at_ 0 0) 1 0 0) (b := point (at_ 0 0) 1 0 1) (u := u) (v := v)
    as [a [Ha E]]; try reflexivity; try assumption; try lia.
  - intros s [<- | []]. left. unfold right_case. cbn. lra.
  - intros s [<- | []] [q [B [E _]]]. unfold point in E. cbn in E. change (T RNum) with R in *. lra.
  - exists u, v. exists (a (mkPart (K := RNum) (at_ (3 / 2) (/ 2)) 1 (at_ 0 0) 0)). split; [reflexivity |]. split; [reflexivity |]. split.
    + specialize (Ha (mkPart (K := RNum) (at_ (3 / 2) (/ 2)) 1 (at_ 0 0) 0) (or_introl eq_refl)).
      replace (at_ (-3 / 2) (- / 2)) with (vminus (point (at_ 0 0) 1 0 0) (at_ (3 / 2) (/ 2)))
        by (apply vec_eq; unfold vminus, point; cbn; rfield).
      replace (at_ (-3 / 2) (/ 2)) with (vminus (point (at_ 0 0) 1 0 1) (at_ (3 / 2) (/ 2)))
        by (apply vec_eq; unfold vminus, point; cbn; rfield).
      exact Ha.
    + rewrite E. unfold S. rewrite !psi_without. unfold right_case. cbn [sources total pg]. pose proof PI_RGT_0. rfield. lra.
Qed.

(** * C98 *)

(** In its own frame the pressure vanishes far away when the flow there is that at infinity. *)
Theorem C98_far : forall (i2 : R) (S : rspace) (vel : rvec -> rvec),
  vanishes (fun p => x (vel p) - x (flow S)) -> vanishes (fun p => y (vel p) - y (flow S)) ->
  vanishes (pressure (K := RNum) i2 S vel None).
Proof. exact pressure_far. Qed.
Print Assumptions C98_far.
Example C98_ex : vanishes (pressure (K := RNum) (/ (2 * PI)) (sheet_case (square 0 0 0 0 1 0 0 (-1))) (fun _ => at_ 0 0) None) /\
  pressure (K := RNum) (/ (2 * PI)) (sheet_case (square 0 0 0 0 1 0 0 (-1))) (fun _ => at_ 0 0) None (at_ 3 0) = / (2 * PI) * (3 / 10).
Proof.
  split; [| apply sheet_first].
  apply C98_far; (apply (v_ext (fun _ => 0)); [intro p; cbn; rring | apply v_zero]).
Qed.

(** After the map of vorticity it is another pressure: the circulation of the walls counts twice. *)
Theorem C98_after_partial : forall tiny10 tiny4 ip ls remove (S : rspace) (nd : rspace -> rvec -> option (list nat * list rpart)) ref p,
  (forall S T q, vortices S = vortices T -> nd S q = nd T q) ->
  let vel S q := velocity (K := RNum) tiny10 (/ (2 * PI)) ip ls S (nd S q) q in
  pressure_map (K := RNum) tiny4 (/ (2 * PI)) remove true S vel ref p
  = pressure_map tiny4 (/ (2 * PI)) remove false S vel ref p
    - total (fun b => sheet (dt S) p wg 0 (walls b)) (bodies S) / (2 * PI).
Proof. exact pressure_after. Qed.
Print Assumptions C98_after_partial.
Theorem C98_after_refuted : forall tiny10 tiny4 ip ls remove,
  exists (S : rspace) p, let vel S q := velocity (K := RNum) tiny10 (/ (2 * PI)) ip ls S (Some ([], [])) q in
  pressure_map (K := RNum) tiny4 (/ (2 * PI)) remove true S vel None p <> pressure_map tiny4 (/ (2 * PI)) remove false S vel None p.
Proof.
  intros t10 t4 ip ls remove. exists wall_case, (at_ 3 0). intros vel E.
  assert (X : forall a b c : R, a = b -> a = b - c -> c = 0) by (intros; lra).
  pose proof (X _ _ _ E (C98_after_partial t10 t4 ip ls remove wall_case (fun _ _ => Some ([], [])) None (at_ 3 0) (fun _ _ _ _ => eq_refl))) as Z.
  unfold wall_case in Z. cbn [bodies dt total walls body_with] in Z. rewrite sheet_wg in Z.
  pose proof PI_RGT_0. assert (0 < / (2 * PI)) by (apply Rinv_0_lt_compat; lra). unfold Rdiv in Z. change (T RNum) with R in *. nra.
Qed.
Print Assumptions C98_after_refuted.

(** The pressure depends on which corner is the first, even when the circulations add up to zero. *)
Theorem C98_corner_refuted : exists b c (S T : rspace) p, turned b c /\ closed (walls b) /\ total (fun w : rwall => wgsum w) (walls b) = 0 /\
  S = mkSpace (K := RNum) [b] [] [] (at_ 0 0) 1 /\ T = mkSpace (K := RNum) [c] [] [] (at_ 0 0) 1 /\
  pressure (K := RNum) (/ (2 * PI)) S (fun _ => at_ 0 0) None p <> pressure (K := RNum) (/ (2 * PI)) T (fun _ => at_ 0 0) None p.
Proof.
  exists (body_with (square 0 0 0 0 1 0 0 (-1)) (at_ 0 0)),
         (body_with (tl (square 0 0 0 0 1 0 0 (-1)) ++ firstn 1 (square 0 0 0 0 1 0 0 (-1))) (at_ 0 0)),
         (sheet_case (square 0 0 0 0 1 0 0 (-1))), (sheet_case (tl (square 0 0 0 0 1 0 0 (-1)) ++ firstn 1 (square 0 0 0 0 1 0 0 (-1)))), (at_ 3 0).
  split; [repeat split; exists (firstn 1 (square 0 0 0 0 1 0 0 (-1))), (tl (square 0 0 0 0 1 0 0 (-1))); split; reflexivity |].
  split; [apply square_closed |]. split; [cbn; rring |]. split; [reflexivity |]. split; [reflexivity |].
  rewrite sheet_first, sheet_turned. pose proof PI_RGT_0. assert (0 < / (2 * PI)) by (apply Rinv_0_lt_compat; lra). lra.
Qed.
Print Assumptions C98_corner_refuted.

(** At the place of a vortex there is no pressure. *)
Theorem C98_nan_refuted :
  let o := mkPart (K := F64) (mkVec (nofZ 1) (nofZ 2)) (nofZ 1) (mkVec (nofZ 1) (nofZ 0)) (nofZ 1) in
  nnan (pressure (K := F64) (nofZ 1) (mkSpace [] [o] [] (mkVec (nofZ 1) (nofZ 0)) (nofZ 1)) (fun _ => mkVec (nofZ 1) (nofZ 0)) None (mkVec (nofZ 1) (nofZ 2))) = true.
Proof. vm_compute. reflexivity. Qed.
Print Assumptions C98_nan_refuted.

(** * C99 *)

(** A map that is evaluated for the first time holds at every node the value of that
    node, whatever the order of the threads, and keeps its settings. *)
Theorem C99_values : forall (K : Num) (S : @space K) k inside value o step xres yres order m m',
  evaluate S k inside value o step xres order m = Done m' -> evaluated m = false ->
  all_nodes xres yres order -> length (vals m) = (xres * yres)%nat ->
  evaluated m' = true /\ eps_mult m' = eps_mult m /\ frame m' = frame m /\ mode m' = mode m /\
  exists ref, holds_values (fun i j => value_at k inside (value m ref) (node o step i j)) xres yres (vals m') /\
    (frame m = "f"%char -> k <> Vorticity -> ref = flow S) /\ (frame m = "o"%char -> ref = mkVec (nofZ 0) (nofZ 0)).
Proof.
  intros K S k inside value o step xres yres order m m' E N All L. unfold evaluate in E.
  destruct (accept S k m) as [ref | |] eqn:A; try discriminate. rewrite N in E.
  assert (M : m' = mkPicture (eps_mult m) (frame m) (mode m) true
    (fill (fun i j => value_at k inside (value m ref) (node o step i j)) xres order (vals m))) by congruence.
  subst m'. cbn [evaluated eps_mult frame mode vals]. repeat split. exists ref. split; [apply fill_values; assumption |].
  split; intros F.
  - intro NV. unfold accept, frame_speed in A. rewrite F in A. cbn in A.
    destruct k; [| contradiction | |]; cbn in A; repeat (match type of A with (if ?c then _ else _) = _ => destruct c end); congruence.
  - unfold accept, frame_speed in A. rewrite F in A. cbn in A.
    destruct k; cbn in A; repeat (match type of A with (if ?c then _ else _) = _ => destruct c end); try discriminate A;
      symmetry; unfold vzero in A; congruence.
Qed.
Print Assumptions C99_values.
Example C99_ex :
  evaluate (K := QNum) (mkSpace [] [] [] (mkVec (nofZ 1) (nofZ 0)) (nofZ 1)) Velocity (fun _ => false)
    (velocity_value (fun p => p)) (mkVec (nofZ 0) (nofZ 0)) (nofZ 1) 2 [(1, 1); (0, 0); (0, 1); (1, 0)]%nat
    (mkPicture (nofZ 0) "f" "x" false [nofZ 7; nofZ 7; nofZ 7; nofZ 7])
  = Done (mkPicture (K := QNum) (nofZ 0) "f" "x" true [nofZ (-1); nofZ 0; nofZ (-1); nofZ 0]).
Proof. vm_compute. reflexivity. Qed.

(** Settings that are wrong are refused: a size that is not positive, an unknown frame, an unknown component. *)
Theorem C99_refused_partial : forall (S : rspace) k inside value o step xres order (m : @picture RNum),
  (k <> Velocity -> eps_mult m <= 0 -> evaluate (K := RNum) S k inside value o step xres order m = Throw) /\
  (k <> Vorticity -> ~ In (frame m) ["o"; "f"; "b"; "s"]%char -> evaluate (K := RNum) S k inside value o step xres order m = Throw) /\
  (k = Velocity -> ~ In (mode m) ["x"; "y"]%char -> (frame m = "b"%char -> bodies S <> []) -> evaluate (K := RNum) S k inside value o step xres order m = Throw).
Proof.
  intros S k inside value o step xres order m. unfold evaluate, accept. repeat split.
  - intros N H. assert (E : nleb (eps_mult m) (@nofZ RNum 0) = true) by (apply Rleb_true; exact H).
    destruct k; [contradiction | | |]; rewrite E; reflexivity.
  - intros N H. cbn [In] in H. unfold frame_speed.
    assert (F : forall c, In c ["o"; "f"; "b"; "s"]%char -> Ascii.eqb (frame m) c = false).
    { intros c Hc. apply Ascii.eqb_neq. intros E. apply H. rewrite E. exact Hc. }
    rewrite !F by (cbn; tauto). destruct k; [| contradiction | |]; try destruct (nleb _ _); reflexivity.
  - intros -> H B. cbn [In] in H.
    assert (F : forall c, In c ["x"; "y"]%char -> Ascii.eqb (mode m) c = false).
    { intros c Hc. apply Ascii.eqb_neq. intros E. apply H. rewrite E. exact Hc. }
    rewrite !F by (cbn; tauto). unfold frame_speed.
    destruct (Ascii.eqb_spec (frame m) "o"); [reflexivity |]. destruct (Ascii.eqb_spec (frame m) "f"); [reflexivity |].
    destruct (Ascii.eqb_spec (frame m) "b") as [E | E]; [| reflexivity]. destruct (bodies S) as [| b bs] eqn:Q; [exfalso; apply (B E); reflexivity | reflexivity].
Qed.
Print Assumptions C99_refused_partial.

(** A size that is not a number is accepted. *)
Theorem C99_nan_refuted : forall (S : @space F64) v,
  accept (K := F64) S Vorticity (mkPicture (K := F64) f64_nan "o" "x" false v) = Done vzero.
Proof. intros. reflexivity. Qed.
Print Assumptions C99_nan_refuted.
(** Settings changed after the first evaluation have no effect. *)
Theorem C99_again_refuted : forall (K : Num) (S : @space K) inside value o step xres order v,
  evaluate S Velocity inside value o step xres order (mkPicture (nofZ 1) "o" "y" true v) = Done (mkPicture (nofZ 1) "o" "y" true v).
Proof. intros. reflexivity. Qed.
Print Assumptions C99_again_refuted.
(** The frame of the first body without any body. *)
Theorem C99_frame_refuted : forall (K : Num) (S : @space K) inside value o step xres order v, bodies S = [] ->
  evaluate S Velocity inside value o step xres order (mkPicture (nofZ 1) "b" "x" false v) = Undefined.
Proof. intros. unfold evaluate, accept, frame_speed. cbn. rewrite H. reflexivity. Qed.
Print Assumptions C99_frame_refuted.
(** Beside a wall there is vorticity although there is not a single vortex. *)
Theorem C99_wall_refuted : forall expf erff ip size, erff 0 = 0 -> vorticity (K := RNum) expf erff ip [] 0 size (at_ 0 0) = / 2.
Proof.
  intros expf erff ip size E. unfold vorticity. cbn [fold_left]. cbv zeta. change (@nofZ RNum 0) with 0.
  replace (@ndiv RNum (0 : R) (@nmul RNum size size)) with (0 : R) by (cbn [nmul ndiv RNum]; unfold Rdiv; rring).
  replace (@nltb RNum (0 : R) (nofZ 3)) with true by (symmetry; apply Rltb_true; change (0 < 3); lra).
  rewrite E. change (@nofZ RNum 1) with 1. unfold half. cbn [nadd nsub nmul ndiv nofZ RNum]. rfield.
Qed.
Print Assumptions C99_wall_refuted.
