(** Properties C36-C38, C48, C49: isolines. *)

From Coq Require Import ZArith Bool List Lia Reals Lra.
From Flocq Require Import Core.Core IEEE754.BinarySingleNaN.
From Verif.Base Require Import Num F64 F32.
From Verif.Isoline Require Import Model Spec Proofs ProofsGrid ProofsBorder ProofsLevels.
Import ListNotations.
Local Open Scope Z_scope.

(** A grid of integers, first index the row [j]. *)
Definition grid (m : list (list Z)) (i j : Z) : f32 :=
  f32_ofZ (nth (Z.to_nat i) (nth (Z.to_nat j) m []) 0).
Definition pt (x y : Z) (d : Z) : point :=
  (f32_div (f32_ofZ x) (f32_ofZ d), f32_div (f32_ofZ y) (f32_ofZ d)).

Definition show (p : point) := (B2SF (fst p), B2SF (snd p)).

Lemma shown_second (o : option (list (list point))) p q r s :
  option_map (map (map show)) o = Some [map show [p; q]; map show [r; s]] ->
  exists ls, o = Some ls /\ In [r; s] ls.
Proof.
  assert (I : forall p q, show p = show q -> p = q).
  { intros (p1, p2) (q1, q2) Q. injection Q as Q1 Q2. apply B2SF_inj in Q1. apply B2SF_inj in Q2. congruence. }
  destruct o as [ls|]; [|discriminate]. simpl. intros H. injection H as H.
  destruct ls as [|l1 [|l2 [|]]]; try discriminate. injection H as _ H.
  destruct l2 as [|p1 [|p2 [|]]]; try discriminate. cbn [map] in H.
  assert (K1 : p1 = r) by (apply I; congruence). assert (K2 : p2 = s) by (apply I; congruence).
  subst. eexists. split; [reflexivity|]. right; left; reflexivity.
Qed.

(** * C36 *)

(** Whatever segments are committed in whatever order, the lines draw every
    edge between two different places as often as it was committed, draw no
    other edge, and have at least two points. *)
Theorem C36_edges_conserved : forall segs,
  exists ls, commit_all point_eq [] segs = Some ls /\
    (forall l, In l ls -> (2 <= length l)%nat) /\
    (forall u v, u <> v ->
       count place place_dec u v (flat_map edges ls) = count place place_dec u v segs).
Proof.
  intros segs.
  destruct (commit_all_spec point_eq place place_dec point_eq_place segs [] (Forall_nil _)) as (ls & H & L & C).
  exists ls. split; [assumption|]. split.
  - intros l Hl. rewrite Forall_forall in L. apply (L l Hl).
  - intros u v N. specialize (C u v N). unfold all_edges in C. simpl in C.
    change (count place place_dec u v []) with 0%nat in C.
    rewrite Nat.add_0_r in C. exact C.
Qed.
Print Assumptions C36_edges_conserved.

(** Three segments committed out of order become one line. *)
Example C36_case :
  option_map (map (map show))
    (commit_all point_eq [] [(pt 0 0 1, pt 1 0 1); (pt 3 0 1, pt 2 0 1); (pt 1 0 1, pt 2 0 1)])
  = Some [map show [pt 3 0 1; pt 2 0 1; pt 1 0 1; pt 1 0 1; pt 0 0 1]].
Proof. vm_compute. reflexivity. Qed.

(** * C37 *)

Theorem C37_even_crossings : forall x y C a b c d,
  let z := mkCell a b c d a in
  (forall v, In v [a; b; c; d] -> is_finite v = true /\ Beqb v C = false) ->
  is_finite C = true ->
  In (length (crossings x y C z)) [0; 2; 4]%nat /\
  length (rect_segments x y C z) = Nat.div2 (length (crossings x y C z)).
Proof.
  intros x y C a b c d z H HC.
  assert (E : (let n := length (crossings x y C z) in n = 0 \/ n = 2 \/ n = 4)%nat).
  { apply even_crossings; try reflexivity; repeat split; try assumption; apply H; simpl; auto. }
  cbv zeta in E. split.
  - simpl. destruct E as [E|[E|E]]; rewrite E; auto.
  - unfold rect_segments. destruct (crossings x y C z) as [|p [|q [|r [|s [|t u]]]]]; simpl in *; lia || reflexivity.
Qed.
Print Assumptions C37_even_crossings.
Example C37_case :
  length (crossings (f32_ofZ 0) (f32_ofZ 0) (f32_ofZ 1)
    (mkCell (f32_ofZ 0) (f32_ofZ 2) (f32_ofZ 0) (f32_ofZ 2) (f32_ofZ 0))) = 4%nat.
Proof. vm_compute. reflexivity. Qed.

(** No line ends inside the grid: it is closed, or both its ends are on the border. *)
Theorem C37_no_inner_end : forall at_ xres yres lv,
  2 <= xres <= 2 ^ 24 -> 2 <= yres <= 2 ^ 24 ->
  (forall v i j, In v lv -> 0 <= i < xres -> 0 <= j < yres ->
     moderate (at_ i j) /\ moderate (f64_to_f32 v) /\ Beqb (at_ i j) (f64_to_f32 v) = false) ->
  exists ls, isolines at_ [] xres yres lv = Some ls /\
  forall l, In l ls -> exists f b, ends l = [f; b] /\
    (place f = place b \/ (on_border xres yres f /\ on_border xres yres b)).
Proof.
  intros at_ xres yres lv Hx Hy H.
  destruct (C36_edges_conserved (all_segments at_ [] xres yres lv)) as (ls & E & _).
  exists ls. split; [exact E|]. intros l Hl. eapply no_inner_end; eassumption.
Qed.
Print Assumptions C37_no_inner_end.

(** A pit in the middle of the grid gives one closed line of four edges. *)
Example C37_closed_case :
  match isolines (grid [[2;2;2];[2;0;2];[2;2;2]]) [] 3 3 [f64_ofZ 1] with
  | Some [l] => length (filter (fun e => negb (point_eq (fst e) (snd e))) (edges l)) = 4%nat /\
                option_map show (front l) = option_map show (back l)
  | _ => False
  end.
Proof. vm_compute. split; reflexivity. Qed.
Example C37_closed_case_hyps : forall v i j, In v [f64_ofZ 1] -> 0 <= i < 3 -> 0 <= j < 3 ->
  let at_ := grid [[2;2;2];[2;0;2];[2;2;2]] in
  moderate (at_ i j) /\ moderate (f64_to_f32 v) /\ Beqb (at_ i j) (f64_to_f32 v) = false.
Proof.
  intros v i j [<-|[]] Hi Hj at_.
  assert (M : forall z, 0 <= z <= 2 -> moderate (f32_ofZ z)).
  { intros z Hz. destruct (f32_ofZ_R z) as (E & F); [lia|]. split; [assumption|]. rewrite E.
    rewrite Rabs_pos_eq by (apply IZR_le; lia).
    apply Rle_trans with (bpow radix2 2); [apply (IZR_le z 4); lia|apply bpow_le; lia]. }
  assert (E1 : f64_to_f32 (f64_ofZ 1) = f32_ofZ 1)
    by (apply B2SF_inj; vm_compute; reflexivity).
  rewrite E1.
  assert (I : i = 0 \/ i = 1 \/ i = 2) by lia. assert (J : j = 0 \/ j = 1 \/ j = 2) by lia.
  destruct I as [->|[->| ->]]; destruct J as [->|[->| ->]];
    (split; [unfold at_, grid; apply M; vm_compute; split; discriminate
            |split; [apply M; lia|vm_compute; reflexivity]]).
Qed.

(** When the level equals a value of the field, a line can end in the middle of
    the grid: here at (1.5, 1) of the square [0,2]x[0,2]. *)
Theorem C37_level_equal_value_refuted :
  exists at_ lv ls l f b, isolines at_ [] 3 3 lv = Some ls /\ In l ls /\ ends l = [f; b] /\
    (forall i j, 0 <= i < 3 -> 0 <= j < 3 -> moderate (at_ i j)) /\
    place f <> place b /\ ~ on_border 3 3 f.
Proof.
  exists (grid [[0;0;0];[0;0;2];[0;1;0]]), [f64_ofZ 1].
  assert (E : exists ls l b, isolines (grid [[0;0;0];[0;0;2];[0;1;0]]) [] 3 3 [f64_ofZ 1] = Some ls /\
     In l ls /\ ends l = [pt 3 2 2; b] /\ place (pt 3 2 2) <> place b).
  { assert (K : option_map (map (map show)) (isolines (grid [[0;0;0];[0;0;2];[0;1;0]]) [] 3 3 [f64_ofZ 1])
                = Some [map show [pt 2 4 2; pt 4 3 2]; map show [pt 3 2 2; pt 4 1 2]]) by (vm_compute; reflexivity).
    apply shown_second in K as (ls & K1 & K2).
    exists ls, [pt 3 2 2; pt 4 1 2], (pt 4 1 2). split; [assumption|]. split; [assumption|].
    split; [reflexivity|]. vm_compute. congruence. }
  destruct E as (ls & l & b & E1 & E2 & E3 & E4).
  exists ls, l, (pt 3 2 2), b. split; [assumption|]. split; [assumption|]. split; [assumption|].
  split; [|split; [assumption|]].
  - intros i j Hi Hj.
    assert (M : forall z, 0 <= z <= 2 -> moderate (f32_ofZ z)).
    { intros z Hz. destruct (f32_ofZ_R z) as (E & F); [lia|]. split; [assumption|]. rewrite E.
      rewrite Rabs_pos_eq by (apply IZR_le; lia).
      apply Rle_trans with (bpow radix2 2); [apply (IZR_le z 4); lia|apply bpow_le; lia]. }
    assert (I : i = 0 \/ i = 1 \/ i = 2) by lia. assert (J : j = 0 \/ j = 1 \/ j = 2) by lia.
    destruct I as [->|[->| ->]]; destruct J as [->|[->| ->]];
      unfold grid; apply M; vm_compute; split; discriminate.
  - assert (X : B2R (fst (pt 3 2 2)) = (3 / 2)%R).
    { assert (S : B2SF (fst (pt 3 2 2)) = SpecFloat.S754_finite false 12582912 (-23)) by (vm_compute; reflexivity).
      rewrite <- SF2R_B2SF, S. unfold SF2R, F2R. simpl. lra. }
    assert (Y : B2R (snd (pt 3 2 2)) = 1%R).
    { assert (S : B2SF (snd (pt 3 2 2)) = SpecFloat.S754_finite false 8388608 (-23)) by (vm_compute; reflexivity).
      rewrite <- SF2R_B2SF, S. unfold SF2R, F2R. simpl. lra. }
    unfold on_border. rewrite X, Y. simpl (IZR (3 - 1)). intros [(_ & [H|H])|(_ & [H|H])]; lra.
Qed.
Print Assumptions C37_level_equal_value_refuted.

(** * C38 *)

(** Right edge of cell (i,j) and left edge of cell (i+1,j): same end values with
    any gaps, and the same crossings bit for bit. *)
Theorem C38_shared_vertical_edge : forall at_ gaps i j C,
  0 <= i < 2 ^ 24 ->
  let a := corners at_ gaps i j in
  let b := corners at_ gaps (i + 1) j in
  (forall v, In v [z0 b; z1 b] -> is_finite v = true /\ Beqb v C = false) -> is_finite C = true ->
  crossing_right (f32_ofZ i) (f32_ofZ j) C a = crossing_left (f32_ofZ (i + 1)) (f32_ofZ j) C b.
Proof.
  intros at_ gaps i j C Hi a b H HC.
  destruct (shared_vertical at_ gaps i j (f32_ofZ j) C Hi) as (_ & _ & K).
  apply K; repeat split; try assumption; apply H; simpl; auto.
Qed.
Print Assumptions C38_shared_vertical_edge.

(** Top edge of cell (i,j) and bottom edge of cell (i,j+1), where no gap of row
    j+1 lies at or right of column i. *)
Theorem C38_shared_horizontal_edge : forall at_ gaps i j C,
  0 <= j < 2 ^ 24 ->
  (forall g, In g gaps -> gyj g = j + 1 -> gxi g < i) ->
  let a := corners at_ gaps i j in
  let b := corners at_ gaps i (j + 1) in
  (forall v, In v [z1 a; z2 a] -> is_finite v = true /\ Beqb v C = false) -> is_finite C = true ->
  crossing_top (f32_ofZ i) (f32_ofZ j) C a = crossing_bottom (f32_ofZ i) (f32_ofZ (j + 1)) C b.
Proof.
  intros at_ gaps i j C Hj Hg a b H HC.
  destruct (shared_horizontal at_ gaps i j (f32_ofZ i) C Hj Hg) as (_ & _ & K).
  apply K; repeat split; try assumption; apply H; simpl; auto.
Qed.
Print Assumptions C38_shared_horizontal_edge.

(** Values 0 and 3, level 1: the crossing (5, 7+1/3) from both sides; and the
    hypotheses hold. *)
Example C38_case :
  let at_ := fun i j : Z => if j =? 7 then f32_ofZ 0 else f32_ofZ 3 in
  map show (crossing_right (f32_ofZ 4) (f32_ofZ 7) (f32_ofZ 1) (corners at_ [] 4 7))
    = [show (f32_ofZ 5, f32_add (f32_ofZ 7) (f32_div (f32_ofZ 1) (f32_ofZ 3)))] /\
  map show (crossing_left (f32_ofZ 5) (f32_ofZ 7) (f32_ofZ 1) (corners at_ [] 5 7))
    = [show (f32_ofZ 5, f32_add (f32_ofZ 7) (f32_div (f32_ofZ 1) (f32_ofZ 3)))].
Proof. vm_compute. split; reflexivity. Qed.

(** With a value equal to the level the two cells disagree: the edge with values
    1, 2 at level 1 is crossed seen from below and not seen from above. *)
Theorem C38_level_equal_value_refuted :
  exists at_ i j C,
    crossing_top (f32_ofZ i) (f32_ofZ j) C (corners at_ [] i j) <>
    crossing_bottom (f32_ofZ i) (f32_ofZ (j + 1)) C (corners at_ [] i (j + 1)).
Proof.
  exists (fun i _ => f32_ofZ (i + 1)), 0, 0, (f32_ofZ 1).
  intros H. apply (f_equal (@length _)) in H. vm_compute in H. discriminate.
Qed.
Print Assumptions C38_level_equal_value_refuted.

(** * C48 *)

(** No two lines of the result could still be joined. *)
Theorem C48_lines_maximal : forall segs ls a l1 b l2 c e1 e2,
  commit_all point_eq [] segs = Some ls -> ls = a ++ l1 :: b ++ l2 :: c ->
  In e1 (ends l1) -> In e2 (ends l2) -> point_eq e1 e2 = false.
Proof.
  intros segs ls a l1 b l2 c e1 e2 H E H1 H2.
  pose proof (commit_all_apart point_eq point_eq_sym segs [] ls (Forall_nil _) (aa_nil _) H) as A.
  subst ls. apply all_apart_mid in A as (_ & A); [|apply point_eq_sym].
  rewrite Forall_forall in A. apply (A l2); try assumption.
  apply in_app_iff. right. apply in_app_iff. right. left. reflexivity.
Qed.
Print Assumptions C48_lines_maximal.
Example C48_case :
  option_map (@length _) (commit_all point_eq []
    [(pt 0 0 1, pt 1 0 1); (pt 3 0 1, pt 2 0 1); (pt 7 7 1, pt 8 8 1); (pt 1 0 1, pt 2 0 1)]) = Some 2%nat.
Proof. vm_compute. reflexivity. Qed.

(** * C49 *)

(** Accepted arguments for which the constructor never returns: with vmin = vmax
    = 1e20 and dv = 1 the next level is the same level. *)
Theorem C49_terminates_refuted :
  exists vmin vmax dv, accepts vmin vmax dv = true /\ is_finite vmin = true /\ is_finite dv = true /\
    forall n, levels n vmin vmax dv = None.
Proof.
  exists (f64_ofZ (10 ^ 20)), (f64_ofZ (10 ^ 20)), (f64_ofZ 1).
  split; [vm_compute; reflexivity|]. split; [vm_compute; reflexivity|]. split; [vm_compute; reflexivity|].
  apply levels_stuck; [vm_compute; reflexivity|apply B2SF_inj; vm_compute; reflexivity].
Qed.
Print Assumptions C49_terminates_refuted.

(** The same with [vmin] = -infinity. *)
Theorem C49_infinite_refuted :
  exists vmax dv, accepts (B754_infinity true) vmax dv = true /\
    forall n, levels n (B754_infinity true) vmax dv = None.
Proof.
  exists (f64_ofZ 0), (f64_ofZ 1). split; [vm_compute; reflexivity|].
  apply levels_stuck; [vm_compute; reflexivity|apply B2SF_inj; vm_compute; reflexivity].
Qed.
Print Assumptions C49_infinite_refuted.

(** The constructor returns when dv is not below the resolution of the levels:
    |vmin|, |vmax| <= M <= 2^52 dv.  Missing: magnitudes beyond 2^1000. *)
Theorem C49_terminates_partial : forall (vmin vmax dv : f64) (M : R),
  is_finite vmin = true -> is_finite vmax = true -> is_finite dv = true ->
  (Rabs (B2R vmin) <= M)%R -> (Rabs (B2R vmax) <= M)%R -> (M <= bpow radix2 1000)%R ->
  (bpow radix2 (-1000) <= B2R dv <= bpow radix2 1000)%R -> (M <= 2 ^ 52 * B2R dv)%R ->
  exists n l, levels n vmin vmax dv = Some l.
Proof. exact levels_terminate. Qed.
Print Assumptions C49_terminates_partial.
Example C49_case :
  option_map (@length _) (levels 100 (f64_ofZ (-1)) (f64_ofZ 1) (f64_dec 1 1)) = Some 21%nat.
Proof. vm_compute. reflexivity. Qed.
