(** C39 and C79 to C83: generated bodies. *)

From Coq Require Import ZArith Bool List String Reals Ratan Lia Lra Psatz.
From Flocq Require Import Core.Core IEEE754.BinarySingleNaN.
From Verif.Base Require Import Num F64.
From Verif.Body Require Import Model Spec.
From Verif.Body Require ProofsBody.
From Verif.Gen Require Import Model Spec ProofsCurve ProofsTable ProofsShapes ProofsBodies ProofsEllipse.
Import ListNotations.
Local Open Scope R_scope.

(** * Tables of real numbers *)

Lemma real_range (t : rtable) s v : field s t = Some (Some v) -> 1 / 1000 <= v <= 1000000 -> pos Rlib t s v.
Proof.
  intros F B. unfold pos, in_range. split; [exact F|]. split; [reflexivity|]. cbn [Rlib dblmin dblinf nltb RNum]. split; apply Rltb_false.
  - apply Rle_trans with (bpow radix2 (-10)); [apply bpow_le; lia|]. simpl. lra.
  - apply Rle_trans with (bpow radix2 20); [simpl; lra|]. apply bpow_le. lia.
Qed.

Lemma real_n (t : rtable) z : field "N" t = Some (Some (IZR z)) -> (1 <= z <= 1000000)%Z -> field "dl" t = None ->
  n_or_dl Rlib t (IZR z) 0 /\ to_i64 Rlib (IZR z) = Some z.
Proof.
  intros F B A. assert (B' : 1 <= IZR z <= 1000000) by (split; apply IZR_le; lia). split.
  - left. split; [|split; [exact A|reflexivity]]. split; [exact F|]. split; [reflexivity|]. cbn [nltb RNum nofZ].
    split; apply Rltb_false; [lra|]. apply Rle_trans with 1000000; [lra|]. apply IZR_le. lia.
  - cbn [to_i64 Rlib]. unfold R_to_i64. destruct (Rle_dec 0 (IZR z)) as [_|X]; [|lra].
    change (R_floor (IZR z)) with (Zfloor (IZR z)). rewrite Zfloor_IZR.
    replace (-2 ^ 63 <=? z)%Z with true by (symmetry; apply Z.leb_le; lia).
    replace (z <? 2 ^ 63)%Z with true by (symmetry; apply Z.ltb_lt; lia). reflexivity.
Qed.

(** What the parameters N and dl mean. *)
Lemma n_dl_real (t : rtable) n d z : n_or_dl Rlib t n d -> to_i64 Rlib n = Some z -> let dmin := bpow radix2 (-1022) in
  given t "N" n /\ absent t "dl" /\ d = 0 /\ (1 <= z)%Z /\ whole n z \/
  absent t "N" /\ given t "dl" d /\ 0 < d /\ z = 0%Z.
Proof.
  intros [(Rn & Ad & Ed)|(An & Rd & En)] Z dmin.
  - left. destruct Rn as (Gn & _ & L & _). cbn [nltb RNum nofZ] in L. apply Rltb_false in L.
    cbn [to_i64 Rlib] in Z. unfold R_to_i64 in Z. destruct (Rle_dec 0 n) as [_|X]; [|lra].
    destruct (_ && _); [|discriminate]. injection Z as <-. change (R_floor n) with (Zfloor n).
    split; [exact Gn|]. split; [exact Ad|]. split; [exact Ed|]. split; [apply Zfloor_lub; exact L|].
    split; [apply Zfloor_lb|apply Zfloor_ub].
  - right. destruct Rd as (Gd & _ & L & _). cbn [nltb RNum Rlib dblmin] in L. apply Rltb_false in L. pose proof (bpow_gt_0 radix2 (-1022)).
    split; [exact An|]. split; [exact Gd|]. split; [lra|].
    rewrite En in Z. pose proof (good_0 _ good_R) as Q. rewrite Q in Z. injection Z as <-. reflexivity.
Qed.

Lemma pos_real (t : rtable) s v : pos Rlib t s v -> given t s v /\ 0 < v.
Proof.
  intros (Gv & _ & L & _). split; [exact Gv|]. cbn [nltb RNum Rlib dblmin] in L. apply Rltb_false in L. pose proof (bpow_gt_0 radix2 (-1022)). lra.
Qed.

(** * C39 *)

Lemma finish_area l : area (finish Rlib l) = shoelace (points l) /\ slen (finish Rlib l) = perimeter (points l).
Proof.
  unfold finish. match goal with |- context [refresh _ ?b] => pose proof (ProofsBody.refresh_area (dblinf Rlib) b) as X; assert (E : corners b = points l) end.
  { unfold corners, points. cbn [set_alist alist]. rewrite map_map. reflexivity. }
  rewrite E in X. exact X.
Qed.

(** A generated cylinder.  Given N the number of corners is N without its
    fraction, given dl the number nearest to 2 pi R/dl. *)
Theorem C39_cylinder (t : rtable) l : gen_cylinder Rlib t = Ok l -> exists r n, given t "R" r /\ 0 < r /\
  (forall v, given t "N" v -> whole v (Z.of_nat n)) /\
  (forall d, given t "dl" d -> nearest (2 * PI * r / d) (Z.of_nat n)) /\
  regular r n (points l) /\ Forall (fun c => snd c = false) l /\
  ((0 < n)%nat -> (forall e, In e (edges (points l)) -> dist (fst e) (snd e) = 2 * r * sin (PI / INR n)) /\
    area (finish Rlib l) = INR n / 2 * (r * r) * sin (2 * PI / INR n)).
Proof.
  intros H. apply (cylinder_ok Rlib good_R) in H. destruct H as (n & d & z & r & N & Z & P & _ & M).
  apply pos_real in P as [Gr Pr]. pose proof (n_dl_real t n d z N Z) as W. cbv zeta in W.
  assert (D : 0 <= d /\ (d = 0 -> (0 < z)%Z)) by (destruct W as [W|W]; split; intros; destruct W as (_ & _ & ? & ?); try lra; try lia).
  destruct (cylinder_points z d r l Pr (proj1 D) (proj2 D) M) as (m & E & Em & Ed & Lm & S).
  exists r, m. split; [exact Gr|]. split; [exact Pr|]. split.
  { intros v G. destruct W as [(G' & _ & -> & Pz & Wn)|(A & _)]; [|unfold given, absent in *; congruence].
    assert (v = n) by (unfold given in *; congruence). subst v. rewrite (Em eq_refl). rewrite Z2Nat.id by lia. exact Wn. }
  split.
  { intros v G. destruct W as [(_ & A & _)|(A & G' & Pd & _)]; [unfold given, absent in *; congruence|].
    assert (v = d) by (unfold given in *; congruence). subst v. apply Ed, Pd. }
  split.
  { rewrite E. split; [unfold circle; rewrite map_length, seq_length; reflexivity|]. intros i I. unfold circle.
    rewrite nth_error_map, (nth_error_nth' _ 0%nat) by (rewrite seq_length; lia). rewrite seq_nth by lia. cbn [option_map Nat.add].
    do 2 f_equal. ring. }
  split; [exact S|]. intros Pm. rewrite E. split.
  - intros e I. apply circle_dist; [lra|exact Pm|exact I].
  - rewrite (proj1 (finish_area l)), E. apply circle_area, Pm.
Qed.

(** ... clockwise: the centre is on the right of every edge. *)
Theorem C39_clockwise (t : rtable) l e : gen_cylinder Rlib t = Ok l -> (2 < List.length l)%nat -> In e (edges (points l)) ->
  0 < py (fst e) * px (snd e) - px (fst e) * py (snd e).
Proof.
  intros H L I. apply (cylinder_ok Rlib good_R) in H. destruct H as (n & d & z & r & N & Z & P & _ & M).
  apply pos_real in P as [Gr Pr]. pose proof (n_dl_real t n d z N Z) as W. cbv zeta in W.
  assert (D : 0 <= d /\ (d = 0 -> (0 < z)%Z)) by (destruct W as [W|W]; split; intros; destruct W as (_ & _ & ? & ?); try lra; try lia).
  destruct (cylinder_points z d r l Pr (proj1 D) (proj2 D) M) as (m & E & Em & Ed & Lm & S).
  rewrite E in I. apply (circle_clockwise r m e Pr); [lia|exact I].
Qed.

(** The pieces of the generators join end to end. *)
Theorem C39_closed : (forall z d r, closed (cylinder_pieces Rlib z d r)) /\ (forall z d r, closed (semicyl_pieces Rlib z d r)) /\
  (forall z d L H a, closed (parallelogram_pieces Rlib z d L H a)) /\ (forall z d r h, closed (savonius_pieces Rlib z d r h)) /\
  (forall dln dls L H D h d, closed (box_pieces Rlib dln dls L H D h d)) /\
  (forall dln dls R0 d X0 X1 X2 X3 L H, closed (gpj_pieces Rlib dln dls R0 d X0 X1 X2 X3 L H)) /\
  (forall z d R1 R2 L start stop gap, closed (plate_pieces Rlib z d R1 R2 L start stop gap)).
Proof.
  exact (conj cylinder_closed (conj semicyl_closed (conj parallelogram_closed (conj savonius_closed (conj box_closed (conj gpj_closed plate_closed)))))).
Qed.

Definition square : rtable := [(Name "R", Some 1); (Name "N", Some 4)].
Example C39_ex : exists l, gen_cylinder Rlib square = Ok l /\ List.length l = 4%nat /\ shoelace (points l) = 2.
Proof.
  assert (X : exists l, gen_cylinder Rlib square = Ok l).
  { destruct (real_n square 4 eq_refl ltac:(lia) eq_refl) as [N Z].
    eexists. apply (cylinder_ok Rlib good_R). exists 4, 0, 4%Z, 1. split; [exact N|]. split; [exact Z|].
    split; [apply real_range; [reflexivity|lra]|]. split.
    - intros k v [E|[E|[]]]; injection E as <- <-; eexists; split; try reflexivity; cbn; auto.
    - unfold cylinder_pieces. change (@nltb RNum (nofZ 0) 0) with (Rltb 0 0). destruct (Rltb 0 0) eqn:Q; [rbool; lra|]. cbn [make count bind]. reflexivity. }
  destruct X as [l H]. exists l. split; [exact H|]. destruct (C39_cylinder _ _ H) as (r & n & Gr & Pr & Wn & _ & [Ln _] & _ & A).
  unfold given in Gr. cbn in Gr. injection Gr as <-. pose proof (Wn 4 eq_refl) as W4. unfold whole in W4.
  assert (E4 : n = 4%nat).
  { destruct W4 as [W1 W2]. assert (Z.of_nat n <= 4)%Z by (apply le_IZR; exact W1).
    assert (4 < Z.of_nat n + 1)%Z by (apply lt_IZR; rewrite plus_IZR; exact W2). lia. }
  rewrite E4 in *. split; [unfold points in Ln; rewrite map_length in Ln; exact Ln|].
  destruct (A ltac:(lia)) as [_ Ar]. rewrite (proj1 (finish_area l)) in Ar. rewrite Ar.
  replace (INR 4) with 4 by (cbn [INR]; ring). replace (2 * PI / 4) with (PI / 2) by field. rewrite sin_PI2. field.
Qed.

Print Assumptions C39_cylinder.
Print Assumptions C39_clockwise.
Print Assumptions C39_closed.

(** * C79: parameters *)

(** Success means exactly: the parameters of the generator and no others, each
    a finite number in its range, one of N and dl; the corners are those of
    the pieces. *)
Theorem C79_cylinder c s tg a b t l : let lib := F64lib c s tg a b in gen_cylinder lib t = Ok l <->
  exists n d z r, n_or_dl lib t n d /\ f64_to_i64 n = Some z /\ pos lib t "R" r /\ only t ["N"; "dl"; "R"]%string /\
    make lib (cylinder_pieces lib z d r) = Ok l.
Proof. intros lib. exact (cylinder_ok lib (good_F64 c s tg a b) t l). Qed.

Theorem C79_semicyl c s tg a b t l : let lib := F64lib c s tg a b in gen_semicyl lib t = Ok l <->
  exists n d z r, n_or_dl lib t n d /\ f64_to_i64 n = Some z /\ pos lib t "R" r /\ only t ["N"; "dl"; "R"]%string /\
    make lib (semicyl_pieces lib z d r) = Ok l.
Proof. intros lib. exact (semicyl_ok lib (good_F64 c s tg a b) t l). Qed.

Theorem C79_savonius c s tg a b t l : let lib := F64lib c s tg a b in gen_savonius lib t = Ok l <->
  exists n d z r h, n_or_dl lib t n d /\ f64_to_i64 n = Some z /\ pos lib t "R" r /\ pos lib t "h" h /\ Bltb h r = true /\
    only t ["N"; "dl"; "R"; "h"]%string /\ make lib (savonius_pieces lib z d r h) = Ok l.
Proof. intros lib. exact (savonius_ok lib (good_F64 c s tg a b) t l). Qed.

Theorem C79_box c s tg a b t l : let lib := F64lib c s tg a b in gen_box lib t = Ok l <->
  exists dln dls L H D h d, pos lib t "dln" dln /\ pos lib t "dls" dls /\ pos lib t "L" L /\ pos lib t "H" H /\
    in_range t "D" (dblmin lib) (L * (nofZ 1 - dbleps lib))%num D /\ pos lib t "h" h /\
    in_range t "d" (dblmin lib) ((L - D) * (nofZ 1 - dbleps lib))%num d /\
    only t ["dln"; "dls"; "L"; "H"; "D"; "h"; "d"]%string /\ make lib (box_pieces lib dln dls L H D h d) = Ok l.
Proof. intros lib. exact (box_ok lib t l). Qed.

Theorem C79_gpj c s tg a b t l : let lib := F64lib c s tg a b in gen_gpj lib t = Ok l <->
  exists dln dls R0 d X0 X1 X2 X3 L H, pos lib t "dln" dln /\ pos lib t "dls" dls /\ pos lib t "R0" R0 /\
    in_range t "d" (nofZ 0) (nofZ 90 * (nofZ 1 - dbleps lib))%num d /\ in_range t "X0" f64_ninf f64_inf X0 /\
    in_range t "X1" X0 f64_inf X1 /\ in_range t "X2" X1 f64_inf X2 /\ in_range t "X3" X2 f64_inf X3 /\
    in_range t "L" ((X3 - X0 + R0) * (nofZ 1 + dbleps lib))%num f64_inf L /\
    in_range t "H" (nofZ 2 * gpj_y3 lib R0 d X2 X3 * (nofZ 1 + dbleps lib))%num f64_inf H /\
    only t ["dln"; "dls"; "R0"; "d"; "X0"; "X1"; "X2"; "X3"; "L"; "H"]%string /\
    make lib (gpj_pieces lib dln dls R0 d X0 X1 X2 X3 L H) = Ok l.
Proof. intros lib. exact (gpj_ok lib t l). Qed.

Theorem C79_ellipse c s tg a b fuel t l : let lib := F64lib c s tg a b in gen_ellipse lib fuel t = Ok l <->
  exists n d z Rx Ry, n_or_dl lib t n d /\ f64_to_i64 n = Some z /\ pos lib t "Rx" Rx /\ in_range t "Ry" (dblmin lib) Rx Ry /\
    only t ["N"; "dl"; "Rx"; "Ry"]%string /\ let dl := ell_dl lib z d Rx Ry in let a0 := a (dl / (nofZ 2 * Ry))%num in
    Bltb dl (Ry / (nofZ 19 / nofZ 10))%num = true /\
    l = option_map (ell_corners lib Rx Ry) (semiell lib fuel dl Rx Ry (lpi lib - a0)%num a0).
Proof. intros lib. exact (ellipse_ok lib (good_F64 c s tg a b) fuel t l). Qed.

(** The parallelogram: what is wanted, were it not for the angle 0 taken when
    it is left out. *)
Theorem C79_parallelogram_partial c s tg a b t l : let lib := F64lib c s tg a b in gen_parallelogram lib t = Ok l <->
  exists n dl z L H d, n_or_dl lib t n dl /\ f64_to_i64 n = Some z /\ pos lib t "L" L /\ pos lib t "H" H /\
    in_range_or (nofZ 0) t "d" (dblmin lib) (nofZ 180 * (nofZ 1 - dbleps lib))%num d /\ only t ["N"; "dl"; "L"; "H"; "d"]%string /\
    make lib (parallelogram_pieces lib z dl L H d) = Ok l.
Proof. intros lib. exact (parallelogram_ok lib (good_F64 c s tg a b) t l). Qed.

(** The plate: the difference of the radii is not compared with the length. *)
Theorem C79_plate_partial c s tg a b t l : let lib := F64lib c s tg a b in gen_plate lib t = Ok l <->
  exists n d z R1 R2 L start stop gap, n_or_dl lib t n d /\ f64_to_i64 n = Some z /\
    in_range t "R1" (nofZ 0) f64_inf R1 /\ in_range t "R2" (nofZ 0) f64_inf R2 /\ (Bltb (f64_ofZ 0) R1 || Bltb (f64_ofZ 0) R2 = true)%bool /\
    pos lib t "L" L /\ in_range_or (nofZ 0) t "start" (nofZ 0) (nofZ 1 - dbleps lib)%num start /\
    in_range_or (nofZ 1) t "stop" (dblmin lib) (nofZ 1) stop /\ in_range_or (nofZ 0) t "gap" (dblmin lib) f64_inf gap /\
    only t ["N"; "dl"; "R1"; "R2"; "L"; "start"; "stop"; "gap"]%string /\
    make lib (plate_pieces lib z d R1 R2 L start stop gap) = Ok l.
Proof. intros lib. exact (plate_ok lib (good_F64 c s tg a b) t l). Qed.

Definition message {A} (o : outcome A) : option string := match o with Err e => Some e | _ => None end.

(** An unknown name, a missing R, N with dl: errors. *)
Example C79_ex c s tg a b : let lib := F64lib c s tg a b in
  let one : T F64 := f64_ofZ 1 in
  message (gen_cylinder lib [(Name "R", Some one); (Name "N", Some (f64_ofZ 8)); (Name "r", Some one)]) = Some "excess parameter 'r'"%string /\
  message (gen_cylinder lib [(Name "N", Some (f64_ofZ 8))]) = Some "'R' must be a number"%string /\
  message (gen_cylinder lib [(Name "R", Some one); (Name "N", Some (f64_ofZ 8)); (Name "dl", Some one)]) =
    Some "'N' and 'dl' are mutually exclusive"%string /\
  message (gen_cylinder lib [(Name "R", Some (f64_ofZ (-1))); (Name "N", Some (f64_ofZ 8))]) = Some "'R' must be positive"%string.
Proof. cbv zeta. split; [|split; [|split]]; lazy; reflexivity. Qed.

Ltac ranged := split; [reflexivity|split; [vm_compute; reflexivity|split; vm_compute; reflexivity]].

(** Without the angle the parallelogram divides by tan 0: the number of corners
    is the conversion of an infinity to an integer. *)
Theorem C79_angle_refuted : exists t : table F64, only t ["dl"; "L"; "H"]%string /\
  given t "dl" (f64_ofZ 1) /\ given t "L" (f64_ofZ 3) /\ given t "H" (f64_ofZ 2) /\
  forall c s tg a b, tg (f64_ofZ 0) = f64_ofZ 0 -> gen_parallelogram (F64lib c s tg a b) t = Ub.
Proof.
  exists [(Name "dl", Some (f64_ofZ 1)); (Name "L", Some (f64_ofZ 3)); (Name "H", Some (f64_ofZ 2))]. split.
  { intros k v [E|[E|[E|[]]]]; apply (f_equal fst) in E; cbn [fst] in E; subst k; eexists; split; try reflexivity; cbn; auto. }
  split; [reflexivity|]. split; [reflexivity|]. split; [reflexivity|].
  intros c s tg a b E. unfold gen_parallelogram, positive.
  erewrite (n_dl_step _ (good_F64 c s tg a b) _ (f64_ofZ 0) (f64_ofZ 1) 0%Z);
    [|right; split; [reflexivity|split; [ranged|reflexivity]]|vm_compute; reflexivity]. cbn [bind].
  erewrite (req_step (K:=F64) "L" _ _ _ _ _ (f64_ofZ 3)); [|ranged]. cbn [bind].
  erewrite (req_step (K:=F64) "H" _ _ _ _ _ (f64_ofZ 2)); [|ranged]. cbn [bind].
  rewrite (dflt_step "d") by reflexivity. cbn [bind].
  match goal with |- no_excess ?t _ = _ => replace t with (@nil (key * option F64)) by reflexivity end.
  cbn [no_excess]. unfold parallelogram_pieces. cbv zeta.
  match goal with |- context [ltan ?l ?v] => replace (ltan l v) with (f64_ofZ 0) by (symmetry; exact E) end.
  cbn [make].
  match goal with |- context [count ?l ?p] => replace (count l p) with (Some 3%nat) by (vm_compute; reflexivity) end.
  match goal with |- context [count ?l ?p] => replace (count l p) with (@None nat) by (vm_compute; reflexivity) end.
  reflexivity.
Qed.

(** A plate whose radii differ by more than its length: asin of a number above 1. *)
Theorem C79_plate_refuted : exists t : table F64,
  given t "R1" (f64_ofZ 0) /\ given t "R2" (f64_ofZ 2) /\ given t "L" (f64_ofZ 1) /\ given t "dl" (f64_dec 1 1) /\
  only t ["R1"; "R2"; "L"; "dl"]%string /\
  forall c s tg a b, a (f64_ofZ 2) = f64_nan -> gen_plate (F64lib c s tg a b) t = Ub.
Proof.
  exists [(Name "R1", Some (f64_ofZ 0)); (Name "R2", Some (f64_ofZ 2)); (Name "L", Some (f64_ofZ 1)); (Name "dl", Some (f64_dec 1 1))].
  split; [reflexivity|]. split; [reflexivity|]. split; [reflexivity|]. split; [reflexivity|]. split.
  { intros k v [E|[E|[E|[E|[]]]]]; apply (f_equal fst) in E; cbn [fst] in E; subst k; eexists; split; try reflexivity; cbn; auto. }
  intros c s tg a b E. unfold gen_plate, positive.
  erewrite (n_dl_step _ (good_F64 c s tg a b) _ (f64_ofZ 0) (f64_dec 1 1) 0%Z);
    [|right; split; [reflexivity|split; [ranged|reflexivity]]|vm_compute; reflexivity]. cbn [bind].
  erewrite (req_step (K:=F64) "R1" _ _ _ _ _ (f64_ofZ 0)); [|ranged]. cbn [bind].
  erewrite (req_step (K:=F64) "R2" _ _ _ _ _ (f64_ofZ 2)); [|ranged]. cbn [bind].
  match goal with |- argcheck ?m _ _ = _ => replace m with true by (vm_compute; reflexivity) end. cbn [argcheck].
  erewrite (req_step (K:=F64) "L" _ _ _ _ _ (f64_ofZ 1)); [|ranged]. cbn [bind].
  rewrite (dflt_step "start") by reflexivity. cbn [bind].
  rewrite (dflt_step "stop") by reflexivity. cbn [bind].
  rewrite (dflt_step "gap") by reflexivity. cbn [bind].
  match goal with |- no_excess ?t _ = _ => replace t with (@nil (key * option F64)) by reflexivity end.
  cbn [no_excess]. unfold plate_pieces. cbv zeta.
  match goal with |- context [lasin ?l ?v] => replace (lasin l v) with f64_nan by (rewrite <- E at 1; change (lasin l) with a; apply f_equal; apply B2SF_inj; vm_compute; reflexivity) end.
  match goal with |- context [neqb ?u ?v] => replace (neqb u v) with true by (vm_compute; reflexivity) end. cbv iota beta.
  cbn [make]. match goal with |- context [count ?l ?p] => replace (count l p) with (@None nat) by (vm_compute; reflexivity) end. reflexivity.
Qed.

(** N is cut to an integer without a word; N = 2^63 passes the check of the
    range and overflows the type. *)
Theorem C79_fraction_refuted : exists t : table F64, given t "N" (f64_dec 25 1) /\
  forall c s tg a b, exists l, gen_cylinder (F64lib c s tg a b) t = Ok l /\ List.length l = 2%nat.
Proof.
  exists [(Name "N", Some (f64_dec 25 1)); (Name "R", Some (f64_ofZ 1))]. split; [reflexivity|].
  intros c s tg a b. unfold gen_cylinder, positive.
  erewrite (n_dl_step _ (good_F64 c s tg a b) _ (f64_dec 25 1) (f64_ofZ 0) 2%Z);
    [|left; split; [ranged|split; reflexivity]|vm_compute; reflexivity]. cbn [bind].
  erewrite (req_step (K:=F64) "R" _ _ _ _ _ (f64_ofZ 1)); [|ranged]. cbn [bind].
  match goal with |- context [no_excess ?t _] => replace t with (@nil (key * option F64)) by reflexivity end.
  cbn [no_excess]. unfold cylinder_pieces. match goal with |- context [nltb ?u ?v] => replace (nltb u v) with false by (vm_compute; reflexivity) end.
  cbn [make count bind]. eexists. split; [reflexivity|]. rewrite app_nil_r, map_length, seq_length. reflexivity.
Qed.

Theorem C79_huge_refuted : exists t : table F64, given t "N" (f64_ofZ (2 ^ 63)) /\
  forall c s tg a b, gen_cylinder (F64lib c s tg a b) t = Ub.
Proof.
  exists [(Name "N", Some (f64_ofZ (2 ^ 63))); (Name "R", Some (f64_ofZ 1))]. split; [reflexivity|].
  intros c s tg a b. unfold gen_cylinder, get_n_dl.
  erewrite (req_step (K:=F64) "N" _ _ _ _ _ (f64_ofZ (2 ^ 63))); [|ranged]. cbn [bind].
  match goal with |- context [to_i64 ?l ?v] => replace (to_i64 l v) with (@None Z) by (vm_compute; reflexivity) end. reflexivity.
Qed.

Print Assumptions C79_cylinder.
Print Assumptions C79_plate_partial.
Print Assumptions C79_angle_refuted.
Print Assumptions C79_huge_refuted.
