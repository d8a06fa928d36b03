(** Induced and diffusive velocities in exact arithmetic. *)

From Coq Require Import ZArith Bool List Lia Permutation Reals Lra Psatz.
From Verif.Base Require Import Num.
From Verif.Body Require Import Model Spec.
From Verif.Vortex Require Import Model Spec Proofs ProofsMerge.
Import ListNotations.
Local Open Scope R_scope.

Ltac unr :=
  change (@nadd RNum) with Rplus in *; change (@nsub RNum) with Rminus in *; change (@nmul RNum) with Rmult in *;
  change (@ndiv RNum) with Rdiv in *; change (@nopp RNum) with Ropp in *; change (@nofZ RNum) with IZR in *;
  change (@nabs RNum) with Rabs in *; change (@nsqrt RNum) with sqrt in *.
Ltac eqR := match goal with |- @eq _ ?a ?b => change (@eq R a b) end.

Notation p2 := (vec RNum).
Definition norm (v : p2) : R := sqrt (x v * x v + y v * y v).

(** ** Sums *)

Lemma total_ext' {A} (f g : A -> R) l : (forall a, In a l -> f a = g a) -> total f l = total g l.
Proof.
  induction l as [|a l IH]; intros H; [reflexivity|]. unfold total in *. cbn [fold_right].
  rewrite (H a) by (left; reflexivity). rewrite IH; [reflexivity|]. intros b Hb. apply H. right; exact Hb.
Qed.
Lemma total_scal' {A} (f : A -> R) c l : total (fun a => c * f a) l = c * total f l.
Proof. induction l as [|a l IH]; unfold total in *; cbn [fold_right]; [lra|]. rewrite IH. lra. Qed.
Lemma total_opp {A} (f : A -> R) l : total (fun a => - f a) l = - total f l.
Proof. induction l as [|a l IH]; unfold total in *; cbn [fold_right]; [lra|]. rewrite IH. lra. Qed.
Lemma total_add' {A} (f g : A -> R) l : total (fun a => f a + g a) l = total f l + total g l.
Proof. induction l as [|a l IH]; unfold total in *; cbn [fold_right]; [lra|]. rewrite IH. lra. Qed.
Lemma total_const0 {A} (l : list A) : total (fun _ => 0) l = 0.
Proof. induction l as [|a l IH]; unfold total in *; cbn [fold_right]; [lra|]. rewrite IH. lra. Qed.
Lemma total_swap' {A B} (f : A -> B -> R) l m : total (fun a => total (f a) m) l = total (fun b => total (fun a => f a b) l) m.
Proof.
  induction l as [|a l IH]; [symmetry; apply (total_const0 m)|].
  change (total (f a) m + total (fun a => total (f a) m) l = total (fun b => f a b + total (fun a => f a b) l) m).
  rewrite IH, total_add'. reflexivity.
Qed.
Lemma total_le {A} (f g : A -> R) l : (forall a, In a l -> f a <= g a) -> total f l <= total g l.
Proof.
  induction l as [|a l IH]; intros H; [unfold total; cbn; lra|]. unfold total in *. cbn [fold_right].
  assert (f a <= g a) by (apply H; left; reflexivity).
  assert (fold_right (fun e s => f e + s) 0 l <= fold_right (fun e s => g e + s) 0 l) by (apply IH; intros b Hb; apply H; right; exact Hb). lra.
Qed.

Lemma total_antisym {A} (f : A -> A -> R) l : (forall a b, In a l -> In b l -> f a b = - f b a) -> total (fun a => total (f a) l) l = 0.
Proof.
  intros H. assert (X : total (fun a => total (f a) l) l = - total (fun a => total (f a) l) l).
  { rewrite total_swap' at 1. rewrite <- total_opp. apply total_ext'. intros b Hb. rewrite <- total_opp.
    apply total_ext'. intros a Ha. apply H; assumption. }
  lra.
Qed.

Lemma total_nth' {A} (l : list A) (f : A -> R) : total f l = total (fun j => match nth_error l j with Some a => f a | None => 0 end) (seq 0 (length l)).
Proof.
  induction l as [|a l IH]; [reflexivity|]. cbn [length seq]. unfold total in *. cbn [fold_right nth_error]. f_equal.
  rewrite IH. clear IH. rewrite <- seq_shift. induction (seq 0 (length l)) as [|j t IHt]; [reflexivity|]. cbn [map fold_right nth_error]. rewrite IHt. reflexivity.
Qed.

(** Sums of vectors built up from the left. *)
Lemma fold_vec {A} (f : A -> p2) l : forall s,
  x (fold_left (fun s a => vadd s (f a)) l s) = x s + total (fun a => x (f a)) l /\
  y (fold_left (fun s a => vadd s (f a)) l s) = y s + total (fun a => y (f a)) l.
Proof.
  induction l as [|a l IH]; intros s; cbn [fold_left].
  - unfold total. cbn. split; lra.
  - destruct (IH (vadd s (f a))) as [H1 H2]. rewrite H1, H2. unfold total, vadd. cbn [fold_right x y]. unr. split; lra.
Qed.

(** ** Vortices on each other *)

Section Near.
Variable c : R.     (* 1/2pi *)
Variable vs : list (part RNum).

Lemma near_sum nb p :
  x (near_influence (K:=RNum) c nb vs p) = c * total (fun j => match nth_error vs j with Some o => x (biot_savart o p) | None => 0 end) nb /\
  y (near_influence (K:=RNum) c nb vs p) = c * total (fun j => match nth_error vs j with Some o => y (biot_savart o p) | None => 0 end) nb.
Proof.
  unfold near_influence. unfold vscale. cbn [x y]. unr.
  assert (G : forall s, let v := fold_left (fun s j => match nth_error vs j with None => s | Some o => if neqb (pg o) (nofZ 0) then s else vadd s (biot_savart o p) end) nb s in
     x v = x s + total (fun j => match nth_error vs j with Some o => x (biot_savart o p) | None => 0 end) nb /\
     y v = y s + total (fun j => match nth_error vs j with Some o => y (biot_savart o p) | None => 0 end) nb).
  { induction nb as [|j t IH]; intros s; cbv zeta in *; cbn [fold_left]; unfold total in *; cbn [fold_right].
    - split; lra.
    - destruct (nth_error vs j) as [o|]; [|destruct (IH s) as [-> ->]; split; lra].
      destruct (neqb (pg o) (nofZ 0)) eqn:Z.
      + destruct (IH s) as [-> ->]. change (@neqb RNum) with Reqb in Z. change (@nofZ RNum) with IZR in Z. rbool.
        unfold biot_savart, vscale. cbn [x y]. unr. rewrite Z. unfold Rdiv. split; lra.
      + destruct (IH (vadd s (biot_savart o p))) as [-> ->]. unfold vadd. cbn [x y]. unr. split; lra. }
  destruct (G (mkVec (nofZ 0) (nofZ 0))) as [G1 G2]. cbn [x y] in G1, G2. unr. rewrite G1, G2. split; eqR; ring.
Qed.

Lemma near_all p :
  x (near_influence (K:=RNum) c (seq 0 (length vs)) vs p) = c * total (fun o => x (biot_savart o p)) vs /\
  y (near_influence (K:=RNum) c (seq 0 (length vs)) vs p) = c * total (fun o => y (biot_savart o p)) vs.
Proof.
  destruct (near_sum (seq 0 (length vs)) p) as [-> ->]. rewrite (total_nth' vs (fun o => x (biot_savart o p))), (total_nth' vs (fun o => y (biot_savart o p))).
  split; reflexivity.
Qed.

Lemma pair_antisym (a b : part RNum) : pe a = pe b ->
  pg a * x (biot_savart b (pr a)) = - (pg b * x (biot_savart a (pr b))) /\
  pg a * y (biot_savart b (pr a)) = - (pg b * y (biot_savart a (pr b))).
Proof.
  intros E. unfold biot_savart, vscale, rotl, vsub, abs2. cbn [x y]. unr. rewrite E.
  set (e := 1 / pe b). destruct (pr a) as [ax ay]. destruct (pr b) as [bx by_]. cbn [x y].
  assert (Q : (ax - bx) * (ax - bx) + (ay - by_) * (ay - by_) + e * e = (bx - ax) * (bx - ax) + (by_ - ay) * (by_ - ay) + e * e) by (eqR; ring).
  unr. rewrite Q. unfold Rdiv. split; eqR; ring.
Qed.

Lemma pair_angular (a b : part RNum) : pe a = pe b ->
  pg a * (x (pr a) * x (biot_savart b (pr a)) + y (pr a) * y (biot_savart b (pr a))) =
  - (pg b * (x (pr b) * x (biot_savart a (pr b)) + y (pr b) * y (biot_savart a (pr b)))).
Proof.
  intros E. unfold biot_savart, vscale, rotl, vsub, abs2. cbn [x y]. unr. rewrite E.
  set (e := 1 / pe b). destruct (pr a) as [ax ay]. destruct (pr b) as [bx by_]. cbn [x y].
  assert (Q : (ax - bx) * (ax - bx) + (ay - by_) * (ay - by_) + e * e = (bx - ax) * (bx - ax) + (by_ - ay) * (by_ - ay) + e * e) by (eqR; ring).
  unr. rewrite Q. unfold Rdiv. eqR. ring.
Qed.

Lemma sum_zero : (forall a b, In a vs -> In b vs -> pe a = pe b) ->
  total (fun o : part RNum => pg o * x (near_influence (K:=RNum) c (seq 0 (length vs)) vs (pr o))) vs = 0 /\
  total (fun o : part RNum => pg o * y (near_influence (K:=RNum) c (seq 0 (length vs)) vs (pr o))) vs = 0 /\
  total (fun o : part RNum => pg o * (x (pr o) * x (near_influence (K:=RNum) c (seq 0 (length vs)) vs (pr o)) +
                                      y (pr o) * y (near_influence (K:=RNum) c (seq 0 (length vs)) vs (pr o)))) vs = 0.
Proof.
  intros E.
  assert (X : forall F : part RNum -> part RNum -> R, (forall a b, In a vs -> In b vs -> F a b = - F b a) -> c * total (fun a => total (F a) vs) vs = 0).
  { intros F HF. rewrite (total_antisym F vs HF). lra. }
  split; [|split].
  - rewrite <- (X (fun a b => pg a * x (biot_savart b (pr a)))).
    + rewrite <- total_scal'. apply total_ext'. intros a Ha. destruct (near_all (pr a)) as [-> _]. rewrite total_scal'. unr. eqR. ring.
    + intros a b Ha Hb. apply pair_antisym, E; assumption.
  - rewrite <- (X (fun a b => pg a * y (biot_savart b (pr a)))).
    + rewrite <- total_scal'. apply total_ext'. intros a Ha. destruct (near_all (pr a)) as [_ ->]. rewrite total_scal'. unr. eqR. ring.
    + intros a b Ha Hb. apply pair_antisym, E; assumption.
  - rewrite <- (X (fun a b => pg a * (x (pr a) * x (biot_savart b (pr a)) + y (pr a) * y (biot_savart b (pr a))))).
    + rewrite <- total_scal'. apply total_ext'. intros a Ha. destruct (near_all (pr a)) as [-> ->].
      rewrite total_scal', total_add', !total_scal'. unr. eqR. ring.
    + intros a b Ha Hb. apply pair_angular, E; assumption.
Qed.
End Near.

(** ** Far nodes *)

(** Velocity of point vortices. *)
Definition point_vortex (r0 : p2) (g : R) (p : p2) : p2 :=
  let q := (x p - x r0) * (x p - x r0) + (y p - y r0) * (y p - y r0) in
  @mkVec RNum (- g * (y p - y r0) / q) (g * (x p - x r0) / q).
Definition vsum (l : list p2) : p2 := @mkVec RNum (total (fun v : p2 => x v) l) (total (fun v : p2 => y v) l).

Definition masses (cm : list (part RNum * part RNum)) : list (part RNum) := flat_map (fun m => [fst m; snd m]) cm.
Definition exact_far (c2 : R) (cm : list (part RNum * part RNum)) (p : p2) : p2 :=
  let s := vsum (map (fun o => point_vortex (pr o) (pg o) p) (masses cm)) in @mkVec RNum (c2 * x s) (c2 * y s).

Definition dist_to (o : part RNum) (p : p2) : R := norm (vsub p (pr o)).

(** Value and slope of one vortex at [c], seen from [c + d]. *)
Definition linear (o : part RNum) (c d : p2) : p2 :=
  let X := x c - x (pr o) in let Y := y c - y (pr o) in let q := X * X + Y * Y in
  @mkVec RNum (- pg o * Y / q + (2 * pg o * Y * X / (q * q)) * x d + (pg o * (Y * Y - X * X) / (q * q)) * y d)
              (pg o * X / q + (pg o * (Y * Y - X * X) / (q * q)) * x d - (2 * pg o * Y * X / (q * q)) * y d).

Lemma sumsq a b : 0 <= a * a + b * b.
Proof. nra. Qed.

Lemma sumsq0 a b : a * a + b * b = 0 -> a = 0 /\ b = 0.
Proof. intros H. split; nra. Qed.

Lemma remainder (X Y a b g : R) : X * X + Y * Y <> 0 -> (X + a) * (X + a) + (Y + b) * (Y + b) <> 0 ->
  let q := X * X + Y * Y in let w := (X + a) * (X + a) + (Y + b) * (Y + b) in
  let u1 := - g * (Y + b) / w - (- g * Y / q + 2 * g * Y * X / (q * q) * a + g * (Y * Y - X * X) / (q * q) * b) in
  let u2 := g * (X + a) / w - (g * X / q + g * (Y * Y - X * X) / (q * q) * a - 2 * g * Y * X / (q * q) * b) in
  sqrt (u1 * u1 + u2 * u2) = Rabs g * (sqrt (a * a + b * b) * sqrt (a * a + b * b)) / (sqrt q * sqrt q * sqrt w).
Proof.
  intros Hq Hw q w u1 u2. fold q in Hq. fold w in Hw.
  assert (q0 : 0 < q) by (pose proof (sumsq X Y); fold q in H; lra).
  assert (w0 : 0 < w) by (pose proof (sumsq (X + a) (Y + b)); fold w in H; lra).
  pose proof (sumsq a b) as D.
  rewrite (sqrt_sqrt (a * a + b * b)) by exact D. rewrite (sqrt_sqrt q) by lra.
  assert (S : sqrt w <> 0) by (apply Rgt_not_eq, sqrt_lt_R0, w0).
  replace (u1 * u1 + u2 * u2) with (Rsqr (g * (a * a + b * b) / q) / w).
  - rewrite sqrt_div_alt by exact w0. rewrite sqrt_Rsqr_abs. unfold Rdiv. rewrite !Rabs_mult.
    rewrite (Rabs_right (/ q)) by (apply Rle_ge, Rlt_le, Rinv_0_lt_compat, q0).
    rewrite (Rabs_right (a * a + b * b)) by lra. field. split; [exact S|exact Hq].
  - unfold u1, u2, Rsqr. clear u1 u2. unfold w, q in *. field. split; assumption.
Qed.

Lemma linear_error (o : part RNum) (c d : p2) : pr o <> c -> pr o <> vadd c d ->
  norm (vsub (point_vortex (pr o) (pg o) (vadd c d)) (linear o c d)) =
  Rabs (pg o) * (norm d * norm d) / (dist_to o c * dist_to o c * dist_to o (vadd c d)).
Proof.
  intros N1 N2.
  assert (NZ : forall u : p2, pr o <> u -> (x u - x (pr o)) * (x u - x (pr o)) + (y u - y (pr o)) * (y u - y (pr o)) <> 0).
  { intros [ux uy] H Q. apply H. destruct (pr o) as [ox oy]. cbn [x y] in *.
    apply sumsq0 in Q. destruct Q as [E1 E2]. f_equal; eqR; lra. }
  apply NZ in N1, N2. clear NZ.
  destruct o as [[ox oy] g v0 e0]. destruct c as [cx cy]. destruct d as [dx dy].
  unfold dist_to, norm, point_vortex, linear, vsub, vadd in *. cbn [x y pr pg] in *. unr. cbv zeta.
  replace (cx + dx - ox) with (cx - ox + dx) in * by (eqR; ring). replace (cy + dy - oy) with (cy - oy + dy) in * by (eqR; ring).
  apply (remainder (cx - ox) (cy - oy) dx dy g N1 N2).
Qed.

(** The terms of the code are the sums of these. *)
Lemma taylor_linear (c2 c1 : R) (c : p2) cm p : c1 = 2 * c2 ->
  far_taylor (K:=RNum) c2 c1 c cm p =
  let s := vsum (map (fun o => linear o c (vsub p c)) (masses cm)) in @mkVec RNum (c2 * x s) (c2 * y s).
Proof.
  intros ->. unfold far_taylor, taylor_of, vsum. cbv zeta. set (d := vsub p c).
  set (f1 := fun o : part RNum => pg o / abs2 (vsub c (pr o))). set (f2 := fun o : part RNum => pg o / (abs2 (vsub c (pr o)) * abs2 (vsub c (pr o)))).
  assert (G : forall t, let u := fold_left (taylor_step (K:=RNum) c) cm t in
    t1 u = t1 t - total (fun o : part RNum => f1 o * y (vsub c (pr o))) (masses cm) /\ t2 u = t2 t + total (fun o : part RNum => f1 o * x (vsub c (pr o))) (masses cm) /\ t3 u = t3 t + total (fun o : part RNum => f2 o * y (vsub c (pr o)) * x (vsub c (pr o))) (masses cm) /\ t4 u = t4 t + total (fun o : part RNum => f2 o * (y (vsub c (pr o)) * y (vsub c (pr o)) - x (vsub c (pr o)) * x (vsub c (pr o)))) (masses cm)).
  { induction cm as [|[P M] l IH]; intros t; cbv zeta in *; cbn [fold_left masses flat_map].
    - unfold total. cbn. repeat split; lra.
    - destruct (IH (taylor_step (K:=RNum) c t (P, M))) as (-> & -> & -> & ->). fold (masses l). unfold taylor_step. cbn [t1 t2 t3 t4 fst snd app].
      unfold total. cbn [fold_right]. unfold f1, f2, Rdiv. unr. unfold Rdiv. repeat split; eqR; ring. }
  destruct (G (mkTaylor (nofZ 0) (nofZ 0) (nofZ 0) (nofZ 0))) as (G1 & G2 & G3 & G4). cbn [t1 t2 t3 t4] in *. rewrite G1, G2, G3, G4. clear G G1 G2 G3 G4.
  unfold vadd, dot. cbn [x y]. unr.
  assert (S : forall F : p2 -> R, total F (map (fun o => linear o c d) (masses cm)) = total (fun o => F (linear o c d)) (masses cm)).
  { intros F. induction (masses cm) as [|o l IH]; [reflexivity|]. unfold total in *. cbn [map fold_right]. rewrite IH. reflexivity. }
  f_equal; eqR; rewrite S; clear S.
  - transitivity (c2 * total (fun o => - (f1 o * y (vsub c (pr o))) + (2 * x d) * (f2 o * y (vsub c (pr o)) * x (vsub c (pr o))) +
        y d * (f2 o * (y (vsub c (pr o)) * y (vsub c (pr o)) - x (vsub c (pr o)) * x (vsub c (pr o))))) (masses cm)).
    + rewrite !total_add', !total_scal', total_opp. unr. eqR. ring.
    + f_equal. apply total_ext'. intros o _. unfold f1, f2, linear, vsub, abs2. cbn [x y]. unr. unfold Rdiv. eqR. ring.
  - transitivity (c2 * total (fun o => (f1 o * x (vsub c (pr o))) + (- 2 * y d) * (f2 o * y (vsub c (pr o)) * x (vsub c (pr o))) +
        x d * (f2 o * (y (vsub c (pr o)) * y (vsub c (pr o)) - x (vsub c (pr o)) * x (vsub c (pr o))))) (masses cm)).
    + rewrite !total_add', !total_scal'. unr. eqR. ring.
    + f_equal. apply total_ext'. intros o _. unfold f1, f2, linear, vsub, abs2. cbn [x y]. unr. unfold Rdiv. eqR. ring.
Qed.

(** Triangle inequality. *)
Lemma norm_add (u v : p2) : norm (vadd u v) <= norm u + norm v.
Proof.
  destruct u as [a b]. destruct v as [c d]. unfold norm, vadd. cbn [x y]. unr.
  change (sqrt ((a + c) * (a + c) + (b + d) * (b + d)) <= sqrt (a * a + b * b) + sqrt (c * c + d * d)).
  pose proof (sumsq a b) as H1. pose proof (sumsq c d) as H2. pose proof (sumsq (a + c) (b + d)) as H3.
  pose proof (sqrt_pos (a * a + b * b)) as S1. pose proof (sqrt_pos (c * c + d * d)) as S2.
  apply Rsqr_incr_0_var; [|lra]. unfold Rsqr. rewrite sqrt_sqrt by exact H3.
  assert (C : a * c + b * d <= sqrt (a * a + b * b) * sqrt (c * c + d * d)).
  { rewrite <- sqrt_mult by assumption. destruct (Rle_dec (a * c + b * d) 0) as [N|N]; [pose proof (sqrt_pos ((a * a + b * b) * (c * c + d * d))); lra|].
    rewrite <- (sqrt_Rsqr (a * c + b * d)) by lra. apply sqrt_le_1; [unfold Rsqr; nra|nra|]. unfold Rsqr.
    pose proof (Rle_0_sqr (a * d - b * c)) as Z. unfold Rsqr in Z. lra. }
  pose proof (sqrt_sqrt _ H1) as Q1. pose proof (sqrt_sqrt _ H2) as Q2. nra.
Qed.
Lemma norm_sum (l : list p2) : norm (vsum l) <= total norm l.
Proof.
  induction l as [|v l IH].
  - unfold norm, vsum, total. cbn [fold_right x y]. replace (0 * 0 + 0 * 0) with 0 by ring. rewrite sqrt_0. lra.
  - pose proof (norm_add v (vsum l)) as H. change (total norm (v :: l)) with (norm v + total norm l).
    change (vsum (v :: l)) with (vadd v (vsum l)). lra.
Qed.
Lemma norm_scale c (v : p2) : norm (@mkVec RNum (c * x v) (c * y v)) = Rabs c * norm v.
Proof.
  unfold norm. cbn [x y]. replace (c * x v * (c * x v) + c * y v * (c * y v)) with (Rsqr c * (x v * x v + y v * y v)) by (unfold Rsqr; eqR; ring).
  rewrite sqrt_mult; [|apply Rle_0_sqr|apply sumsq]. rewrite sqrt_Rsqr_abs. reflexivity.
Qed.

Lemma vadd_vsub (c p : p2) : p = vadd c (vsub p c).
Proof.
  destruct p as [a b]. destruct c as [a' b']. unfold vadd, vsub. cbn [x y]. unr.
  assert (E1 : a = a' + (a - a')) by lra. assert (E2 : b = b' + (b - b')) by lra. rewrite <- E1, <- E2. reflexivity.
Qed.

(** Error of the far field of the code against all the vortices it stands for. *)
Lemma taylor_error (c2 c1 : R) (c : p2) cm p : c1 = 2 * c2 ->
  (forall o, In o (masses cm) -> pr o <> c /\ pr o <> p) ->
  norm (vsub (exact_far c2 cm p) (far_taylor (K:=RNum) c2 c1 c cm p)) <=
  Rabs c2 * total (fun o : part RNum => Rabs (pg o) * (norm (vsub p c) * norm (vsub p c)) / (dist_to o c * dist_to o c * dist_to o p)) (masses cm).
Proof.
  intros Hc NZ. rewrite taylor_linear by exact Hc. cbv zeta. unfold exact_far. cbv zeta.
  set (d := vsub p c). assert (Ep : p = vadd c d).
  { apply vadd_vsub. }
  set (l := masses cm) in *.
  set (E := map (fun o => vsub (point_vortex (pr o) (pg o) p) (linear o c d)) l).
  assert (X : vsub (@mkVec RNum (c2 * x (vsum (map (fun o => point_vortex (pr o) (pg o) p) l))) (c2 * y (vsum (map (fun o => point_vortex (pr o) (pg o) p) l))))
                   (@mkVec RNum (c2 * x (vsum (map (fun o => linear o c d) l))) (c2 * y (vsum (map (fun o => linear o c d) l)))) =
              @mkVec RNum (c2 * x (vsum E)) (c2 * y (vsum E))).
  { unfold E, vsub at 1. cbn [x y]. unr. clear. f_equal; eqR.
    - induction l as [|o l IH]; [unfold vsum, total; cbn; eqR; ring|]. unfold vsum, total in *. cbn [map fold_right x y] in *. unr.
      rewrite ?Rmult_plus_distr_l. unfold vsub in *. cbn [x y] in *. unr. eqR. lra.
    - induction l as [|o l IH]; [unfold vsum, total; cbn; eqR; ring|]. unfold vsum, total in *. cbn [map fold_right x y] in *. unr.
      rewrite ?Rmult_plus_distr_l. unfold vsub in *. cbn [x y] in *. unr. eqR. lra. }
  rewrite X, norm_scale. apply Rmult_le_compat_l; [apply Rabs_pos|]. eapply Rle_trans; [apply norm_sum|].
  unfold E. clear X E.
  assert (S : total norm (map (fun o => vsub (point_vortex (pr o) (pg o) p) (linear o c d)) l) = total (fun o => norm (vsub (point_vortex (pr o) (pg o) p) (linear o c d))) l).
  { clear. induction l as [|o l IH]; [reflexivity|]. unfold total in *. cbn [map fold_right]. rewrite IH. reflexivity. }
  rewrite S. apply total_le. intros o Ho. destruct (NZ o Ho) as [N1 N2]. rewrite Ep in N2 |- *.
  rewrite (linear_error o c d N1 N2). apply Rle_refl.
Qed.

(** ** Sinks *)

Lemma sinks_bound (c2 c1 dt : R) (l : list (part RNum)) (p : p2) : 0 < dt -> 0 < c2 -> c1 = 2 * c2 ->
  (forall o, In o l -> pr o <> p) ->
  dt * norm (sink_influence (K:=RNum) c2 c1 dt l p) <= total (fun o => dist_to o p / 2) l.
Proof.
  intros Hdt H2 H1 NZ. unfold sink_influence. cbv zeta.
  set (f := fun o : part RNum => vscale (vsub p (pr o)) (@ndiv RNum (pg o) (@nadd RNum (abs2 (vsub p (pr o))) (@nmul RNum (@nmul RNum dt c1) (@nabs RNum (pg o)))))).
  match goal with |- context [fold_left ?F l ?z] => change (fold_left F l z) with (fold_left (fun s a => vadd s (f a)) l z) end.
  pose proof (fold_vec f l (mkVec (nofZ 0) (nofZ 0))) as [F1 F2]. cbn [x y] in F1, F2. unfold vscale at 1. rewrite F1, F2. clear F1 F2. unr.
  replace (@mkVec RNum ((0 + total (fun a => x (f a)) l) * c2) ((0 + total (fun a => y (f a)) l) * c2))
     with (@mkVec RNum (c2 * x (vsum (map f l))) (c2 * y (vsum (map f l)))).
  2: { unfold vsum. cbn [x y]. f_equal; eqR.
       - replace (total (fun v : p2 => x v) (map f l)) with (total (fun a => x (f a)) l); [ring|].
         clear. induction l as [|o l IH]; [reflexivity|]. unfold total in *. cbn [map fold_right]. rewrite IH. reflexivity.
       - replace (total (fun v : p2 => y v) (map f l)) with (total (fun a => y (f a)) l); [ring|].
         clear. induction l as [|o l IH]; [reflexivity|]. unfold total in *. cbn [map fold_right]. rewrite IH. reflexivity. }
  rewrite norm_scale, Rabs_right by lra.
  apply Rle_trans with (dt * (c2 * total norm (map f l))).
  { apply Rmult_le_compat_l; [lra|]. apply Rmult_le_compat_l; [lra|]. apply norm_sum. }
  assert (S : total norm (map f l) = total (fun o => norm (f o)) l).
  { clear. induction l as [|o l IH]; [reflexivity|]. unfold total in *. cbn [map fold_right]. rewrite IH. reflexivity. }
  rewrite S, <- Rmult_assoc, <- total_scal'. apply total_le. intros o Ho. specialize (NZ o Ho).
  assert (Q : 0 < (x p - x (pr o)) * (x p - x (pr o)) + (y p - y (pr o)) * (y p - y (pr o))).
  { pose proof (sumsq (x p - x (pr o)) (y p - y (pr o))) as [P|P]; [exact P|]. exfalso. apply NZ. symmetry in P. apply sumsq0 in P. destruct P as [E1 E2].
    destruct (pr o) as [ox oy]. destruct p as [a b]. cbn [x y] in *. f_equal; eqR; lra. }
  unfold f, dist_to, norm, vscale, vsub, abs2. cbn [x y]. unr.
  set (X := x p - x (pr o)) in *. set (Y := y p - y (pr o)) in *. set (g := pg o : R).
  change (0 < X * X + Y * Y) in Q. set (q := X * X + Y * Y) in *.
  change (dt * c2 * sqrt (X * (g / (q + dt * c1 * Rabs g)) * (X * (g / (q + dt * c1 * Rabs g))) + Y * (g / (q + dt * c1 * Rabs g)) * (Y * (g / (q + dt * c1 * Rabs g)))) <= sqrt q / 2).
  set (k := g / (q + dt * c1 * Rabs g)).
  replace (X * k * (X * k) + Y * k * (Y * k)) with (q * Rsqr k) by (unfold q, Rsqr; ring).
  rewrite sqrt_mult; [|lra|apply Rle_0_sqr]. rewrite sqrt_Rsqr_abs.
  pose proof (Rabs_pos g) as Gp. pose proof (sqrt_pos q) as Sq.
  assert (D : 0 < q + dt * c1 * Rabs g).
  { subst c1. assert (0 <= dt * (2 * c2) * Rabs g) by (apply Rmult_le_pos; [|exact Gp]; nra). lra. }
  assert (B : dt * c2 * Rabs k <= / 2).
  { unfold k, Rdiv. rewrite Rabs_mult, (Rabs_right (/ _)) by (apply Rle_ge, Rlt_le, Rinv_0_lt_compat, D).
    apply (Rmult_le_reg_r (q + dt * c1 * Rabs g)); [exact D|].
    replace (dt * c2 * (Rabs g * / (q + dt * c1 * Rabs g)) * (q + dt * c1 * Rabs g)) with (dt * c2 * Rabs g) by (field; lra).
    subst c1. lra. }
  replace (dt * c2 * (sqrt q * Rabs k)) with (sqrt q * (dt * c2 * Rabs k)) by ring.
  unfold Rdiv. apply Rmult_le_compat_l; assumption.
Qed.

(** ** Denominators of the diffusive velocity *)

Lemma guard_ok (tenth S1 g : R) : 0 < tenth -> g <> 0 ->
  sign (K:=RNum) (guard (K:=RNum) tenth S1 g) = sign (K:=RNum) g /\ tenth * Rabs g <= Rabs (guard (K:=RNum) tenth S1 g).
Proof.
  intros Ht Hg. unfold guard. unr. change (@nltb RNum) with Rltb.
  assert (A : Rabs (tenth * g) = tenth * Rabs g) by (rewrite Rabs_mult, (Rabs_right tenth); lra).
  destruct (negb _ || _) eqn:E.
  - split; [|rewrite A; lra]. rewrite !sign_R. destruct (Rlt_dec 0 g) as [P|P].
    + destruct (Rlt_dec 0 (tenth * g)) as [Q|Q]; [reflexivity|]. exfalso. apply Q. nra.
    + assert (N : g < 0) by lra. destruct (Rlt_dec 0 (tenth * g)) as [Q|Q]; [exfalso; nra|].
      destruct (Rlt_dec g 0); [|contradiction]. destruct (Rlt_dec (tenth * g) 0) as [Q'|Q']; [reflexivity|]. exfalso. nra.
  - apply orb_false_iff in E. destruct E as [E1 E2]. apply negb_false_iff, Z.eqb_eq in E1. rbool. split; [exact E1|]. rewrite A in E2. lra.
Qed.

Lemma cap_ok (pi_ two_pi S0 : R) : two_pi = 2 * pi_ -> pi_ <= two_pi - cap (K:=RNum) pi_ S0.
Proof. intros ->. unfold cap. change (@nltb RNum) with Rltb. destruct (Rltb pi_ S0) eqn:E; rbool; lra. Qed.
