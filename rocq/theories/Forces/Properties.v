(** Friction, heat flux and pressure of a body. *)

From Coq Require Import Reals List Lra Lia Arith ZArith.
From Verif.Base Require Import Num.
From Verif.Body Require Import Model.
From Verif.Forces Require Import Model Spec Proofs.
Import ListNotations.
Local Open Scope R_scope.

(** * C73: the force and the moment of friction *)

(** The force of friction is the sum of the forces on the segments, whatever it was before. *)
Theorem C73_force : forall pi re pr dt b,
  let f := friction (calc_forces (K:=RNum) pi re pr dt b) in
  (x (r3 f), y (r3 f)) = total_force pi re (walls b).
Proof.
  intros pi re pr dt b. cbv zeta. unfold calc_forces.
  match goal with |- context [forces_loop ?p ?a ?c ?d ?e ?f ?n ?l] => destruct (@forces_loop RNum p a c d e f n l) as [[l' f'] n'] eqn:E end.
  apply loop_spec in E. destruct E as (E1 & E2 & _). cbn [friction]. rewrite E1, E2.
  unfold total_force. cbn [r3 x y vzero]. f_equal; apply Rplus_0_l.
Qed.
Print Assumptions C73_force.

(** The moment is the one about the origin of the plane.  It is the one about the axis
    exactly when the line through the origin and the axis is parallel to the force. *)
Theorem C73_moment_partial : forall pi re pr dt b c,
  o3 (friction (calc_forces (K:=RNum) pi re pr dt b)) = total_moment pi re (0, 0) (walls b)
  /\ (o3 (friction (calc_forces (K:=RNum) pi re pr dt b)) = total_moment pi re c (walls b)
      <-> fst c * snd (total_force pi re (walls b)) = snd c * fst (total_force pi re (walls b))).
Proof.
  intros pi re pr dt b c.
  assert (H : o3 (friction (calc_forces (K:=RNum) pi re pr dt b)) = total_moment pi re (0, 0) (walls b)).
  { unfold calc_forces.
    match goal with |- context [forces_loop ?p ?a ?c ?d ?e ?f ?n ?l] => destruct (@forces_loop RNum p a c d e f n l) as [[l' f'] n'] eqn:E end.
    apply loop_spec in E. destruct E as (_ & _ & E3 & _). cbn [friction]. rewrite E3. apply Rplus_0_l. }
  split; [exact H|]. rewrite H, (moment_shift pi re c). split; intros E; lra.
Qed.
Print Assumptions C73_moment_partial.

(** A unit square around (0,2) on which the flow drags the lower side: the moment about its
    centre, where its axis is, and the moment that is computed have different signs. *)
Definition at4 (cx cy dx dy : R) (f : R) : wall RNum :=
  let d := mkVec (K:=RNum) dx dy in let c := mkVec (K:=RNum) cx cy in
  mkWall (K:=RNum) (mkAtt c false d (mkVec (K:=RNum) (cx + dx / 2) (cy + dy / 2)) 3) 0 f 0 0 0 0.
Definition square : fbody RNum :=
  mkF (K:=RNum) [at4 (-1) 1 0 2 0; at4 (-1) 3 2 0 0; at4 1 3 0 (-2) 0; at4 1 1 (-2) 0 1]
    (mkVec3 (K:=RNum) vzero 0) (mkVec3 (K:=RNum) vzero 0) 0.

Lemma sqrt_4 : sqrt (-2 * -2 + 0 * 0) = 2.
Proof. replace (-2 * -2 + 0 * 0) with (2 * 2) by ring. apply sqrt_square. lra. Qed.

Lemma none a : - (0 / (1 * 1)) / a = 0.
Proof. unfold Rdiv. ring. Qed.

Theorem C73_refuted : exists (b : fbody RNum) c,
  total_moment 1 1 c (walls b) = 1 /\ o3 (friction (calc_forces (K:=RNum) 1 1 1 1 b)) = -1.
Proof.
  exists square, (0, 2). rewrite (proj1 (C73_moment_partial 1 1 1 1 square (0, 2))).
  unfold total_moment, square, at4, moment, force, centre, len.
  cbn [walls total seg dl r x y fst snd fric]. rewrite sqrt_4, !none. split; lra.
Qed.
Print Assumptions C73_refuted.

(** The force on the square. *)
Example C73_ex : total_force 1 1 (walls square) = (1, 0).
Proof.
  unfold total_force, square, at4, force, len.
  cbn [walls total seg dl r x y fst snd fric]. rewrite sqrt_4, !none. f_equal; lra.
Qed.

(** * C74: local distributions and totals *)

(** The heat given off by the segments in the step adds up to the total, the friction
    stored per segment gives the total force, and the pressure is the sum of the
    circulations from the first segment on. *)
Theorem C74_totals : forall pi re pr dt b b', dt <> 0 -> pi <> 0 -> re <> 0 ->
  Forall (fun w => len (seg w) <> 0) (walls b) -> nusselt b = 0 ->
  b' = calc_forces (K:=RNum) pi re pr dt b ->
  dt * nusselt b' = total (fun p : wall RNum * wall RNum => len (seg (fst p)) * (nu (snd p) - nu (fst p))) (combine (walls b) (walls b'))
  /\ x (r3 (friction b')) = - total (fun p : wall RNum * wall RNum => (fr (snd p) - fr (fst p)) / dt * (x (dl (seg (fst p))) / len (seg (fst p))))
       (combine (walls b) (walls b'))
  /\ y (r3 (friction b')) = - total (fun p : wall RNum * wall RNum => (fr (snd p) - fr (fst p)) / dt * (y (dl (seg (fst p))) / len (seg (fst p))))
       (combine (walls b) (walls b'))
  /\ forall k w w', nth_error (walls b) k = Some w -> nth_error (walls b') k = Some w' ->
       cp w' - cp w = total (gsum (K:=RNum)) (firstn (S k) (walls b)).
Proof.
  intros pi re pr dt b b' Hdt Hpi Hre HL HN ->. unfold calc_forces.
  match goal with |- context [forces_loop ?p ?a ?c ?d ?e ?f ?n ?l] => destruct (@forces_loop RNum p a c d e f n l) as [[l' f'] n'] eqn:E end.
  apply loop_spec in E. destruct E as (E1 & E2 & _ & E4 & E5 & E6). cbn [friction walls nusselt].
  rewrite HN in E4. cbn [r3 x y vzero] in E1, E2. change (@nofZ RNum 0%Z) with 0 in *.
  assert (FR : forall k w w', nth_error (walls b) k = Some w -> nth_error l' k = Some w' ->
     fr w' - fr w = fric w * (dt / (pi * re)) /\ nu w' - nu w = hsum w * (re * pr / len (seg w))).
  { intros k w w' A B. destruct (E6 k w w' A B) as (_ & F & N). rewrite F, N. split; eqR; unr; ring. }
  assert (G : forall (l m : list (wall RNum)), Forall2 kept l m -> Forall (fun w => len (seg w) <> 0) l ->
     (forall k w w', nth_error l k = Some w -> nth_error m k = Some w' ->
        fr w' - fr w = fric w * (dt / (pi * re)) /\ nu w' - nu w = hsum w * (re * pr / len (seg w))) ->
     total (fun p : wall RNum * wall RNum => len (seg (fst p)) * (nu (snd p) - nu (fst p))) (combine l m) = re * pr * total (hsum (K:=RNum)) l
     /\ total (fun p : wall RNum * wall RNum => (fr (snd p) - fr (fst p)) / dt * (x (dl (seg (fst p))) / len (seg (fst p)))) (combine l m)
        = - total (fun w => fst (force pi re w)) l
     /\ total (fun p : wall RNum * wall RNum => (fr (snd p) - fr (fst p)) / dt * (y (dl (seg (fst p))) / len (seg (fst p)))) (combine l m)
        = - total (fun w => snd (force pi re w)) l).
  { induction 1 as [|a c l m _ _ IH]; intros FL H.
    - cbn [combine total]. split; [|split]; ring.
    - inversion FL as [|? ? La FL']; subst. destruct (H O a c eq_refl eq_refl) as (F & N).
      destruct IH as (I1 & I2 & I3); auto.
      { intros k w w' A B. apply (H (S k) w w' A B). }
      cbn [combine total fst snd]. rewrite I1, I2, I3, F, N. unfold force. cbn [fst snd].
      split; [|split]; field; auto. }
  destruct (G _ _ E5 HL FR) as (G1 & G2 & G3). rewrite G1, G2, G3, E1, E2, E4.
  split; [|split; [|split]].
  - eqR. unr. field. exact Hdt.
  - eqR. unr. ring.
  - eqR. unr. ring.
  - intros k w w' A B. destruct (E6 k w w' A B) as (C & _). rewrite C. eqR. unr. ring.
Qed.
Print Assumptions C74_totals.

(** Heat 3 and 5 from two segments of lengths 2: Nu grows by 3/2 and 5/2 with re = pr = 1. *)
Definition warm : fbody RNum :=
  let w h := let a := at4 1 1 (-2) 0 0 in mkWall (K:=RNum) (seg a) 1 0 h 0 0 0 in
  mkF (K:=RNum) [w 3; w 5] (mkVec3 (K:=RNum) vzero 0) (mkVec3 (K:=RNum) vzero 0) 0.
Example C74_ex :
  let b := calc_forces (K:=RNum) 1 1 1 2 warm in
  nusselt b = 4 /\ map (nu (K:=RNum)) (walls b) = [3 / 2; 5 / 2] /\ map (cp (K:=RNum)) (walls b) = [1; 2].
Proof.
  cbv zeta. unfold warm, at4, calc_forces. cbn [walls forces_loop nusselt map nu cp seg dl gsum hsum].
  unfold vabs. cbn [x y seg dl]. change (@nsqrt RNum) with sqrt. unr. rewrite sqrt_4.
  split; [eqR; lra|]. split; (apply f_equal2; [eqR; lra|apply f_equal2; [eqR; lra|reflexivity]]).
Qed.

(** ** Many steps *)

Ltac rring := match goal with |- ?a = ?b => apply (Rplus_eq_reg_l 0 a b) end; change (T RNum) with R; ring.

(** What the segments collect in a step: circulation, friction, heat. *)
Definition gain := (R * R * R)%type.
Definition g_of (c : gain) : R := fst (fst c).
Definition f_of (c : gain) : R := snd (fst c).
Definition h_of (c : gain) : R := snd c.
Definition collect (w : wall RNum) (c : gain) : wall RNum :=
  mkWall (K:=RNum) (seg w) (gsum w + g_of c) (fric w + f_of c) (hsum w + h_of c) (cp w) (fr w) (nu w).
Definition one_step (pi re pr dt : R) (b : fbody RNum) (c : list gain) : fbody RNum :=
  let z := zero_forces (K:=RNum) b in
  calc_forces (K:=RNum) pi re pr dt
    (mkF (K:=RNum) (map (fun p => collect (fst p) (snd p)) (combine (walls z) c)) (friction z) (friction_prev z) (nusselt z)).

Lemma nth_zip {A B} : forall (l : list A) (m : list B) k p, nth_error (combine l m) k = Some p ->
  nth_error l k = Some (fst p) /\ nth_error m k = Some (snd p).
Proof.
  induction l as [|a l IH]; intros [|c m] [|k] p H; try discriminate; cbn in *.
  - injection H as <-. split; reflexivity.
  - apply IH. exact H.
Qed.

Lemma firstn_zip {A B} (f : B -> R) : forall (l : list A) (m : list B) k, length l = length m ->
  total (fun p : A * B => f (snd p)) (firstn k (combine l m)) = total f (firstn k m).
Proof.
  induction l as [|a l IH]; intros [|c m] [|k] H; try discriminate; try reflexivity.
  cbn. rewrite IH; [reflexivity|]. injection H as H. exact H.
Qed.

Lemma total_map {A B} (f : B -> R) (g : A -> B) l : total f (map g l) = total (fun a => f (g a)) l.
Proof. induction l as [|a l IH]; cbn; [reflexivity|rewrite IH; reflexivity]. Qed.

Lemma forall2_nth {A B} (Q : A -> B -> Prop) l m : Forall2 Q l m -> forall k a, nth_error l k = Some a -> exists c, nth_error m k = Some c /\ Q a c.
Proof.
  induction 1 as [|a c l m H _ IH]; intros [|k] d E; try discriminate; cbn in *.
  - injection E as <-. exists c. split; [reflexivity|exact H].
  - apply IH. exact E.
Qed.

Lemma step_spec pi re pr dt b c : length c = length (walls b) ->
  let b' := one_step pi re pr dt b c in
  length (walls b') = length (walls b)
  /\ (forall k w w' d, nth_error (walls b) k = Some w -> nth_error (walls b') k = Some w' -> nth_error c k = Some d ->
        seg w' = seg w /\ cp w' = cp w + total g_of (firstn (S k) c)
        /\ fr w' = fr w + f_of d * (dt / (pi * re)) /\ nu w' = nu w + h_of d * (re * pr / len (seg w)))
  /\ nusselt b' = re * pr * total h_of c / dt /\ friction_prev b' = friction b.
Proof.
  intros L. cbv zeta. unfold one_step, calc_forces, zero_forces. cbn [walls friction friction_prev nusselt].
  match goal with |- context [forces_loop ?p ?a ?e ?d ?q ?f ?n ?l] => destruct (@forces_loop RNum p a e d q f n l) as [[l' f'] n'] eqn:E end.
  apply loop_spec in E. destruct E as (_ & _ & _ & E4 & E5 & E6). cbn [walls nusselt friction_prev].
  assert (Z : forall (h : wall RNum -> R) (g : gain -> R), (forall w d, h (collect (mkWall (K:=RNum) (seg w) 0 0 0 (cp w) (fr w) (nu w)) d) = g d) ->
    forall k, total h (firstn k (map (fun p => collect (fst p) (snd p))
      (combine (map (fun w : wall RNum => mkWall (K:=RNum) (seg w) 0 0 0 (cp w) (fr w) (nu w)) (walls b)) c))) = total g (firstn k c)).
  { intros h g Hh k. clear -Hh L. revert c k L. induction (walls b) as [|w ws IH]; intros [|d c] [|k] L; try discriminate; try reflexivity.
    cbn [map combine firstn total fst snd]. rewrite Hh, IH; [reflexivity|]. injection L as L. exact L. }
  split; [|split; [|split]].
  - assert (E7 : forall l m, Forall2 kept l m -> length l = length m) by (clear; induction 1; cbn; congruence).
    rewrite <- (E7 _ _ E5), map_length, combine_length, map_length, L. apply Nat.min_id.
  - intros k w w' d A B C.
    assert (D : nth_error (map (fun p => collect (fst p) (snd p))
      (combine (map (fun w : wall RNum => mkWall (K:=RNum) (seg w) 0 0 0 (cp w) (fr w) (nu w)) (walls b)) c)) k
      = Some (collect (mkWall (K:=RNum) (seg w) 0 0 0 (cp w) (fr w) (nu w)) d)).
    { clear -A C. revert c k A C. induction (walls b) as [|v ws IH]; intros [|e c] [|k] A C; try discriminate; cbn in *.
      - injection A as ->. injection C as ->. reflexivity.
      - apply IH; assumption. }
    destruct (E6 k _ w' D B) as (F1 & F2 & F3).
    destruct (forall2_nth _ _ _ E5 k _ D) as (w2 & B2 & (S2 & _)). rewrite B in B2. injection B2 as <-.
    split; [symmetry; exact S2|]. rewrite F1, F2, F3.
    change (@nofZ RNum 0%Z) with 0. rewrite (Z (gsum (K:=RNum)) g_of).
    2:{ intros v e. unfold collect. cbn [gsum]. unr. eqR. ring. }
    unfold collect. cbn [cp fr nu fric hsum seg]. unr.
    split; [|split]; eqR; ring.
  - rewrite E4. change (@nofZ RNum 0%Z) with 0.
    assert (Q := Z (hsum (K:=RNum)) h_of). rewrite <- (firstn_all c) at 2.
    rewrite <- Q; [|intros v e; unfold collect; cbn [hsum]; unr; eqR; ring].
    rewrite firstn_all2; [unr; eqR; unfold Rdiv; ring|].
    rewrite map_length, combine_length, map_length, L. lia.
  - reflexivity.
Qed.

(** After any number of steps the profiles hold the sums over all of them, the Nusselt
    number belongs to the last step alone, and the friction of the step before it is kept. *)
Theorem C74_run : forall pi re pr dt b cs b',
  Forall (fun c => length c = length (walls b)) cs -> b' = fold_left (one_step pi re pr dt) cs b ->
  (forall k w w', nth_error (walls b) k = Some w -> nth_error (walls b') k = Some w' ->
     let of c := nth k c (0, 0, 0) in
     seg w' = seg w
     /\ cp w' = cp w + total (fun c => total g_of (firstn (S k) c)) cs
     /\ fr w' = fr w + total (fun c => f_of (of c)) cs * dt / (pi * re)
     /\ nu w' = nu w + total (fun c => h_of (of c)) cs * (re * pr) / len (seg w))
  /\ forall before last, cs = before ++ [last] ->
       nusselt b' = re * pr * total h_of last / dt
       /\ friction_prev b' = friction (fold_left (one_step pi re pr dt) before b).
Proof.
  intros pi re pr dt b cs b' L ->. split.
  - revert b L. induction cs as [|c cs IH]; intros b L k w w' A B.
    + cbn in *. rewrite A in B. injection B as <-. split; [reflexivity|]. unfold Rdiv.
      split; [|split]; rring.
    + inversion L as [|? ? Lc Lcs]; subst. cbn [fold_left] in B.
      destruct (step_spec pi re pr dt b c Lc) as (S1 & S2 & _).
      destruct (nth_error (walls (one_step pi re pr dt b c)) k) as [v|] eqn:V.
      2:{ apply nth_error_None in V. assert (k < length (walls b))%nat by (apply nth_error_Some; rewrite A; discriminate). lia. }
      destruct (nth_error c k) as [d|] eqn:D.
      2:{ apply nth_error_None in D. assert (k < length (walls b))%nat by (apply nth_error_Some; rewrite A; discriminate). lia. }
      destruct (S2 k w v d A V D) as (Q1 & Q2 & Q3 & Q4).
      destruct (IH (one_step pi re pr dt b c)) with (k := k) (w := v) (w' := w') as (I1 & I2 & I3 & I4).
      { rewrite S1. exact Lcs. } { exact V. } { exact B. }
      cbv zeta in *. cbn [total]. pose proof (nth_error_nth c k (0, 0, 0) D) as ND. unfold gain in *. rewrite ND.
      rewrite I1, I2, I3, I4, Q1, Q2, Q3, Q4. split; [reflexivity|]. unfold Rdiv. split; [|split]; unr; rring.
  - intros before last ->. rewrite fold_left_app. cbn [fold_left].
    apply Forall_app in L. destruct L as [Lb Ll]. inversion Ll as [|? ? L1 _]; subst.
    assert (W : forall bs b0, Forall (fun c : list gain => length c = length (walls b0)) bs ->
      length (walls (fold_left (one_step pi re pr dt) bs b0)) = length (walls b0)).
    { induction bs as [|c bs IHb]; intros b0 F; [reflexivity|]. inversion F as [|? ? Fc Fb]; subst. cbn [fold_left].
      destruct (step_spec pi re pr dt b0 c Fc) as (S1 & _). rewrite IHb; [exact S1|]. rewrite S1. exact Fb. }
    destruct (step_spec pi re pr dt (fold_left (one_step pi re pr dt) before b) last) as (_ & _ & S3 & S4).
    { rewrite W by exact Lb. exact L1. }
    split; assumption.
Qed.
Print Assumptions C74_run.

(** Two steps of [warm]: heat 3 and 5, then 1 and 1. *)
Example C74_run_ex :
  let b := fold_left (one_step 1 1 1 2) [[(1, 0, 3); (1, 0, 5)]; [(2, 0, 1); (0, 0, 1)]] warm in
  nusselt b = 1 /\ exists w, nth_error (walls b) 1 = Some w /\ cp w = 4 /\ nu w = 6 / len (seg w).
Proof.
  cbv zeta. destruct (C74_run 1 1 1 2 warm [[(1, 0, 3); (1, 0, 5)]; [(2, 0, 1); (0, 0, 1)]] _ ltac:(repeat constructor) eq_refl) as [H1 H2].
  destruct (H2 [[(1, 0, 3); (1, 0, 5)]] [(2, 0, 1); (0, 0, 1)] eq_refl) as [N _].
  split; [rewrite N; unfold h_of; cbn [total snd]; unfold Rdiv; eqR; lra|].
  destruct (nth_error (walls (fold_left (one_step 1 1 1 2) [[(1, 0, 3); (1, 0, 5)]; [(2, 0, 1); (0, 0, 1)]] warm)) 1) as [w|] eqn:E; [|discriminate E].
  exists w. split; [reflexivity|]. destruct (H1 1%nat _ w eq_refl E) as (S & C & _ & U). rewrite S, C, U.
  unfold g_of, h_of. cbn [total firstn nth fst snd cp nu warm walls at4 seg].
  unfold Rdiv. split; rring.
Qed.
