(** Properties of the particle methods. *)

From Coq Require Import ZArith Bool List Lia Permutation Reals Lra.
From Flocq Require Import Core.Core IEEE754.BinarySingleNaN.
From Verif.Base Require Import Num F64 F64Order.
From Verif.Body Require Import Model Spec.
From Verif.Vortex Require Import Model Spec Proofs ProofsMerge ProofsRadius ProofsKernel ProofsField.
From Verif.System Require Import Model.
From Verif.Vortex Require Import Model.
Import ListNotations.

(** Numbers for the examples. *)
Definition fz (z : Z) : f64 := f64_ofZ z.
Definition fp (g x y : Z) : part F64 := @mkPart F64 (@mkVec F64 (fz x) (fz y)) (fz g) (@mkVec F64 (fz 0) (fz 0)) (fz 0).
Definition fmax : f64 := binary_normalize 53 1024 Hprec64 Hmax64 mode_NE (2 ^ 53 - 1) 971 false.
Definition fmin : f64 := binary_normalize 53 1024 Hprec64 Hmax64 mode_NE 1 (-1022) false.
Definition fatt (x1 y1 x2 y2 : Z) : att F64 :=
  let c := @mkVec F64 (fz x1) (fz y1) in let d := @mkVec F64 (fz (x2 - x1)) (fz (y2 - y1)) in
  @mkAtt F64 c false d (@mkVec F64 (Bdiv mode_NE (fz (x1 + x2)) (fz 2)) (Bdiv mode_NE (fz (y1 + y2)) (fz 2))) (fz 0).
Definition fone : cell F64 := @mkCell F64 (@mkVec F64 (fz 0) (fz 0)) [0; 1; 2; 3] [0; 1; 2; 3] [].
Definition feps := @epsv F64 fmax fmin.
Definition fcalc := @calc_epsilon F64 fmax (f64_dec 333333333333333 15) (f64_dec 16 2) feps.
Definition same64 (a b : f64) : bool := Beqb a b.
Definition gs (l : list (part F64)) : list f64 := map (fun o => pg o) l.

Lemma by_test {A} (t : A -> bool) (a : A) : t a = true -> exists b, a = b /\ t b = true.
Proof. intros H. exists a. auto. Qed.

(** * C29: merging *)

Local Open Scope R_scope.

(** One of the two searches, both merge. *)
Definition search (big tiny : R) (eps : list nat -> list (part RNum) -> nat -> option R -> R * list (part RNum) * nat) : Prop :=
  eps = @epsv RNum big tiny \/ eps = @epsh RNum big tiny.

Lemma search_step big tiny eps : search big tiny eps ->
  forall nb vs i crit e vs' n, eps nb vs i crit = (e, vs', n) -> step nb vs i vs' n.
Proof. intros [->| ->] * H; [eapply epsv_step|eapply epsh_step]; exact H. Qed.

Theorem C29_circulation : forall big tiny third merge_c eps bodies do_merge cells vs vs' n, search big tiny eps ->
  calc_epsilon (K:=RNum) big third merge_c eps bodies do_merge cells vs = (vs', n) ->
  circulation vs' = circulation vs /\ length vs' = length vs.
Proof.
  intros * S H. destruct (calc_epsilon_keeps big third merge_c eps (search_step _ _ _ S) _ _ _ _ _ _ H) as (H1 & _ & H3). auto.
Qed.

(** Every merge counted removes one or two (opposite and equal) vortices. *)
Theorem C29_count : forall big tiny third merge_c eps bodies do_merge cells vs vs' n, search big tiny eps ->
  calc_epsilon (K:=RNum) big third merge_c eps bodies do_merge cells vs = (vs', n) ->
  (alive vs' + n <= alive vs <= alive vs' + 2 * n)%nat.
Proof.
  intros * S H. destruct (calc_epsilon_keeps big third merge_c eps (search_step _ _ _ S) _ _ _ _ _ _ H) as (_ & H2 & _). exact H2.
Qed.

(** With circulations of one sign the first moment is kept too and every merge
    removes exactly one. *)
Theorem C29_moment : forall big tiny third merge_c eps bodies do_merge cells vs vs' n, search big tiny eps ->
  (forall o : part RNum, In o vs -> 0 <= pg o) ->
  calc_epsilon (K:=RNum) big third merge_c eps bodies do_merge cells vs = (vs', n) ->
  moment_x vs' = moment_x vs /\ moment_y vs' = moment_y vs /\ alive vs = (alive vs' + n)%nat.
Proof.
  intros * S N H. destruct (calc_epsilon_keeps2 big third merge_c eps (search_step _ _ _ S) _ _ _ _ _ _ N H) as (_ & H1 & H2 & H3). auto.
Qed.

(** Any two of the same sign; the new place lies between the two. *)
Theorem C29_pair : forall vs i j (a b : part RNum), nth_error vs i = Some a -> nth_error vs j = Some b -> i <> j -> pg a <> 0 ->
  circulation (merge vs i j) = circulation vs /\
  (exists t, 0 <= t <= 1 /\ x (pr (merged a b)) = (1 - t) * x (pr a) + t * x (pr b) /\
                            y (pr (merged a b)) = (1 - t) * y (pr a) + t * y (pr b)) /\
  (0 < pg a * pg b -> moment_x (merge vs i j) = moment_x vs /\ moment_y (merge vs i j) = moment_y vs).
Proof.
  intros * Ha Hb Hij Na. split; [eapply merge_circulation; eassumption|]. split.
  - destruct (merge_between a b Na) as (t & Ht & E). exists t. rewrite E. auto.
  - intros Pos. destruct (merge_same_sign vs i j a b Ha Hb Hij Na) as (H1 & H2 & _); [|auto].
    apply same_sign. destruct (Rlt_dec 0 (pg a)) as [L|L]; [left|right; left].
    + split; [exact L|]. apply (Rmult_lt_reg_l (pg a)); [exact L|]. rewrite Rmult_0_r. exact Pos.
    + assert (A : pg a < 0) by lra. split; [exact A|]. apply Ropp_lt_cancel. rewrite Ropp_0. apply (Rmult_lt_reg_l (- pg a)); [lra|]. lra.
Qed.

(** Opposite neighbours on both sides: the first one takes its nearest. *)
Example C29_ex :
  (let '(vs, n) := fcalc [] true [fone] [fp (-1) 0 0; fp 3 1 0; fp 1 (-2) 0; fp 1 10 0] in
   (map (fun b => Beqb (fst b) (snd b)) (combine (gs vs) (map fz [2; 0; 1; 1]%Z)), n)) =
  ([true; true; true; true], 1%nat).
Proof. vm_compute. reflexivity. Qed.

(** Unequal signs do not keep the first moment. *)
Example C29_opposite : exists vs i j (a b : part RNum), nth_error vs i = Some a /\ nth_error vs j = Some b /\ i <> j /\
  pg a <> 0 /\ moment_x (merge vs i j) <> moment_x vs.
Proof.
  set (a := @mkPart RNum (P 0 0) (-1) (P 0 0) 1). set (b := @mkPart RNum (P 1 0) 3 (P 0 0) 1).
  exists [a; b], 0%nat, 1%nat, a, b. split; [reflexivity|]. split; [reflexivity|]. split; [discriminate|]. split; [cbn; lra|].
  unfold moment_x. rewrite (merge_total [a; b] 0 1 a b) by (reflexivity || discriminate).
  assert (E : merged a b = @mkPart RNum (P 1 0) (-1 + 3) (P 0 0) 1).
  { unfold merged. cbn [pg pr pv pe a b]. rewrite !sign_R. destruct (Rlt_dec 0 (-1)); [lra|]. destruct (Rlt_dec (-1) 0); [|lra]. destruct (Rlt_dec 0 3); [|lra].
    cbn [Z.eqb]. change (@nltb RNum) with Rltb. change (@nabs RNum) with Rabs. unfold Rltb.
    destruct (Rlt_dec (Rabs (-1)) (Rabs 3)) as [_|N]; [reflexivity|].
    exfalso. apply N. rewrite Rabs_left, Rabs_right by lra. lra. }
  rewrite E. unfold total, a, b, P. cbn. lra.
Qed.

Print Assumptions C29_circulation.
Print Assumptions C29_count.
Print Assumptions C29_moment.
Print Assumptions C29_pair.

(** * C30: core radii *)

(** Right after its treatment, with or without merging: 1/[_1_eps] is the distance
    to the second nearest vortex of the near nodes (of those left after the merge),
    or the lower bound.  In binary64. *)
Theorem C30_radius : forall big tiny nb crit low vs n i (a : part F64) vs' n',
  nth_error vs i = Some a -> Beqb (pg a) (fz 0) = false ->
  calc_one (@epsv F64 big tiny) nb crit low (vs, n) i = (vs', n') ->
  exists a' e, nth_error vs' i = Some a' /\ second_distance tiny (@neighbours F64 big nb vs' i) e /\
    pe a' = @ndiv F64 (fz 1) (@cmax F64 e low).
Proof.
  intros * Ha Z H. eapply (@calc_one_radius F64 big tiny) with (eps := @epsv F64 big tiny); try eassumption.
  - intros. eapply epsv_second; [apply ordered_F64|eassumption].
  - intros. eapply epsv_length; eassumption.
Qed.

(** The same for heat particles. *)
Theorem C30_heat_radius : forall big tiny nb crit low vs n i (a : part F64) vs' n', is_nan big = false ->
  nth_error vs i = Some a -> Beqb (pg a) (fz 0) = false ->
  calc_one (@epsh F64 big tiny) nb crit low (vs, n) i = (vs', n') ->
  exists a' e, nth_error vs' i = Some a' /\ second_distance tiny (@neighbours F64 big nb vs' i) e /\
    pe a' = @ndiv F64 (fz 1) (@cmax F64 e low).
Proof.
  intros * N Ha Z H. eapply (@calc_one_radius F64 big tiny) with (eps := @epsh F64 big tiny); try eassumption.
  - intros. eapply epsh_second; [apply ordered_F64|apply eq_ok_F64, N|eassumption].
  - intros. eapply epsh_length; eassumption.
Qed.

(** Without merging, for all particles of all nodes at the end of the whole pass;
    nothing but the radii changes. *)
Theorem C30_all : forall big tiny third merge_c bodies cells vs vs' n, NoDup (flat_map (fun c => mine c) cells) ->
  @calc_epsilon F64 big third merge_c (@epsv F64 big tiny) bodies false cells vs = (vs', n) ->
  n = 0%nat /\ map (fun o : part F64 => (pr o, pg o)) vs' = map (fun o : part F64 => (pr o, pg o)) vs /\
  forall c i (a : part F64), In c cells -> In i (mine c) -> nth_error vs i = Some a -> Beqb (pg a) (fz 0) = false ->
  exists a' e, nth_error vs' i = Some a' /\ second_distance tiny (@neighbours F64 big (near c) vs i) e /\
    pe a' = @ndiv F64 (fz 1) (@cmax F64 e (@restriction F64 third (@nearest F64 big bodies c (centre c)))).
Proof.
  intros * ND H. destruct (@cells_radius F64 big tiny third merge_c (@epsv F64 big tiny)) with (bodies := bodies) (cells := cells) (vs := vs) (n := 0%nat) (vs' := vs') (n' := n) as (S & -> & _ & G).
  - intros. eapply epsv_second; [apply ordered_F64|eassumption].
  - intros. eapply epsv_length; eassumption.
  - intros. apply epsv_still.
  - exact ND.
  - exact H.
  - split; [reflexivity|]. split; [exact S|]. intros c i a Hc Hi Ha Z. exact (G c i Hc Hi a Ha Z).
Qed.

(** The lower bound is a third of a segment's length: of the nearest one in the
    near nodes, if these have a segment, otherwise of some segment. *)
Theorem C30_wall : forall big third bodies (c : cell F64) p,
  ((exists w, In w (walls c) /\ Bltb (dist2 p (Model.r w)) big = true) ->
   exists a, @nearest F64 big bodies c p = Some a /\ In a (walls c) /\
     forall b, In b (walls c) -> Bltb (dist2 p (Model.r b)) (dist2 p (Model.r a)) = false) /\
  (forall a, @nearest F64 big bodies c p = Some a -> In a (walls c) \/ In a (concat bodies)) /\
  (forall a, @restriction F64 third (Some a) = @nmul F64 (vabs (dl a)) third) /\
  @restriction F64 third None = fz 0.
Proof.
  intros. split; [|split; [|split]].
  - intros W. apply (@nearest_walls F64 big (ordered_F64 big) p bodies c W).
  - intros a H. apply (@nearest_some F64 big (ordered_F64 big) p bodies c a H).
  - reflexivity.
  - reflexivity.
Qed.

Theorem C30_bound : forall e low, low <= @cmax RNum e low /\ e <= @cmax RNum e low.
Proof.
  intros. unfold cmax. change (@nltb RNum) with Rltb. destruct (Rltb e low) eqn:E; rbool; lra.
Qed.

(** If no near node has a segment, the search over all bodies passes over nine
    segments after every one that is not nearer; the nearest may be among them. *)
Theorem C30_fallback_refuted : exists (bodies : list (list (att F64))) (c : cell F64) (p : vec F64) a b,
  @nearest F64 fmax bodies c p = Some a /\ In b (concat bodies) /\
  Bltb (dist2 p (Model.r b)) (dist2 p (Model.r a)) = true /\
  Bltb (@restriction F64 (f64_dec 333333333333333 15) (Some b)) (@restriction F64 (f64_dec 333333333333333 15) (Some a)) = true.
Proof.
  set (b := fatt 4 2 4 0). set (bodies := [[fatt 10 0 10 8; fatt 10 8 4 20; b]]). set (p := @mkVec F64 (fz 0) (fz 0)).
  destruct (by_test (fun o => match o with
     | None => false
     | Some a => Bltb (dist2 p (Model.r b)) (dist2 p (Model.r a)) &&
        Bltb (@restriction F64 (f64_dec 333333333333333 15) (Some b)) (@restriction F64 (f64_dec 333333333333333 15) (Some a))
     end) (@nearest F64 fmax bodies fone p)) as (o & E & H); [vm_compute; reflexivity|].
  destruct o as [a|]; [|discriminate H]. apply andb_true_iff in H. destruct H as [H1 H2].
  exists bodies, fone, p, a, b. split; [exact E|]. split; [right; right; left; reflexivity|]. auto.
Qed.

(** Distances for the fields: the second nearest particle at another place, the
    nearest if it is the only one; the nearest segment. *)
Theorem C30_fields : forall lowest nb vs p,
  let l := @others F64 f64_inf vs p nb in let d := @eps2h F64 f64_inf lowest nb vs p in
  (l = [] /\ d = lowest) \/ (exists a, l = [a] /\ d = snd a) \/ (exists a b, two_nearest l a b /\ d = snd b).
Proof. intros. apply eps2h_second; [apply ordered_F64|reflexivity|apply dist2_finite]. Qed.

Theorem C30_segment : forall (l : list (att F64)) p,
  let d := @h2 F64 f64_inf l p in
  (d = f64_inf \/ exists a, In a l /\ d = dist2 p (Model.r a)) /\ forall a, In a l -> Bltb (dist2 p (Model.r a)) d = false.
Proof. intros. apply (@h2_least F64 f64_inf p (ordered_F64 f64_inf)). Qed.

(** Distances 1, 2, 5 from the first vortex: its radius is 2. *)
Example C30_ex :
  (let '(vs, n) := fcalc [] false [fone] [fp 1 0 0; fp 3 5 0; fp 1 0 1; fp 1 (-2) 0] in
   (Beqb (nth 0 (map (fun o => pe o) vs) (fz 0)) (Bdiv mode_NE (fz 1) (fz 2)), n)) = (true, 0%nat).
Proof. vm_compute. reflexivity. Qed.
Example C30_fields_ex : Beqb (@eps2h F64 f64_inf (fz (-1)) [0; 1; 2; 3]%nat [fp 1 0 0; fp 3 5 0; fp 1 0 1; fp 1 (-2) 0] (@mkVec F64 (fz 0) (fz 0))) (fz 4) = true.
Proof. vm_compute. reflexivity. Qed.

Print Assumptions C30_radius.
Print Assumptions C30_heat_radius.
Print Assumptions C30_all.
Print Assumptions C30_wall.
Print Assumptions C30_bound.
Print Assumptions C30_fallback_refuted.
Print Assumptions C30_fields.
Print Assumptions C30_segment.

(** * C31: vortices on each other *)

Theorem C31_antisymmetric_partial : forall a b : part RNum, pe a = pe b ->
  pg a * x (biot_savart b (pr a)) = - (pg b * x (biot_savart a (pr b))) /\
  pg a * y (biot_savart b (pr a)) = - (pg b * y (biot_savart a (pr b))).
Proof. exact pair_antisym. Qed.

(** Neither the first moment nor the angular moment of the vortices changes. *)
Theorem C31_moments_partial : forall c vs, (forall a b : part RNum, In a vs -> In b vs -> pe a = pe b) ->
  let v o := near_influence (K:=RNum) c (seq 0 (length vs)) vs (pr o) in
  total (fun o : part RNum => pg o * x (v o)) vs = 0 /\
  total (fun o : part RNum => pg o * y (v o)) vs = 0 /\
  total (fun o : part RNum => pg o * (x (pr o) * x (v o) + y (pr o) * y (v o))) vs = 0.
Proof. intros * H. apply sum_zero, H. Qed.

(** Coincident vortices. *)
Theorem C31_coincident_partial : forall (o : part RNum) p, p = pr o -> x (biot_savart o p) = 0 /\ y (biot_savart o p) = 0.
Proof.
  intros o p ->. unfold biot_savart, vscale, rotl, vsub. cbn [x y].
  change (@nsub RNum) with Rminus. change (@nmul RNum) with Rmult. change (@nopp RNum) with Ropp.
  split; match goal with |- @eq _ ?a ?b => change (@eq R a b) end; ring.
Qed.

(** With unequal radii the sum is not zero. *)
Theorem C31_unequal_refuted : exists a b : part RNum, pg a * y (biot_savart b (pr a)) <> - (pg b * y (biot_savart a (pr b))).
Proof.
  exists (@mkPart RNum (P 0 0) 1 (P 0 0) 1), (@mkPart RNum (P 1 0) 1 (P 0 0) (1 / 2)).
  unfold biot_savart, vscale, rotl, vsub, abs2, P. cbn. intros H. field_simplify in H. lra.
Qed.

(** A single vortex without bodies: its radius is the smallest number, whose
    square is zero in binary64, and its own velocity is not a number. *)
Theorem C31_alone_refuted : exists vs n o,
  fcalc [] true [@mkCell F64 (@mkVec F64 (fz 0) (fz 0)) [0%nat] [0%nat] []] [fp 1 0 0] = (vs, n) /\ nth_error vs 0 = Some o /\
  is_nan (x (@near_influence F64 (f64_dec 159154943091895 15) [0%nat] vs (pr o))) = true.
Proof.
  match goal with |- exists _ _ _, ?c = _ /\ _ => destruct (by_test (fun r : list (part F64) * nat => match nth_error (fst r) 0 with
     | None => false | Some o => is_nan (x (@near_influence F64 (f64_dec 159154943091895 15) [0%nat] (fst r) (pr o))) end) c) as (r & E & H) end; [vm_compute; reflexivity|].
  destruct r as [vs n]. cbn [fst] in H. destruct (nth_error vs 0) as [o|] eqn:E0; [|discriminate H].
  exists vs, n, o. auto.
Qed.

(** Three coincident vortices without bodies: the radius is zero. *)
Theorem C31_three_refuted : exists vs n o,
  fcalc [] false [@mkCell F64 (@mkVec F64 (fz 0) (fz 0)) [0; 1; 2]%nat [0; 1; 2]%nat []] [fp 1 0 0; fp 1 0 0; fp 1 0 0] = (vs, n) /\ nth_error vs 0 = Some o /\
  Beqb (pe o) f64_inf = true /\
  is_nan (x (@near_influence F64 (f64_dec 159154943091895 15) [0; 1; 2]%nat vs (pr o))) = true.
Proof.
  match goal with |- exists _ _ _, ?c = _ /\ _ => destruct (by_test (fun r : list (part F64) * nat => match nth_error (fst r) 0 with
     | None => false | Some o => Beqb (pe o) f64_inf && is_nan (x (@near_influence F64 (f64_dec 159154943091895 15) [0; 1; 2]%nat (fst r) (pr o))) end) c) as (r & E & H) end; [vm_compute; reflexivity|].
  destruct r as [vs n]. cbn [fst] in H. destruct (nth_error vs 0) as [o|] eqn:E0; [|discriminate H]. apply andb_true_iff in H. destruct H as [H1 H2].
  exists vs, n, o. auto.
Qed.

(** Two vortices of radius 1 at distance 1 turn about each other. *)
Example C31_ex : let a := @mkPart RNum (P 0 0) 1 (P 0 0) 1 in let b := @mkPart RNum (P 1 0) 3 (P 0 0) 1 in
  y (biot_savart b (pr a)) = - (3 / 2) /\ y (biot_savart a (pr b)) = 1 / 2.
Proof. cbn. split; field. Qed.

Print Assumptions C31_antisymmetric_partial.
Print Assumptions C31_moments_partial.
Print Assumptions C31_coincident_partial.
Print Assumptions C31_unequal_refuted.
Print Assumptions C31_alone_refuted.
Print Assumptions C31_three_refuted.

(** * C32: denominators of the diffusive velocity *)

Theorem C32_vortices_partial : forall expf eight tiny10 re tenth pi_ two_pi nb ws vs (v : part RNum),
  0 < re -> 0 < tenth -> 0 < pi_ -> two_pi = 2 * pi_ -> pg v <> 0 ->
  let '(d1, d2) := @vort_denominators RNum expf tenth eight pi_ two_pi tiny10 re nb ws vs v in
  re * (tenth * Rabs (pg v)) <= Rabs d1 /\ 0 < d1 * pg v /\ re * pi_ <= d2 /\ d1 <> 0 /\ d2 <> 0.
Proof.
  intros * Hre Ht Hpi H2 Hg. unfold vort_denominators. destruct (sums _ _ _ _ _ _ _) as [[S2 S1] [S3 S0]].
  destruct (guard_ok tenth S1 (pg v) Ht Hg) as [G1 G2]. pose proof (cap_ok pi_ two_pi S0 H2) as G3.
  change (@nmul RNum) with Rmult. change (@nsub RNum) with Rminus.
  set (u := guard (K:=RNum) tenth S1 (pg v) : R) in *. set (w := (two_pi - cap (K:=RNum) pi_ S0 : R)) in *.
  assert (B1 : re * (tenth * Rabs (pg v)) <= Rabs (re * u)).
  { rewrite Rabs_mult, (Rabs_right re) by lra. apply Rmult_le_compat_l; lra. }
  assert (P0 : 0 < tenth * Rabs (pg v)) by (apply Rmult_lt_0_compat; [exact Ht|apply Rabs_pos_lt, Hg]).
  assert (U0 : u <> 0). { intros E. rewrite E, Rabs_R0 in G2. lra. }
  assert (Hw : 0 < w) by lra.
  split; [exact B1|]. split.
  - apply same_sign in G1. rewrite Rmult_assoc. apply Rmult_lt_0_compat; [exact Hre|]. destruct G1 as [[A B]|[[A B]|[A B]]].
    + apply Rmult_lt_0_compat; assumption.
    + replace (u * pg v) with (- u * - pg v) by (match goal with |- @eq _ ?a ?b => change (@eq R a b) end; ring). apply Rmult_lt_0_compat; lra.
    + contradiction.
  - split; [apply Rmult_le_compat_l; lra|]. split; apply Rmult_integral_contrapositive_currified; lra.
Qed.

(** In binary64 a tenth of a circulation can be zero. *)
Theorem C32_underflow_refuted : exists g : f64, Beqb g (fz 0) = false /\
  Beqb (@guard F64 (f64_dec 1 1) (fz 0) g) (fz 0) = true.
Proof.
  exists (binary_normalize 53 1024 Hprec64 Hmax64 mode_NE 1 (-1074) false). split; vm_compute; reflexivity.
Qed.

(** A vortex at the centre of a segment: the surface sum is not a number. *)
Theorem C32_centre_refuted : exists (v : part F64) (w : att F64), Beqb (pe v) (fz 0) = false /\
  is_nan (snd (@vort_denominators F64 (fun _ => fz 1) (f64_dec 1 1) (fz 8) (f64_dec 314159265358979 14) (f64_dec 628318530717959 14)
     (f64_dec 1 10) (fz 1) [] [w] [v] v)) = true.
Proof.
  exists (@mkPart F64 (@mkVec F64 (fz 1) (fz 0)) (fz 1) (@mkVec F64 (fz 0) (fz 0)) (fz 1)), (fatt 0 0 2 0). split; vm_compute; reflexivity.
Qed.

(** Heat: near any segment some negative circulation gives a zero denominator. *)
Theorem C32_heat_refuted : exists (v : part RNum) (w : att RNum), pg v <> 0 /\ 0 < pe v /\
  @heat_denominator RNum exp (1 / 10) 8 (1 / 10000000000) [] [w] [v] v = 0.
Proof.
  set (g0 := - (10 * (2 * exp (- 1)))).
  exists (@mkPart RNum (P 0 1) g0 (P 0 0) 1), (@mkAtt RNum (P (- (1 / 2)) 0) false (P 1 0) (P 0 0) 0).
  pose proof (exp_pos (-1)) as E. split; [cbn; unfold g0; lra|]. split; [cbn; lra|].
  unfold heat_denominator, sums. cbn [fold_left nth_error pg pr pe]. unfold segment_influence, vsub, abs2, dot, rotl, vabs, vadd, vscale.
  cbn [x y pr pg pe Model.r dl fst snd P].
  change (@nadd RNum) with Rplus. change (@nsub RNum) with Rminus. change (@nmul RNum) with Rmult. change (@ndiv RNum) with Rdiv.
  change (@nopp RNum) with Ropp. change (@nofZ RNum) with IZR. change (@nsqrt RNum) with sqrt. change (@nltb RNum) with Rltb.
  replace ((0 - 0) * (0 - 0) + (1 - 0) * (1 - 0)) with 1 by lra. rewrite sqrt_1.
  assert (L : Rltb (- (1) * 1) (- (8)) = false) by (apply Rltb_false; lra). rewrite L. cbn [fst snd].
  unfold guard. change (@nmul RNum) with Rmult. change (@nltb RNum) with Rltb. change (@nabs RNum) with Rabs.
  assert (S : sign (K:=RNum) 0 <> sign (K:=RNum) g0).
  { rewrite !sign_R. destruct (Rlt_dec 0 0); [lra|]. destruct (Rlt_dec 0 g0) as [X|X]; [unfold g0 in X; lra|]. destruct (Rlt_dec g0 0) as [Y|Y]; [discriminate|]. unfold g0 in Y. lra. }
  apply Z.eqb_neq in S. change (sign (K:=RNum) (IZR 0)) with (sign (K:=RNum) 0). rewrite S. cbn [negb orb].
  replace (- (1) * 1) with (-1) by lra. unfold g0. cbn. field.
Qed.

(** A vortex with one neighbour of its sign and one wall. *)
Example C32_ex : 0 < (1 : R) * (1 / 10) /\
  Bltb (fz 0) (@guard F64 (f64_dec 1 1) (fz (-5)) (fz 2)) = true /\ Bltb (@guard F64 (f64_dec 1 1) (fz 5) (fz (-2))) (fz 0) = true /\
  Beqb (@guard F64 (f64_dec 1 1) (fz 5) (fz 2)) (fz 5) = true.
Proof. split; [lra|]. repeat split; vm_compute; reflexivity. Qed.

Print Assumptions C32_vortices_partial.
Print Assumptions C32_underflow_refuted.
Print Assumptions C32_centre_refuted.
Print Assumptions C32_heat_refuted.

(** * C66: summaries of the nodes *)

(** The tree is built before the merging and its summaries serve the far field
    after it (vvflow.cpp:229-239).  Without merging they remain valid. *)
Theorem C66_without_merging_partial : forall big tiny third merge_c bodies cells vs vs' n, NoDup (flat_map (fun c => mine c) cells) ->
  @calc_epsilon F64 big third merge_c (@epsv F64 big tiny) bodies false cells vs = (vs', n) ->
  forall i, option_map (fun o => (pr o, pg o)) (nth_error vs' i) = option_map (fun o => (pr o, pg o)) (nth_error vs i).
Proof.
  intros * ND H i. destruct (C30_all _ _ _ _ _ _ _ _ _ ND H) as (_ & S & _).
  rewrite <- !nth_error_map, S. reflexivity.
Qed.

(** With merging the circulation of a node can be another one than its summary says. *)
Definition node_sum (c : cell F64) (vs : list (part F64)) : f64 :=
  fold_left (fun s i => match nth_error vs i with Some o => Bplus mode_NE s (pg o) | None => s end) (mine c) (fz 0).
Theorem C66_refuted : exists cells vs vs' n,
  NoDup (flat_map (fun c => mine c) cells) /\ fcalc [] true cells vs = (vs', n) /\ n = 1%nat /\
  Forall (fun c => Beqb (node_sum c vs') (node_sum c vs) = false) cells.
Proof.
  set (z := @mkVec F64 (fz 0) (fz 0)).
  set (cells := [@mkCell F64 z [0%nat] [0; 1; 2]%nat []; @mkCell F64 z [1; 2]%nat [0; 1; 2]%nat []]). set (vs := [fp (-1) 0 0; fp 1 1 0; fp 1 3 0]).
  destruct (by_test (fun r => Nat.eqb (snd r) 1 && forallb (fun c => negb (Beqb (node_sum c (fst r)) (node_sum c vs))) cells) (fcalc [] true cells vs)) as (r & E & H); [vm_compute; reflexivity|].
  destruct r as [vs' n]. cbn [fst snd] in H. apply andb_true_iff in H. destruct H as [H1 H2]. apply Nat.eqb_eq in H1.
  exists cells, vs, vs', n. split; [|split; [exact E|split; [exact H1|]]].
  - change (NoDup [0; 1; 2]%nat). repeat constructor; cbn; intuition discriminate.
  - apply Forall_forall. intros c Hc. rewrite forallb_forall in H2. apply negb_true_iff, H2, Hc.
Qed.

Print Assumptions C66_without_merging_partial.
Print Assumptions C66_refuted.

(** * C67: the far field *)

(** The four terms at the node's centre are the value and the slope there of the
    velocity of all the far vortices; the error at [p] grows with the square of
    the distance from the centre. *)
Theorem C67_error : forall c2 c1 c cm p, c1 = 2 * c2 ->
  (forall o, In o (masses cm) -> pr o <> c /\ pr o <> p) ->
  norm (vsub (exact_far c2 cm p) (far_taylor (K:=RNum) c2 c1 c cm p)) <=
  Rabs c2 * total (fun o : part RNum => Rabs (pg o) * (norm (vsub p c) * norm (vsub p c)) / (dist_to o c * dist_to o c * dist_to o p)) (masses cm).
Proof. exact taylor_error. Qed.

(** At the centre itself there is no error. *)
Theorem C67_centre : forall c2 c1 c cm, c1 = 2 * c2 -> far_taylor (K:=RNum) c2 c1 c cm c = exact_far c2 cm c.
Proof.
  intros * H. rewrite taylor_linear by exact H. unfold exact_far. cbv zeta.
  assert (E : forall o, linear o c (vsub c c) = point_vortex (pr o) (pg o) c).
  { intros o. unfold linear, point_vortex, vsub. cbn [x y]. change (@nsub RNum) with Rminus. cbv zeta.
    f_equal; match goal with |- @eq _ ?a ?b => change (@eq R a b) end; unfold Rdiv; ring. }
  assert (M : map (fun o => linear o c (vsub c c)) (masses cm) = map (fun o => point_vortex (pr o) (pg o) c) (masses cm)) by (apply map_ext, E).
  rewrite M. reflexivity.
Qed.

(** One far vortex at distance 2, seen from half a unit off the centre: exact
    speed 2/5 instead of 1/2 - 1/8. *)
Example C67_ex : let o := @mkPart RNum (P 0 0) 1 (P 0 0) 1 in let o' := @mkPart RNum (P 0 0) 0 (P 0 0) 1 in
  y (far_taylor (K:=RNum) 1 2 (P 2 0) [(o, o')] (P (5 / 2) 0)) = 3 / 8 /\ y (exact_far 1 [(o, o')] (P (5 / 2) 0)) = 2 / 5.
Proof. cbn. split; field. Qed.

Print Assumptions C67_error.
Print Assumptions C67_centre.

(** * C68: sinks *)

(** In one step of size [dt] a particle is not moved farther than half the sum of
    its distances to the sources; with one source it cannot pass over it. *)
Theorem C68_step : forall c2 c1 dt l p, 0 < dt -> 0 < c2 -> c1 = 2 * c2 -> (forall o, In o l -> pr o <> p) ->
  dt * norm (sink_influence (K:=RNum) c2 c1 dt l p) <= total (fun o => dist_to o p / 2) l.
Proof. exact sinks_bound. Qed.

(** A source without strength at the place of a particle: not a number. *)
Theorem C68_refuted : exists (src : part F64) (p : vec F64), Beqb (pg src) (fz 0) = true /\
  is_nan (x (@sink_influence F64 (f64_dec 159154943091895 15) (f64_dec 318309886183791 15) (f64_dec 1 2) [src] p)) = true.
Proof. exists (fp 0 1 2), (@mkVec F64 (fz 1) (fz 2)). split; vm_compute; reflexivity. Qed.

Example C68_ex : x (sink_influence (K:=RNum) (1 / 2) 1 1 [@mkPart RNum (P 0 0) (-3) (P 0 0) 1] (P 1 0)) = - (3 / 8).
Proof. cbn. rewrite Rabs_left by lra. field. Qed.

Print Assumptions C68_step.
Print Assumptions C68_refuted.

(** * C69: a resumed calculation *)

(** Vortices read from a file have [_1_eps] = 0 until the first CalcEpsilonFast,
    which comes after the first calc_circulation (vvflow.cpp:190-236).  The
    right-hand side uses 1/[_1_eps] (MConvectiveFast.cpp:407): the vortex has no
    influence on the segment. *)
Theorem C69_no_influence : forall lnf p (s : att F64),
  is_finite (abs2 (vsub p (corner s))) = true -> is_finite (abs2 (vsub (vsub p (corner s)) (dl s))) = true ->
  is_finite (dot (vsub (Model.r s) p) (dl s)) = true ->
  Beqb (@xi_g F64 lnf p s (Bdiv mode_NE (fz 1) (fz 0))) (fz 0) = true.
Proof.
  intros * F1 F2 F3. assert (I : Bdiv mode_NE (fz 1) (fz 0) = f64_inf) by (vm_compute; reflexivity). rewrite I. clear I.
  unfold xi_g. cbv zeta. assert (S : @sqr F64 f64_inf = f64_inf) by (vm_compute; reflexivity). rewrite S.
  set (d1 := abs2 (vsub p (corner s))) in *. set (d2 := abs2 (vsub (vsub p (corner s)) (dl s))) in *.
  assert (L : forall d : f64, is_finite d = true -> @nleb F64 f64_inf d = false /\ @nleb F64 d f64_inf = true).
  { intros [[]|[]| |[]] Fd; try discriminate Fd; split; reflexivity. }
  destruct (L d1 F1) as [-> ->]. destruct (L d2 F2) as [-> ->]. cbn [andb]. unfold xi_g_near. rewrite S.
  set (d := dot (vsub (Model.r s) p) (dl s)) in *. destruct d as [[]|[]| |[]]; try discriminate F3; reflexivity.
Qed.

(** With its proper radius it has one. *)
Theorem C69_refuted : exists (lnf : f64 -> f64) (p : vec F64) (s : att F64),
  Beqb (@xi_g F64 lnf p s (Bdiv mode_NE (fz 1) (fz 0))) (fz 0) = true /\
  Beqb (@xi_g F64 lnf p s (Bdiv mode_NE (fz 1) (fz 2))) (fz 0) = false.
Proof.
  exists (fun a => Bminus mode_NE a (fz 1)), (@mkVec F64 (fz (-1)) (fz 1)), (fatt 0 0 2 0). split; vm_compute; reflexivity.
Qed.
Print Assumptions C69_refuted.
Print Assumptions C69_no_influence.
