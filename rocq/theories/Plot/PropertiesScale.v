(** C133: the colour scales of vvplot. *)

From Coq Require Import ZArith Bool List String Reals Lia Lra Sorted.
From Flocq Require Import Core.Core IEEE754.BinarySingleNaN.
From Verif.Base Require Import Num F64 F32.
From Verif.Field Require Import Model Spec ProofsMore.
From Verif.Field Require Properties.
From Verif.Print Require Import Model Spec Proofs ModelInfo.
From Verif.Plot Require Import ModelScale ProofsScale.
Import ListNotations.
Local Open Scope string_scope.
Local Open Scope R_scope.

(** The range of a velocity goes from the limits given, or else the smallest and
    largest value; its colours stand in order from one end to the other if the range
    holds zero. *)
Theorem C133_velocity_partial (values : list f32) (umin umax : f64) :
  Forall (fun x => is_finite x = true) values -> values <> [] ->
  exists (lo hi : f64) ps a b r1 r2 r3 r4 r5,
    is_finite lo = true /\ is_finite hi = true /\
    (is_finite umin = true -> lo = umin) /\ (is_finite umax = true -> hi = umax) /\
    (is_finite umin = false -> (exists x, In x values /\ B2R x = B2R lo) /\ forall x, In x values -> B2R lo <= B2R x) /\
    (is_finite umax = false -> (exists x, In x values /\ B2R x = B2R hi) /\ forall x, In x values -> B2R x <= B2R hi) /\
    velocity_scale values umin umax = Some (ps, (a, b)) /\
    Forall2 reads ps [r1; r2; r3; r4; r5] /\ reads a r1 /\ reads b r5 /\
    Rabs (r1 - B2R lo) * 200000 <= Rabs (B2R lo) /\ Rabs (r5 - B2R hi) * 200000 <= Rabs (B2R hi) /\
    r3 = 0 /\ (B2R lo <= 0 <= B2R hi -> Sorted Rle [r1; r2; r3; r4; r5]).
Proof.
  intros Fv Ne.
  destruct (field_min values) as [m|] eqn:Em; [|destruct values; [congruence|discriminate]].
  destruct (field_max values) as [M|] eqn:EM; [|destruct values; [congruence|discriminate]].
  destruct (Field.Properties.C50_bounds_partial values m M Fv Em EM) as (Im & IM & Bd).
  pose proof Fv as Fv'. rewrite Forall_forall in Fv'.
  destruct (f32_to_f64_R m (Fv' m Im)) as (Rm & Fm). destruct (f32_to_f64_R M (Fv' M IM)) as (RM & FM).
  set (lo := if is_finite umin then umin else f32_to_f64 m).
  set (hi := if is_finite umax then umax else f32_to_f64 M).
  assert (Fl : is_finite lo = true) by (unfold lo; destruct (is_finite umin) eqn:?; assumption).
  assert (Fh : is_finite hi = true) by (unfold hi; destruct (is_finite umax) eqn:?; assumption).
  assert (V : velocity_scale values umin umax = Some (map num (positions lo hi), (num lo, num hi))).
  { unfold velocity_scale, limit. rewrite Em, EM. unfold lo, hi. destruct (is_finite umin), (is_finite umax); reflexivity. }
  destruct (div_R lo 1 Fl) as (F1 & _); [lia|]. destruct (div_R lo 3 Fl) as (F2 & _); [lia|].
  destruct (div_R hi 3 Fh) as (F4 & _); [lia|]. destruct (div_R hi 1 Fh) as (F5 & _); [lia|].
  destruct (f64_ofZ_R 0) as (E3 & F3); [lia|].
  assert (E1 : shows (@ndiv F64 lo (f64_ofZ 1)) = shows lo).
  { apply Rle_antisym; apply shows_mono; try assumption; rewrite div_one by assumption; apply Rle_refl. }
  assert (E5 : shows (@ndiv F64 hi (f64_ofZ 1)) = shows hi).
  { apply Rle_antisym; apply shows_mono; try assumption; rewrite div_one by assumption; apply Rle_refl. }
  assert (Near : forall x : f64, is_finite x = true -> Rabs (shows x - B2R x) * 200000 <= Rabs (B2R x)).
  { intros x F. pose proof (printed_near 6 (of_double x) ltac:(lia)) as N. rewrite real_double in N by exact F.
    replace (2 * 10 ^ (6 - 1)) with 200000 in N by (simpl; lra). exact N. }
  exists lo, hi, (map num (positions lo hi)), (num lo), (num hi),
    (shows (@ndiv F64 lo (f64_ofZ 1))), (shows (@ndiv F64 lo (f64_ofZ 3))), (shows (f64_ofZ 0)),
    (shows (@ndiv F64 hi (f64_ofZ 3))), (shows (@ndiv F64 hi (f64_ofZ 1))).
  split; [exact Fl|]. split; [exact Fh|].
  split; [intros H; unfold lo; rewrite H; reflexivity|]. split; [intros H; unfold hi; rewrite H; reflexivity|].
  split; [intros H; unfold lo; rewrite H, Rm; split; [exists m; auto|intros x Hx; apply (Bd x Hx)]|].
  split; [intros H; unfold hi; rewrite H, RM; split; [exists M; auto|intros x Hx; apply (Bd x Hx)]|].
  split; [exact V|]. split; [repeat constructor; apply num_shows; assumption|].
  rewrite E1, E5. split; [apply num_shows, Fl|]. split; [apply num_shows, Fh|].
  split; [apply Near, Fl|]. split; [apply Near, Fh|]. split.
  - apply (reads_fun "0"); [apply (num_shows (f64_ofZ 0) F3)|]. exists false, 0%Z, 0%Z. split; [reflexivity|]. cbn [signed]. ring.
  - intros (Hl & Hh). destruct (div_three lo Fl) as (_ & L). specialize (L Hl). destruct (div_three hi Fh) as (H & _). specialize (H Hh).
    repeat (apply Sorted_nil || apply Sorted_cons || apply HdRel_nil || apply HdRel_cons); apply shows_mono; try assumption; lra.
Qed.

(** If every velocity is above zero and no range is given, the first colour stands
    behind the third one, which gnuplot does not accept. *)
Theorem C133_velocity_refuted (values : list f32) (umin umax : f64) ps r :
  is_finite umin = false -> is_finite umax = false ->
  Forall (fun x => is_finite x = true /\ 0 < B2R x) values ->
  velocity_scale values umin umax = Some (ps, r) ->
  exists s v, nth_error ps 0 = Some s /\ reads s v /\ 0 < v /\ nth_error ps 2 = Some "0".
Proof.
  intros Nu Nx F. unfold velocity_scale, limit. rewrite Nu, Nx.
  destruct (field_min values) as [m|] eqn:Em; [|discriminate]. destruct (field_max values) as [M|] eqn:EM; [|discriminate].
  cbn [option_map]. intros E. injection E as <- <-.
  assert (Fv : Forall (fun x => is_finite x = true) values) by (eapply Forall_impl; [|exact F]; cbn; tauto).
  destruct (Field.Properties.C50_bounds_partial values m M Fv Em EM) as (Im & _ & _).
  rewrite Forall_forall in F. destruct (F m Im) as (Fm & Pm). destruct (f32_to_f64_R m Fm) as (Rm & Fm').
  destruct (div_R (f32_to_f64 m) 1 Fm') as (F1 & _); [lia|].
  exists (num (@ndiv F64 (f32_to_f64 m) (f64_ofZ 1))), (shows (@ndiv F64 (f32_to_f64 m) (f64_ofZ 1))).
  split; [reflexivity|]. split; [apply num_shows, F1|]. split; [|reflexivity].
  apply shows_pos; [exact F1|]. rewrite div_one by exact Fm'. rewrite Rm. exact Pm.
Qed.
Example C133_velocity_case : velocity_scale [f32_ofZ 1; f32_ofZ 3; f32_ofZ 2] B754_nan B754_nan =
  Some (["1"; "0.333333"; "0"; "1"; "3"], ("1", "3")) /\
  velocity_scale [f32_ofZ (-3); f32_ofZ 6] B754_nan (f64_ofZ 9) = Some (["-3"; "-1"; "0"; "3"; "9"], ("-3", "9")).
Proof. vm_compute. split; reflexivity. Qed.

(** Without a given range the colours of the vorticity leave out one value of
    fifty at most at each end; nodes without vorticity do not count.  Missing: maps
    with 50 values or fewer, see below. *)
Theorem C133_vorticity_partial ps (values : list f32) (gmax : f64) :
  partial_sort_contract ps -> Forall (fun x => is_finite x = true) values -> (List.length values <= Z.to_nat (2 ^ 24))%nat ->
  @neqb F64 gmax (f64_ofZ 0) = true ->
  let v : list f32 := filter (fun x => negb (Beqb x (f32_ofZ 0))) values in
  (51 <= List.length v)%nat ->
  exists G, vorticity_limit ps values gmax = Some G /\ is_finite G = true /\ 0 < B2R G /\
    (50 * List.length (filter (fun x => Rlt_bool (B2R x) (- B2R G)) v) <= List.length v)%nat /\
    (50 * List.length (filter (fun x => Rlt_bool (B2R G) (B2R x)) v) <= List.length v)%nat.
Proof.
  intros PS Fv Lv E v L51.
  assert (Lf : (List.length v <= List.length values)%nat).
  { unfold v. clear. induction values as [|a l IH]; cbn [filter List.length]; [lia|]. destruct (negb _); cbn [List.length]; lia. }
  assert (Fv' : forall x, In x v -> is_finite x = true /\ B2R x <> 0).
  { intros x Hx. unfold v in Hx. apply filter_In in Hx. destruct Hx as (Hx & N). rewrite Forall_forall in Fv. pose proof (Fv x Hx) as Fx.
    split; [exact Fx|]. intros Z. destruct (f32_ofZ_R 0) as (Z0 & FZ0); [lia|].
    rewrite Beqb_correct, Z, Z0, Req_bool_true in N by (try assumption; reflexivity). discriminate N. }
  destruct low_R as (Fl & El). destruct high_R as (Fh & Eh).
  assert (Hh : B2R half = / 2 /\ is_finite half = true).
  { assert (S : B2SF half = SpecFloat.S754_finite false 8388608 (-24)) by (vm_compute; reflexivity).
    split; [|rewrite <- is_finite_SF_B2SF, S; reflexivity]. rewrite <- SF2R_B2SF, S. unfold SF2R, F2R. simpl. lra. }
  destruct (rank_bounds (List.length v) (B2R low)) as (P1 & Q1 & Q1'); [lia|rewrite El; lra|].
  destruct (rank_bounds (List.length v) (B2R (f32_sub (f32_ofZ 1) high))) as (P2 & Q2 & Q2'); [lia|rewrite rest_R; lra|].
  destruct (Field.Properties.C35_order_statistic_partial ps PS values low Fv Lv Fl) as (a & Ea & Ka & _); [rewrite El; lra| |].
  { replace (Bltb low half) with true by (vm_compute; reflexivity). exact P1. }
  destruct (Field.Properties.C35_order_statistic_partial ps PS values high Fv Lv Fh) as (b & Eb & _ & Kb); [rewrite Eh; lra| |].
  { replace (Bltb high half) with false by (vm_compute; reflexivity). exact P2. }
  replace (Bltb low half) with true in Ka by (vm_compute; reflexivity).
  replace (Bltb high half) with false in Kb by (vm_compute; reflexivity).
  specialize (Ka ltac:(rewrite El; lra)). specialize (Kb ltac:(rewrite Eh; lra)).
  fold v in Ka, Kb. destruct Ka as (Ia & Ca & _). destruct Kb as (Ib & Cb & _).
  destruct (Fv' a Ia) as (Fa & Na). destruct (Fv' b Ib) as (Fb & Nb).
  unfold vorticity_limit. rewrite E, Ea, Eb.
  set (g := if Bltb (Bopp a) b then b else Bopp a).
  assert (Fo : is_finite (Bopp a) = true) by (rewrite is_finite_Bopp; exact Fa).
  assert (Fg : is_finite g = true) by (unfold g; destruct (Bltb (Bopp a) b); assumption).
  assert (Ga : - B2R a <= B2R g /\ B2R b <= B2R g).
  { unfold g. destruct (Bltb (Bopp a) b) eqn:C.
    - apply (ltb32 (Bopp a) b Fo Fb) in C. rewrite B2R_Bopp in C. lra.
    - apply (Field.Properties.ltb32_false (Bopp a) b Fo Fb) in C. rewrite B2R_Bopp in *. lra. }
  destruct Ga as (Ga & Gb). destruct (f32_to_f64_R g Fg) as (Rg & Fg').
  exists (f32_to_f64 g). split; [reflexivity|]. split; [exact Fg'|]. rewrite Rg.
  assert (C1 : (List.length (filter (fun x => Rlt_bool (B2R x) (- B2R g)) v) <= List.length (filter (fun y => Bltb y a) v))%nat).
  { apply count_le. intros y Hy K. destruct (Fv' y Hy) as (Fy & _). apply (ltb32 y a Fy Fa).
    destruct (Rlt_bool_spec (B2R y) (- B2R g)); [lra|discriminate]. }
  assert (C2 : (List.length (filter (fun x => Rlt_bool (B2R g) (B2R x)) v) <= List.length (filter (fun y => Bltb b y) v))%nat).
  { apply count_le. intros y Hy K. destruct (Fv' y Hy) as (Fy & _). apply (ltb32 b y Fb Fy).
    destruct (Rlt_bool_spec (B2R g) (B2R y)); [lra|discriminate]. }
  split; [|split; lia].
  destruct (Rlt_le_dec (B2R a) 0) as [A|A]; [lra|].
  destruct (Rlt_le_dec 0 (B2R b)) as [B|B]; [lra|]. exfalso.
  assert (C3 : (List.length v <= List.length (filter (fun y => Bltb y a) v) + List.length (filter (fun y => Bltb b y) v))%nat).
  { apply count_both. intros y Hy. destruct (Fv' y Hy) as (Fy & _).
    destruct (Rlt_le_dec (B2R y) (B2R a)); [left; apply (ltb32 y a Fy Fa); assumption|right; apply (ltb32 b y Fb Fy); lra]. }
  lia.
Qed.

(** A given range is used whatever the map is. *)
Theorem C133_given ps (values : list f32) (gmax : f64) : @neqb F64 gmax (f64_ofZ 0) = false -> vorticity_limit ps values gmax = Some gmax.
Proof. intros E. unfold vorticity_limit. rewrite E. reflexivity. Qed.

(** Where nothing turns, the range is read from outside of an array. *)
Theorem C133_vorticity_refuted ps (values : list f32) (gmax : f64) :
  @neqb F64 gmax (f64_ofZ 0) = true -> Forall (fun x => Beqb x (f32_ofZ 0) = true) values ->
  vorticity_limit ps values gmax = None.
Proof.
  intros E F. unfold vorticity_limit. rewrite E.
  assert (V : filter nonzero values = []).
  { induction F as [|x l Hx _ IH]; [reflexivity|]. cbn [filter]. unfold nonzero at 1. rewrite Hx. exact IH. }
  unfold percentile. rewrite V.
  replace (negb (Bltb (f32_ofZ 0) low && Bltb low (f32_ofZ 1))) with false by (vm_compute; reflexivity).
  replace (Bltb low half) with true by (vm_compute; reflexivity). cbv zeta iota.
  replace (rank (List.length (@nil f32)) low) with 0%Z by (vm_compute; reflexivity). reflexivity.
Qed.

(** 60 nodes of vorticity -30 to 30: G is 30. *)
Example C133_vorticity_case :
  option_map B2SF (vorticity_limit Field.Properties.isort (map (fun k => f32_ofZ (Z.of_nat k - 30)) (seq 0 61)) (f64_ofZ 0)) = Some (B2SF (f64_ofZ 30)) /\
  vorticity_limit Field.Properties.isort (map f32_ofZ [0; 0; 0]%Z) (f64_ofZ 0) = None.
Proof. vm_compute. split; reflexivity. Qed.

Print Assumptions C133_velocity_partial.
Print Assumptions C133_velocity_refuted.
Print Assumptions C133_vorticity_partial.
Print Assumptions C133_given.
Print Assumptions C133_vorticity_refuted.
