(** Properties C01-C05, C45-C47: simulation time. *)

From Coq Require Import ZArith Bool List Lia Reals Lra QArith Qreals.
From Flocq Require Import Core.Core IEEE754.BinarySingleNaN.
From Verif.Base Require Import Int Num F64.
From Verif.Time Require Import Model Spec Proofs ModelRun SpecRun ProofsRun.
Import ListNotations.
Local Open Scope Z_scope.

(** * C01 *)

Theorem C01_add_exact : forall t1 t2 l,
  wf_time t1 -> wf_time t2 ->
  is_lcm (timescale t1) (timescale t2) l -> l <= 2^31 ->
  representable (instant t1 + instant t2) l ->
  exists t, add t1 t2 = Some t /\ wf_time t /\ timescale t = l /\
            (instant t == instant t1 + instant t2)%Q.
Proof. intros. apply add_exact; auto. Qed.
Print Assumptions C01_add_exact.

(** 1/6 + 3/4 = 11/12 *)
Example C01_case : add (mkTime 1 6) (mkTime 3 4) = Some (mkTime 11 12).
Proof. vm_compute. reflexivity. Qed.
Example C01_case_hyps :
  wf_time (mkTime 1 6) /\ wf_time (mkTime 3 4) /\ is_lcm 6 4 12 /\ 12 <= 2^31 /\
  representable (instant (mkTime 1 6) + instant (mkTime 3 4)) 12.
Proof.
  repeat split; cbn; try lia.
  - exists 2; reflexivity.
  - exists 3; reflexivity.
  - intros m (a & ->) (b & Hb). exists (b - a). lia.
  - exists 11. split; [unfold is_i32; lia|reflexivity].
Qed.

(** The same timescale needs no bound on it. *)
Theorem C01_add_exact_same_timescale : forall t1 t2,
  wf_time t1 -> wf_time t2 -> timescale t1 = timescale t2 ->
  is_i32 (value t1 + value t2) ->
  add t1 t2 = Some (mkTime (value t1 + value t2) (timescale t1)).
Proof.
  intros t1 t2 W1 W2 E Hr. rewrite add_value with (l := timescale t1); try assumption.
  - rewrite E, Z.div_same by (destruct W2; lia). rewrite !Z.mul_1_r, i32_id by assumption. reflexivity.
  - rewrite E. apply lcm_same.
Qed.
Print Assumptions C01_add_exact_same_timescale.
Example C01_same_case :
  add (mkTime 7 4294967295) (mkTime (-9) 4294967295) = Some (mkTime (-2) 4294967295).
Proof. vm_compute. reflexivity. Qed.

(** * C02 *)

Theorem C02_no_drift : forall n t0 dt l,
  wf_time t0 -> wf_time dt ->
  is_lcm (timescale t0) (timescale dt) l -> l <= 2^31 ->
  (forall k, (k <= n)%nat -> representable (after t0 dt k) l) ->
  exists t, ticks n t0 dt = Some t /\ (instant t == after t0 dt n)%Q /\
            (n <> O -> timescale t = l).
Proof.
  intros n t0 dt l H1 H2 H3 H4 H5.
  destruct (ticks_exact n t0 dt l H1 H2 H3 (or_introl H4) H5) as (t & A & _ & B & C).
  exists t; auto.
Qed.
Print Assumptions C02_no_drift.
Example C02_case : ticks 1000 (mkTime (-1) 2) (mkTime 5 1000) = Some (mkTime 4500 1000).
Proof. vm_compute. reflexivity. Qed.

(** * C03 *)

Theorem C03_divisible : forall t d l,
  wf_time t -> wf_time d -> value d <> 0 ->
  is_lcm (timescale t) (timescale d) l -> l <= 2^31 ->
  exists b, divisibleBy t d = Some b /\
    (b = true <-> integer_multiple (instant t) (instant d)).
Proof. intros. apply divisible_spec with (l := l); auto. Qed.
Print Assumptions C03_divisible.

Theorem C03_zero_period : forall t d, value d = 0 -> divisibleBy t d = Some false.
Proof. exact divisible_zero. Qed.
Print Assumptions C03_zero_period.
Example C03_case : divisibleBy (mkTime 15 100) (mkTime 1 20) = Some true /\
                   divisibleBy (mkTime 16 100) (mkTime 1 20) = Some false /\
                   divisibleBy (mkTime (-3) 2) (mkTime 1 4) = Some true.
Proof. vm_compute. repeat split. Qed.

(** * C04 *)

(** Wrap-around: 2147483647 s + 1 s. *)
Theorem C04_exact_or_error_refuted : exists t1 t2 t,
  wf_time t1 /\ wf_time t2 /\ add t1 t2 = Some t /\
  ~ (instant t == instant t1 + instant t2)%Q.
Proof.
  exists (mkTime 2147483647 1), (mkTime 1 1), (mkTime (-2147483648) 1).
  split; [unfold wf_time, is_i32; cbn; lia|]. split; [unfold wf_time, is_i32; cbn; lia|].
  split; [vm_compute; reflexivity|]. vm_compute. discriminate.
Qed.
Print Assumptions C04_exact_or_error_refuted.

(** The lcm overflow is silent as well: 1/65537 + 1/65539 gives 65539/65537... *)
Theorem C04_lcm_overflow_refuted : exists t1 t2 t,
  wf_time t1 /\ wf_time t2 /\ value t1 = 1 /\ value t2 = 1 /\ add t1 t2 = Some t /\
  ~ (instant t == instant t1 + instant t2)%Q.
Proof.
  exists (mkTime 1 65537), (mkTime 1 65539).
  eexists. split; [unfold wf_time, is_i32; cbn; lia|]. split; [unfold wf_time, is_i32; cbn; lia|].
  split; [reflexivity|]. split; [reflexivity|].
  split; [vm_compute; reflexivity|]. vm_compute. discriminate.
Qed.
Print Assumptions C04_lcm_overflow_refuted.

(** What does hold: addition never stops and always yields a well-formed time;
    it is exact precisely when the exact sum is representable. *)
Theorem C04_exact_iff_representable_partial : forall t1 t2 l,
  wf_time t1 -> wf_time t2 -> is_lcm (timescale t1) (timescale t2) l -> l <= 2^31 ->
  exists t, add t1 t2 = Some t /\ wf_time t /\
    ((instant t == instant t1 + instant t2)%Q <-> representable (instant t1 + instant t2) l).
Proof.
  intros t1 t2 l W1 W2 Hl Hb. destruct (add_total t1 t2 W1 W2) as (t & Ha & Wt).
  exists t. split; [assumption|]. split; [assumption|]. split; intros H.
  - eapply add_exact_conv; eauto.
  - destruct (add_exact t1 t2 l W1 W2 Hl (or_introl Hb) H) as (t' & Ha' & _ & _ & Hi).
    congruence.
Qed.
Print Assumptions C04_exact_iff_representable_partial.

(** * C05 *)

(** A table {1, 4294967296} passes the 64-bit test and stores timescale 0; the
    next clock tick then divides by zero. *)
Theorem C05_zero_timescale_refuted : exists v t,
  assign (mkTime 0 1) v = Some t /\ timescale t = 0 /\ add t (mkTime 1 100) = None.
Proof.
  exists (LTable 2 (Some 1) (Some 4294967296)), (mkTime 1 0).
  vm_compute. repeat split.
Qed.
Print Assumptions C05_zero_timescale_refuted.

(** Every sequence of assignments of numbers, of strings (whatever [sscanf]
    stores in an [int] and an [unsigned]), of other values, and of tables whose second
    entry is below 2^32, keeps the stored time well-formed. *)
Theorem C05_positive_timescale_partial : forall vs t t',
  wf_time t ->
  (forall v, In v vs -> match v with
     | LTable _ _ (Some b) => b < 2^32
     | LString s => is_i32 (scan_value s) /\ is_u32 (scan_timescale s)
     | _ => True
     end) ->
  assigns t vs = Some t' -> 0 < timescale t' < 2^32 /\ is_i32 (value t').
Proof. intros vs t t' W H A. destruct (assigns_wf vs t t' W H A). auto. Qed.
Print Assumptions C05_positive_timescale_partial.

(** A rejected value changes nothing; tables with a non-positive second entry,
    strings with timescale 0 and values of other types are rejected. *)
Theorem C05_rejected_unchanged : forall t v, set_ttime v = Rejected -> assign t v = Some t.
Proof. intros t v H. unfold assign. rewrite H. reflexivity. Qed.
Print Assumptions C05_rejected_unchanged.

Theorem C05_rejects : forall v,
  match v with
  | LTable len e1 e2 => len <> 2%nat \/ e1 = None \/ e2 = None \/ (exists b, e2 = Some b /\ b < 1)
  | LString s => conversions s < 2 \/ at_end s = false \/ scan_timescale s < 1
  | LOther => True
  | LNumber _ => False
  end <-> set_ttime v = Rejected.
Proof.
  intros [x|len e1 e2|s|]; cbn [set_ttime].
  - split; [contradiction|]. destruct (make_decimal x); discriminate.
  - destruct (Nat.eqb_spec len 2) as [->|N]; cbn [negb].
    + destruct e1 as [a|]; [|split; auto]. destruct e2 as [b|]; [|split; auto].
      destruct (Z.ltb_spec b 1) as [H|H].
      * split; [auto|]. intros _. right; right; right. exists b; auto.
      * split; [|discriminate]. intros [K|[K|[K|(b' & K & L)]]]; try congruence.
        injection K as <-. lia.
    + split; auto.
  - destruct (Z.ltb_spec (conversions s) 2) as [H|H]; cbn [orb]; [split; auto|].
    destruct (at_end s); cbn [negb]; [|split; auto].
    destruct (Z.ltb_spec (scan_timescale s) 1) as [K|K]; [split; auto|].
    split; [|discriminate]. intros [L|[L|L]]; try lia; discriminate.
  - split; auto.
Qed.
Print Assumptions C05_rejects.

Example C05_case :
  assigns (mkTime 0 1)
    [ LTable 2 (Some 1) (Some 200); LTable 2 (Some 1) (Some 0); LTable 3 None None;
      LString (mkScan 2 (-7) 30 true); LString (mkScan 1 5 1 true); LOther;
      LNumber (f64_dec 5 3) ] = Some (mkTime 5 1000).
Proof. vm_compute. reflexivity. Qed.

(** * C45 *)

(** A run of [n] iterations: provided the exact times t0 + k*dt are
    representable, the first [n] of them are below the bound of the loop and
    the next one is not, the run makes exactly [n] iterations, at exactly those
    times, and saves at exactly the non-negative multiples of the period. *)
Theorem C45_schedule : forall n fuel t0 dt ds finish l,
  wf_time t0 -> wf_time dt -> wf_time ds -> value ds <> 0 ->
  is_finite finish = true -> (Rabs (B2R finish) <= bpow radix2 1000)%R ->
  0 < l <= 2^31 -> (timescale t0 | l) -> (timescale dt | l) -> (timescale ds | l) ->
  (forall k, (k <= n)%nat -> representable (after t0 dt k) (Z.lcm (timescale t0) (timescale dt))) ->
  (forall k, (k < n)%nat -> (rnd (Q2R (after t0 dt k)) < run_bound dt finish)%R) ->
  (run_bound dt finish <= rnd (Q2R (after t0 dt n)))%R ->
  (n <= fuel)%nat ->
  exists log tend,
    simulate fuel [] t0 dt ds finish = Finished log tend /\
    length log = n /\ (instant tend == after t0 dt n)%Q /\
    (forall k e, nth_error log k = Some e ->
       (instant (at_time e) == after t0 dt k)%Q /\
       (saved e = true <-> integer_multiple (after t0 dt k) (instant ds) /\ (0 <= after t0 dt k)%Q)).
Proof. intros n fuel. exact (simulate_spec n fuel []). Qed.
Print Assumptions C45_schedule.

(** dt = 1/10 from -1/5 to 3/10, saving every 1/5: steps at -0.2 ... 0.3, saves
    at 0 and 0.2 (not at -0.2). *)
Example C45_case :
  simulate 100 [] (mkTime (-1) 5) (mkTime 1 10) (mkTime 1 5) (f64_dec 3 1) =
  Finished [ mkEntry (mkTime (-1) 5) false; mkEntry (mkTime (-1) 10) false;
             mkEntry (mkTime 0 10) true; mkEntry (mkTime 1 10) false;
             mkEntry (mkTime 2 10) true; mkEntry (mkTime 3 10) false ] (mkTime 4 10).
Proof. vm_compute. reflexivity. Qed.

(** With dt = 0 (the default of [TTime]) the loop never ends. *)
Theorem C45_zero_step_refuted : exists t0 dt ds finish,
  wf_time t0 /\ wf_time dt /\ wf_time ds /\
  forall fuel, exists log, simulate fuel [] t0 dt ds finish = OutOfFuel log.
Proof.
  exists (mkTime 0 1), (mkTime 0 1), (mkTime 0 1), (f64_ofZ 1).
  split; [cbn; unfold wf_time, is_i32; cbn; lia|]. split; [unfold wf_time, is_i32; cbn; lia|].
  split; [unfold wf_time, is_i32; cbn; lia|].
  intros fuel. apply simulate_zero_step; try reflexivity; unfold wf_time, is_i32; cbn; lia.
Qed.
Print Assumptions C45_zero_step_refuted.

(** * C46 *)

(** Assigning 0.29 stores 28/100. *)
Theorem C46_number_stored_refuted : exists (v : Z) (k : Z) t,
  0 <= k <= 9 /\ make_decimal (f64_dec v k) = Some t /\
  ~ (instant t == inject_Z v / inject_Z (10 ^ k))%Q.
Proof.
  exists 29, 2, (mkTime 28 100). split; [lia|]. split; [vm_compute; reflexivity|].
  vm_compute. discriminate.
Qed.
Print Assumptions C46_number_stored_refuted.

(** 3.14159265358979 overflows [int32_t] on the way: undefined behaviour. *)
Theorem C46_undefined_refuted : exists v k, set_ttime (LNumber (f64_dec v k)) = Undefined.
Proof. exists 314159265358979, 14. vm_compute. reflexivity. Qed.
Print Assumptions C46_undefined_refuted.

(** What holds: integers are stored exactly; any stored number is within one
    unit of the stored timescale (and 2^-20 of it), and the timescale is a power of ten up to 10^9. *)
Theorem C46_integers_partial : forall n, is_i32 n ->
  set_ttime (LNumber (f64_ofZ n)) = Stored (mkTime n 1).
Proof.
  intros n H. unfold is_i32 in H. cbn [set_ttime]. rewrite make_decimal_int by lia. reflexivity.
Qed.
Print Assumptions C46_integers_partial.

Theorem C46_near_partial : forall x t, set_ttime (LNumber x) = Stored t ->
  (exists k, 0 <= k <= 9 /\ timescale t = 10 ^ k) /\
  (Rabs (Q2R (instant t) - B2R x) < (1 + / 2 ^ 20) / IZR (timescale t))%R.
Proof.
  intros x t H. cbn [set_ttime] in H. destruct (make_decimal x) as [t'|] eqn:E; [|discriminate].
  injection H as ->. split.
  - apply (make_decimal_wf x t E).
  - apply make_decimal_near. assumption.
Qed.
Print Assumptions C46_near_partial.
Example C46_case : set_ttime (LNumber (f64_dec 1250 4)) = Stored (mkTime 125 1000).
Proof. vm_compute. reflexivity. Qed.

(** * C47 *)

(** Two consecutive steps of a run with dt = 1/10 started at 1/20 are saved to
    the same file number. *)
Theorem C47_distinct_files_refuted : exists t dt t' n,
  wf_time t /\ wf_time dt /\ (0 < instant dt)%Q /\ (0 <= instant t)%Q /\
  add t dt = Some t' /\
  file_number t dt = Some n /\ file_number t' dt = Some n.
Proof.
  exists (mkTime 1 20), (mkTime 1 10), (mkTime 3 20), 1.
  split; [unfold wf_time, is_i32; cbn; lia|]. split; [unfold wf_time, is_i32; cbn; lia|].
  split; [reflexivity|]. split; [discriminate|].
  split; [vm_compute; reflexivity|]. split; vm_compute; reflexivity.
Qed.
Print Assumptions C47_distinct_files_refuted.

(** When the clock is a multiple n >= 0 of dt the number is exactly n, in spite of
    the three roundings; so different steps get different files. *)
Theorem C47_file_number_partial : forall time dt n,
  wf_time time -> wf_time dt -> value dt <> 0 -> 0 <= n < 2^31 ->
  (instant time == inject_Z n * instant dt)%Q ->
  file_number time dt = Some n.
Proof. exact file_number_exact. Qed.
Print Assumptions C47_file_number_partial.
Example C47_case : file_number (mkTime 15 100) (mkTime 5 1000) = Some 30.
Proof. vm_compute. reflexivity. Qed.
