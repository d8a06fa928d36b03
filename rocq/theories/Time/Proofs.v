From Coq Require Import ZArith QArith Lia Znumtheory.
From Coq Require Import Field Qfield.
From Verif.Base Require Import Int Loop.
From Verif.Time Require Import Model Spec.
Local Open Scope Z_scope.

(** * The lcm loop *)

(** State invariant, for positive start values [x0], [y0] below 2^32. *)
Definition inv (x0 y0 : Z) (s : lcm_state) : Prop :=
  let '(mkLcm x y result k) := s in
  0 < x <= x0 /\ 0 < y <= y0 /\ 1 <= result /\ result <= 2^31 /\
  result * Z.lcm x y = Z.lcm x0 y0 /\
  2 <= k /\
  (forall d, 2 <= d < k -> ~ (d | x) /\ ~ (d | y)).

Lemma divide_mod_true a b : b <> 0 -> (a mod b =? 0) = true <-> (b | a).
Proof. intros Hb. rewrite Z.eqb_eq. apply Z.mod_divide; assumption. Qed.

Lemma divide_mod_false a b : b <> 0 -> (a mod b =? 0) = false <-> ~ (b | a).
Proof.
  intros Hb. rewrite <- divide_mod_true by assumption.
  destruct (a mod b =? 0); split; congruence.
Qed.

Lemma lcm_pos a b : 0 < a -> 0 < b -> 0 < Z.lcm a b.
Proof.
  intros. pose proof (Z.lcm_nonneg a b).
  assert (Z.lcm a b <> 0) by (rewrite Z.lcm_eq_0; lia). lia.
Qed.

(** A [k] below which nothing divides [y], and which does not divide [y], is
    coprime to [y]. *)
Lemma least_coprime k y :
  2 <= k -> 0 < y -> (forall d, 2 <= d < k -> ~ (d | y)) -> ~ (k | y) ->
  Z.gcd k y = 1.
Proof.
  intros Hk Hy Hmin Hnd.
  pose proof (Z.gcd_nonneg k y). pose proof (Z.gcd_divide_l k y) as Hl.
  pose proof (Z.gcd_divide_r k y) as Hr.
  assert (Z.gcd k y <> 0) by (rewrite Z.gcd_eq_0; lia).
  pose proof (Z.divide_pos_le (Z.gcd k y) k ltac:(lia) Hl).
  destruct (Z.eq_dec (Z.gcd k y) 1) as [|Hne]; [assumption|exfalso].
  destruct (Z.eq_dec (Z.gcd k y) k) as [E|Hk'].
  - rewrite E in Hr. exact (Hnd Hr).
  - exact (Hmin (Z.gcd k y) ltac:(lia) Hr).
Qed.

Lemma lcm_strip_l k m y :
  0 < k -> 0 < m -> 0 < y -> Z.gcd k y = 1 -> Z.lcm (k * m) y = k * Z.lcm m y.
Proof.
  intros Hk Hm Hy Hg.
  apply Z.divide_antisym_nonneg.
  - apply Z.lcm_nonneg.
  - pose proof (Z.lcm_nonneg m y). lia.
  - apply Z.lcm_least.
    + apply Z.mul_divide_mono_l. apply Z.divide_lcm_l.
    + apply Z.divide_trans with (Z.lcm m y); [apply Z.divide_lcm_r|].
      exists k. reflexivity.
  - destruct (Z.divide_lcm_l (k * m) y) as [q Hq].
    destruct (Z.divide_lcm_r (k * m) y) as [r Hr].
    set (l := Z.lcm (k * m) y) in *.
    (* k | l = r*y, gcd k y = 1, so k | r *)
    assert (Hkr : (k | r)).
    { apply Z.gauss with y; [|assumption]. exists (q * m). rewrite Z.mul_comm, <- Hr, Hq. ring. }
    destruct Hkr as [r' ->].
    assert (El : l = k * (r' * y)) by (rewrite Hr; ring).
    rewrite El. apply Z.mul_divide_mono_l.
    apply Z.lcm_least; [|exists r'; ring].
    exists q. apply Z.mul_cancel_l with k; [lia|].
    rewrite <- El, Hq. ring.
Qed.

Lemma lcm_strip_both k m n :
  0 < k -> Z.lcm (k * m) (k * n) = k * Z.lcm m n.
Proof.
  intros Hk. rewrite Z.lcm_mul_mono_l. rewrite Z.abs_eq by lia. reflexivity.
Qed.

Lemma guard_iff result k :
  0 < k -> (2^31 / k <? result) = true <-> 2^31 < result * k.
Proof.
  intros Hk. rewrite Z.ltb_lt.
  pose proof (Z.div_mod (2^31) k ltac:(lia)).
  pose proof (Z.mod_pos_bound (2^31) k Hk). nia.
Qed.

Lemma inv_step x0 y0 s s' :
  x0 < 2^32 -> y0 < 2^32 ->
  inv x0 y0 s -> lcm_body s = inl s' -> inv x0 y0 s'.
Proof.
  intros Bx By. destruct s as [x y result k].
  unfold inv at 1, lcm_body.
  intros (Hx & Hy & Hr & Hr2 & Hl & Hk & Hmin).
  destruct (negb (x =? 1) || negb (y =? 1)) eqn:E1; [|discriminate].
  destruct (Z.eqb_spec k 0) as [|Hk0]; [lia|].
  assert (Hkx : forall z, 0 < z -> (k | z) -> k <= z)
    by (intros z Hz Hd; apply Z.divide_pos_le; assumption).
  destruct ((x mod k =? 0) || (y mod k =? 0)) eqn:E2.
  - destruct (2^31 / k <? result) eqn:E3; [discriminate|].
    assert (Hle : result * k <= 2^31).
    { destruct (Z.le_gt_cases (result * k) (2^31)) as [|Hgt]; [assumption|].
      apply guard_iff in Hgt; [|lia]. congruence. }
    injection 1 as <-. unfold inv.
    assert (Hu : u32 (result * k) = result * k) by (apply u32_id; unfold is_u32; nia).
    rewrite Hu.
    assert (Hdm : forall d, 2 <= d < 2 -> forall z, ~ (d | z)) by (intros; lia).
    destruct (x mod k =? 0) eqn:Ex; destruct (y mod k =? 0) eqn:Ey;
      [ | | |discriminate].
    + apply divide_mod_true in Ex; [|lia]. apply divide_mod_true in Ey; [|lia].
      destruct Ex as [m ->]. destruct Ey as [n ->].
      rewrite !Z.div_mul by lia.
      replace (m * k) with (k * m) in * by ring.
      replace (n * k) with (k * n) in * by ring.
      rewrite lcm_strip_both in Hl by lia.
      repeat split; try nia; try (rewrite <- Hl; ring);
        exfalso; lia.
    + apply divide_mod_true in Ex; [|lia]. apply divide_mod_false in Ey; [|lia].
      assert (Hg : Z.gcd k y = 1)
        by (apply least_coprime; try lia; try assumption; intros d Hd; apply Hmin; lia).
      destruct Ex as [m ->]. rewrite Z.div_mul by lia.
      replace (m * k) with (k * m) in * by ring.
      rewrite lcm_strip_l in Hl by (try assumption; nia).
      repeat split; try nia; try (rewrite <- Hl; ring); exfalso; lia.
    + apply divide_mod_false in Ex; [|lia]. apply divide_mod_true in Ey; [|lia].
      assert (Hg : Z.gcd k x = 1)
        by (apply least_coprime; try lia; try assumption; intros d Hd; apply Hmin; lia).
      destruct Ey as [m ->]. rewrite Z.div_mul by lia.
      replace (m * k) with (k * m) in * by ring.
      rewrite Z.lcm_comm in Hl. rewrite lcm_strip_l in Hl by (try assumption; nia).
      rewrite (Z.lcm_comm x m).
      repeat split; try nia; try (rewrite <- Hl; ring); exfalso; lia.
  - apply Bool.orb_false_iff in E2. destruct E2 as [Ex Ey].
    apply divide_mod_false in Ex; [|lia]. apply divide_mod_false in Ey; [|lia].
    assert (Hkb : k < 2^32 - 1).
    { apply Bool.orb_true_iff in E1. destruct E1 as [E1|E1];
        apply Bool.negb_true_iff, Z.eqb_neq in E1.
      - destruct (Z.le_gt_cases (2^32 - 1) k); [|assumption].
        destruct (Z.eq_dec k x) as [->|]; [exfalso; apply Ex, Z.divide_refl|].
        exfalso. apply (proj1 (Hmin x ltac:(lia))), Z.divide_refl.
      - destruct (Z.le_gt_cases (2^32 - 1) k); [|assumption].
        destruct (Z.eq_dec k y) as [->|]; [exfalso; apply Ey, Z.divide_refl|].
        exfalso. apply (proj2 (Hmin y ltac:(lia))), Z.divide_refl. }
    injection 1 as <-. unfold inv. rewrite u32_id by (unfold is_u32; lia).
    split; [exact Hx|]. split; [exact Hy|]. split; [exact Hr|]. split; [exact Hr2|].
    split; [exact Hl|]. split; [lia|].
    intros d Hd. destruct (Z.eq_dec d k) as [->|]; [split; assumption|apply Hmin; lia].
Qed.

(** Result of the loop: the lcm if it is at most 2^31; otherwise some smaller
    positive number. *)
Definition lcm_post (x0 y0 : Z) (r : option Z) : Prop :=
  exists v, r = Some v /\ 1 <= v <= 2^31 /\ (v | Z.lcm x0 y0) /\
    (Z.lcm x0 y0 <= 2^31 -> v = Z.lcm x0 y0) /\
    (2^31 < Z.lcm x0 y0 -> v < Z.lcm x0 y0).

Lemma inv_exit x0 y0 s r :
  inv x0 y0 s -> lcm_body s = inr r -> lcm_post x0 y0 r.
Proof.
  destruct s as [x y result k]. unfold inv, lcm_body.
  intros (Hx & Hy & Hr & Hr2 & Hl & Hk & Hmin).
  destruct (negb (x =? 1) || negb (y =? 1)) eqn:E1.
  - destruct (Z.eqb_spec k 0) as [|Hk0]; [lia|].
    destruct ((x mod k =? 0) || (y mod k =? 0)) eqn:E2; [|discriminate].
    destruct (2^31 / k <? result) eqn:E3; [|discriminate].
    injection 1 as <-. apply guard_iff in E3; [|lia].
    assert (Hkl : (k | Z.lcm x y)).
    { apply Bool.orb_true_iff in E2. destruct E2 as [E|E]; apply divide_mod_true in E; try lia.
      - apply Z.divide_trans with x; [assumption|apply Z.divide_lcm_l].
      - apply Z.divide_trans with y; [assumption|apply Z.divide_lcm_r]. }
    assert (Hle : k <= Z.lcm x y).
    { apply Z.divide_pos_le; [apply lcm_pos; lia|assumption]. }
    exists result. split; [reflexivity|]. split; [lia|].
    split; [exists (Z.lcm x y); rewrite <- Hl; ring|]. split; nia.
  - injection 1 as <-.
    apply Bool.orb_false_iff in E1. destruct E1 as [E1 E2].
    apply Bool.negb_false_iff, Z.eqb_eq in E1. apply Bool.negb_false_iff, Z.eqb_eq in E2.
    subst x y. change (Z.lcm 1 1) with 1 in Hl.
    exists result. split; [reflexivity|]. split; [lia|].
    split; [exists 1; lia|]. split; lia.
Qed.

Lemma inv_init x0 y0 :
  0 < x0 -> 0 < y0 -> inv x0 y0 (mkLcm x0 y0 1 2).
Proof.
  intros. unfold inv. repeat split; try lia.
Qed.

Definition mu (s : lcm_state) : Z := (lx s + ly s) * 2^33 + (2^33 - lk s).


(** Strengthened invariant: [k] stays in range. *)
Definition inv' x0 y0 s := inv x0 y0 s /\ lk s < 2^32.

Lemma inv'_step x0 y0 s s' :
  x0 < 2^32 -> y0 < 2^32 ->
  inv' x0 y0 s -> lcm_body s = inl s' -> inv' x0 y0 s' /\ mu s' < mu s.
Proof.
  intros Bx By [Hi Hk] Hb.
  assert (Hi' := inv_step x0 y0 s s' Bx By Hi Hb).
  split.
  - split; [assumption|].
    destruct s as [x y result k]. unfold lcm_body in Hb.
    destruct (negb (x =? 1) || negb (y =? 1)); [|discriminate].
    destruct (k =? 0); [discriminate|].
    destruct ((x mod k =? 0) || (y mod k =? 0)).
    + destruct (2^31 / k <? result); [discriminate|]. injection Hb as <-. cbn [lk]. lia.
    + injection Hb as <-. cbn [lk]. pose proof (u32_range (k + 1)). unfold is_u32 in *. lia.
  - destruct s as [x y result k]. unfold inv in Hi.
    destruct Hi as (Hx & Hy & Hr & Hr2 & Hl & Hk2 & Hmin). cbn [lk] in Hk.
    unfold lcm_body in Hb.
    destruct (negb (x =? 1) || negb (y =? 1)) eqn:E1; [|discriminate].
    destruct (Z.eqb_spec k 0) as [|Hk0]; [discriminate|].
    destruct ((x mod k =? 0) || (y mod k =? 0)) eqn:E2.
    + destruct (2^31 / k <? result); [discriminate|]. injection Hb as <-.
      unfold mu; cbn [lx ly lk].
      assert (Hd : forall z, 0 < z -> z mod k = 0 -> z / k <= z - 1).
      { intros z Hz Hm. pose proof (Z.div_mod z k ltac:(lia)). nia. }
      destruct (Z.eqb_spec (x mod k) 0) as [Ex|Ex];
        destruct (Z.eqb_spec (y mod k) 0) as [Ey|Ey];
        [ | | |discriminate];
        try (pose proof (Hd x ltac:(lia) Ex)); try (pose proof (Hd y ltac:(lia) Ey)); nia.
    + injection Hb as <-.
      assert (Hi2 := Hi'). unfold mu; cbn [lx ly lk].
      destruct (Z.eq_dec k (2^32 - 1)) as [->|].
      * exfalso. unfold inv in Hi'.
        destruct Hi' as (_ & _ & _ & _ & _ & Hbad & _).
        revert Hbad. vm_compute. intros Hbad; apply Hbad; reflexivity.
      * rewrite u32_id by (unfold is_u32; lia). lia.
Qed.

Lemma lcm_correct x y :
  0 < x < 2^32 -> 0 < y < 2^32 -> x <> y -> lcm_post x y (lcm x y).
Proof.
  intros Hx Hy Hne. unfold lcm.
  destruct (Z.eqb_spec x y) as [|_]; [contradiction|].
  destruct (Z.eqb_spec x 0) as [|_]; [lia|]. destruct (Z.eqb_spec y 0) as [|_]; [lia|].
  cbn [orb].
  assert (Hi : inv' x y (mkLcm x y 1 2)).
  { split; [apply inv_init; lia|cbn; lia]. }
  destruct (loop_terminates lcm_body (inv' x y) mu) with (p := lcm_fuel) (s := mkLcm x y 1 2)
    as [r Hr].
  - intros [a b c k] [Hi0 Hk]. unfold inv in Hi0. unfold mu; cbn [lx ly lk] in *. nia.
  - intros s s' Hs Hb. exact (inv'_step x y s s' ltac:(lia) ltac:(lia) Hs Hb).
  - exact Hi.
  - unfold mu; cbn [lx ly lk].
    apply Z.lt_le_trans with (2^33 * 2^33 + 2^33); [nia|vm_compute; discriminate].
  - rewrite Hr.
    apply (loop_inv lcm_body (inv' x y) (lcm_post x y)) with (p := lcm_fuel) (s := mkLcm x y 1 2) (r := r).
    + intros s s' Hs Hb. apply (inv'_step x y s s'); try lia; assumption.
    + intros s r' [Hs _] Hb. exact (inv_exit x y s r' Hs Hb).
    + exact Hi.
    + exact Hr.
Qed.

(** The loop always ends with a value: no undefined behaviour, no fuel issue. *)
Lemma lcm_total x y :
  0 < x < 2^32 -> 0 < y < 2^32 -> exists l, lcm x y = Some l /\ 0 < l < 2^32 /\ (l | Z.lcm x y).
Proof.
  intros Hx Hy. destruct (Z.eq_dec x y) as [->|Hne].
  - exists y. unfold lcm. rewrite Z.eqb_refl. repeat split; try lia. apply Z.divide_lcm_l.
  - destruct (lcm_correct x y Hx Hy Hne) as (v & Hv & Hr & Hd & _). exists v.
    repeat split; try assumption; lia.
Qed.

Lemma lcm_exact x y :
  0 < x < 2^32 -> 0 < y < 2^32 -> Z.lcm x y <= 2^31 -> lcm x y = Some (Z.lcm x y).
Proof.
  intros Hx Hy Hl. destruct (Z.eq_dec x y) as [->|Hne].
  - unfold lcm. rewrite Z.eqb_refl. rewrite Z.lcm_diag, Z.abs_eq by lia. reflexivity.
  - destruct (lcm_correct x y Hx Hy Hne) as (v & Hv & _ & _ & He & _).
    rewrite Hv, He by assumption. reflexivity.
Qed.

Lemma lcm_same x : lcm x x = Some x.
Proof. unfold lcm. rewrite Z.eqb_refl. reflexivity. Qed.

Lemma is_lcm_Zlcm x y : 0 < x -> 0 < y -> is_lcm x y (Z.lcm x y).
Proof.
  intros. unfold is_lcm. repeat split.
  - apply lcm_pos; assumption.
  - apply Z.divide_lcm_l.
  - apply Z.divide_lcm_r.
  - intros m. apply Z.lcm_least.
Qed.

Lemma is_lcm_unique x y l : 0 < x -> 0 < y -> is_lcm x y l -> l = Z.lcm x y.
Proof.
  intros Hx Hy (Hp & H1 & H2 & H3).
  apply Z.divide_antisym_nonneg; try lia.
  - apply Z.lcm_nonneg.
  - apply H3; [apply Z.divide_lcm_l|apply Z.divide_lcm_r].
  - apply Z.lcm_least; assumption.
Qed.

(** * Rational arithmetic helpers *)

Lemma inject_Z_nz z : z <> 0 -> ~ (inject_Z z == 0)%Q.
Proof. intros H E. unfold Qeq in E. cbn in E. lia. Qed.

Lemma frac_eq a b c d :
  b <> 0 -> d <> 0 ->
  (inject_Z a / inject_Z b == inject_Z c / inject_Z d)%Q <-> a * d = c * b.
Proof.
  intros Hb Hd. pose proof (inject_Z_nz b Hb) as Nb. pose proof (inject_Z_nz d Hd) as Nd.
  split; intros H.
  - assert (E : (inject_Z (a * d) == inject_Z (c * b))%Q).
    { rewrite !inject_Z_mult.
      transitivity ((inject_Z a / inject_Z b) * (inject_Z b * inject_Z d))%Q; [field; assumption|].
      rewrite H. field; assumption. }
    unfold Qeq in E. cbn in E. lia.
  - assert (E : (inject_Z a * inject_Z d == inject_Z c * inject_Z b)%Q).
    { rewrite <- !inject_Z_mult. rewrite H. reflexivity. }
    transitivity ((inject_Z a * inject_Z d) / (inject_Z b * inject_Z d))%Q.
    { field; split; assumption. }
    rewrite E. field; split; assumption.
Qed.

Lemma frac_eq_inv a b c d :
  b <> 0 -> d <> 0 ->
  (inject_Z a / inject_Z b == inject_Z c / inject_Z d)%Q -> a * d = c * b.
Proof. intros Hb Hd. apply frac_eq; assumption. Qed.

Lemma frac_add a b c d :
  b <> 0 -> d <> 0 ->
  (inject_Z a / inject_Z b + inject_Z c / inject_Z d
   == inject_Z (a * d + c * b) / inject_Z (b * d))%Q.
Proof.
  intros Hb Hd. pose proof (inject_Z_nz b Hb) as Nb. pose proof (inject_Z_nz d Hd) as Nd.
  rewrite inject_Z_plus, !inject_Z_mult. field. split; assumption.
Qed.

(** * add *)

Lemma add_value t1 t2 l :
  wf_time t1 -> wf_time t2 ->
  lcm (timescale t1) (timescale t2) = Some l ->
  add t1 t2 = Some (mkTime (i32 (value t1 * (l / timescale t1) + value t2 * (l / timescale t2))) l).
Proof.
  intros [V1 T1] [V2 T2] Hl. unfold add. rewrite Hl.
  destruct (Z.eqb_spec (timescale t1) 0) as [|_]; [lia|].
  destruct (Z.eqb_spec (timescale t2) 0) as [|_]; [lia|]. cbn [orb].
  f_equal. f_equal. rewrite i32_u32. apply i32_congr. unfold u32.
  rewrite <- Z.add_mod by lia. reflexivity.
Qed.

Lemma add_total t1 t2 :
  wf_time t1 -> wf_time t2 -> exists t, add t1 t2 = Some t /\ wf_time t.
Proof.
  intros W1 W2. destruct W1 as [V1 T1] eqn:E1. destruct W2 as [V2 T2] eqn:E2.
  destruct (lcm_total (timescale t1) (timescale t2)) as (l & Hl & Hr & _); try lia.
  eexists. split; [apply add_value; eassumption|].
  split; cbn [value timescale]; [apply i32_range|lia].
Qed.

(** The numerator over the common timescale. *)
Definition num_over (t : ttime) (l : Z) : Z := value t * (l / timescale t).

Lemma num_over_instant t l :
  wf_time t -> 0 < l -> (timescale t | l) ->
  (inject_Z (num_over t l) / inject_Z l == instant t)%Q.
Proof.
  intros [V T] Hl [q ->]. unfold num_over, instant. rewrite Z.div_mul by lia.
  apply frac_eq; [nia|lia|ring].
Qed.

Lemma lcm_le_or_same x y l :
  0 < x < 2^32 -> 0 < y < 2^32 -> is_lcm x y l -> (l <= 2^31 \/ x = y) -> lcm x y = Some l.
Proof.
  intros Hx Hy Hl H. pose proof (is_lcm_unique x y l ltac:(lia) ltac:(lia) Hl) as ->.
  destruct H as [H| ->].
  - apply lcm_exact; assumption.
  - rewrite lcm_same. rewrite Z.lcm_diag, Z.abs_eq by lia. reflexivity.
Qed.

Lemma representable_Qeq q q' l : (q == q')%Q -> representable q l -> representable q' l.
Proof. intros E (v & Hv & H). exists v. split; [assumption|]. rewrite <- E. assumption. Qed.

Lemma representable_num q l n :
  0 < l -> (q == inject_Z n / inject_Z l)%Q -> representable q l -> is_i32 n.
Proof.
  intros Hl Hq (v & Hv & Hqv).
  rewrite Hqv in Hq. apply frac_eq_inv in Hq; [|lia|lia].
  apply Z.mul_reg_r in Hq; [|lia].
  subst. assumption.
Qed.

Lemma add_exact t1 t2 l :
  wf_time t1 -> wf_time t2 ->
  is_lcm (timescale t1) (timescale t2) l ->
  (l <= 2^31 \/ timescale t1 = timescale t2) ->
  representable (instant t1 + instant t2) l ->
  exists t, add t1 t2 = Some t /\ wf_time t /\ timescale t = l /\
            (instant t == instant t1 + instant t2)%Q.
Proof.
  intros W1 W2 Hl Hb Hrep.
  assert (W1' := W1). assert (W2' := W2). destruct W1' as [V1 T1]. destruct W2' as [V2 T2].
  assert (El : lcm (timescale t1) (timescale t2) = Some l)
    by (apply lcm_le_or_same; assumption).
  destruct Hl as (Hp & D1 & D2 & _).
  set (n := num_over t1 l + num_over t2 l).
  assert (Hs : (instant t1 + instant t2 == inject_Z n / inject_Z l)%Q).
  { rewrite <- (num_over_instant t1 l W1 Hp D1), <- (num_over_instant t2 l W2 Hp D2).
    unfold n. rewrite inject_Z_plus. field. apply inject_Z_nz; lia. }
  assert (Hn : is_i32 n) by (eapply representable_num; eassumption).
  exists (mkTime n l). split.
  - rewrite (add_value t1 t2 l W1 W2 El). f_equal. f_equal. apply i32_id. exact Hn.
  - assert (l < 2^32).
    { destruct Hb as [|E]; [lia|].
      destruct (lcm_total (timescale t1) (timescale t2)) as (l' & El' & Hl' & _); try assumption.
      rewrite El in El'. injection El' as <-. lia. }
    repeat split; cbn [value timescale]; try assumption; try (unfold is_i32 in Hn; lia).
    unfold instant at 1. cbn [value timescale]. rewrite Hs. reflexivity.
Qed.

(** The result is the exact sum only if it fits: converse of the previous. *)
Lemma add_exact_conv t1 t2 t l :
  wf_time t1 -> wf_time t2 ->
  is_lcm (timescale t1) (timescale t2) l ->
  (l <= 2^31 \/ timescale t1 = timescale t2) ->
  add t1 t2 = Some t -> (instant t == instant t1 + instant t2)%Q ->
  representable (instant t1 + instant t2) l.
Proof.
  intros W1 W2 Hl Hb Ha Hi.
  assert (El : lcm (timescale t1) (timescale t2) = Some l)
    by (destruct W1, W2; apply lcm_le_or_same; assumption).
  rewrite (add_value t1 t2 l W1 W2 El) in Ha. injection Ha as <-.
  apply (representable_Qeq _ _ l Hi).
  eexists. split; [|reflexivity]. cbn [value]. apply i32_range.
Qed.

(** * ticks *)


Lemma after_S t0 dt t k :
  (instant t == instant t0 + instant dt)%Q -> (after t dt k == after t0 dt (S k))%Q.
Proof.
  intros H. unfold after. rewrite H. rewrite Nat2Z.inj_succ. unfold Z.succ.
  rewrite inject_Z_plus. ring.
Qed.

Lemma is_lcm_absorb x y l : 0 < x -> 0 < y -> is_lcm x y l -> is_lcm l y l.
Proof.
  intros Hx Hy (Hp & H1 & H2 & H3). repeat split; try assumption.
  - apply Z.divide_refl.
  - intros m Hm _. assumption.
Qed.

Lemma ticks_exact n : forall t0 dt l,
  wf_time t0 -> wf_time dt ->
  is_lcm (timescale t0) (timescale dt) l ->
  (l <= 2^31 \/ timescale t0 = timescale dt) ->
  (forall k, (k <= n)%nat -> representable (after t0 dt k) l) ->
  exists t, ticks n t0 dt = Some t /\ wf_time t /\ (instant t == after t0 dt n)%Q /\
            (n <> O -> timescale t = l).
Proof.
  induction n as [|n IH]; intros t0 dt l W0 Wd Hl Hb Hrep.
  - exists t0. repeat split; try apply W0.
    + unfold after. cbn [Z.of_nat]. change (inject_Z 0) with 0%Q. ring.
    + congruence.
  - cbn [ticks].
    destruct (add_exact t0 dt l W0 Wd Hl Hb) as (t1 & E1 & W1 & T1 & I1).
    { apply representable_Qeq with (after t0 dt 1).
      - unfold after. change (inject_Z (Z.of_nat 1)) with 1%Q. ring.
      - apply Hrep. lia. }
    rewrite E1.
    assert (Hp : 0 < timescale t0) by (destruct W0; lia).
    assert (Hd : 0 < timescale dt) by (destruct Wd; lia).
    destruct (IH t1 dt l W1 Wd) as (t & Et & Wt & It & Tt).
    + rewrite T1. eapply is_lcm_absorb; [| |exact Hl]; assumption.
    + destruct Hb as [Hb|Hb]; [left; assumption|right].
      rewrite T1. destruct Hl as (_ & _ & H2 & H3).
      apply Z.divide_antisym_nonneg; try lia.
      * destruct W1; lia.
      * apply H3; [rewrite Hb|]; apply Z.divide_refl.
      * assumption.
    + intros k Hk. apply representable_Qeq with (after t0 dt (S k)).
      * symmetry. apply after_S. assumption.
      * apply Hrep. lia.
    + exists t. split; [assumption|]. split; [assumption|]. split.
      * rewrite It. apply after_S. assumption.
      * intros _. destruct n as [|n].
        -- cbn in Et. injection Et as <-. assumption.
        -- apply Tt. discriminate.
Qed.

(** * divisibleBy *)

Lemma divisible_spec t d l :
  wf_time t -> wf_time d -> value d <> 0 ->
  is_lcm (timescale t) (timescale d) l ->
  (l <= 2^31 \/ timescale t = timescale d) ->
  exists b, divisibleBy t d = Some b /\
    (b = true <-> integer_multiple (instant t) (instant d)).
Proof.
  intros Wt Wd Hv Hl Hb. assert (Wt' := Wt). assert (Wd' := Wd).
  destruct Wt' as [Vt Tt]. destruct Wd' as [Vd Td].
  assert (El : lcm (timescale t) (timescale d) = Some l) by (apply lcm_le_or_same; assumption).
  destruct Hl as (Hp & D1 & D2 & _).
  unfold divisibleBy.
  destruct (Z.eqb_spec (value d) 0) as [|_]; [contradiction|].
  destruct (Z.eqb_spec (timescale d) 0) as [|_]; [lia|]. cbn [orb].
  rewrite El. destruct (Z.eqb_spec (timescale t) 0) as [|_]; [lia|].
  destruct D1 as [p Ep]. destruct D2 as [q Eq].
  assert (Hp' : 0 < p) by nia. assert (Hq' : 0 < q) by nia.
  assert (E1 : Z.quot (value d * l) (timescale d) = value d * q).
  { rewrite Eq, Z.mul_assoc. apply Z.quot_mul. lia. }
  assert (E2 : Z.quot (value t * l) (timescale t) = value t * p).
  { rewrite Ep, Z.mul_assoc. apply Z.quot_mul. lia. }
  rewrite E1, E2. destruct (Z.eqb_spec (value d * q) 0) as [|Hnz]; [nia|].
  eexists. split; [reflexivity|]. rewrite Z.eqb_eq.
  rewrite Z.rem_divide by assumption.
  unfold integer_multiple, instant. split.
  - intros [n Hn]. exists n.
    assert (E : (inject_Z n * (inject_Z (value d) / inject_Z (timescale d))
                 == inject_Z (n * value d) / inject_Z (timescale d))%Q).
    { rewrite inject_Z_mult. field. apply inject_Z_nz. lia. }
    rewrite E. apply frac_eq; try lia.
    assert (Hpq : p * timescale t = q * timescale d) by lia.
    apply Z.mul_reg_r with p; [lia|].
    transitivity (value t * p * timescale d); [ring|]. rewrite Hn.
    transitivity (n * value d * (q * timescale d)); [ring|]. rewrite <- Hpq. ring.
  - intros [n Hn]. exists n.
    assert (E : (inject_Z n * (inject_Z (value d) / inject_Z (timescale d))
                 == inject_Z (n * value d) / inject_Z (timescale d))%Q).
    { rewrite inject_Z_mult. field. apply inject_Z_nz. lia. }
    rewrite E in Hn. apply frac_eq_inv in Hn; [|lia|lia].
    assert (Hpq : p * timescale t = q * timescale d) by lia.
    apply Z.mul_reg_r with (timescale d); [lia|].
    transitivity (value t * timescale d * p); [ring|]. rewrite Hn.
    transitivity (n * value d * (p * timescale t)); [ring|]. rewrite Hpq. ring.
Qed.

Lemma divisible_zero t d : value d = 0 -> divisibleBy t d = Some false.
Proof. intros E. unfold divisibleBy. rewrite E. reflexivity. Qed.
