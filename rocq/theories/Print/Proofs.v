From Coq Require Import ZArith Bool List String Ascii Reals Lia Lra Psatz.
From Verif.Print Require Import Model Spec.
Import ListNotations.
Local Open Scope string_scope.
Local Open Scope R_scope.
Local Open Scope Z_scope.

(** Powers of ten. *)
Notation B := (powerRZ 10).
Lemma B_pos e : (0 < B e)%R.
Proof. apply powerRZ_lt. lra. Qed.
Lemma B_add a b : B (a + b) = (B a * B b)%R.
Proof. apply powerRZ_add. lra. Qed.
Lemma B_inv a : (B (- a) * B a = 1)%R.
Proof. rewrite <- B_add. replace (- a + a) with 0 by lia. reflexivity. Qed.
Lemma B_Z k : 0 <= k -> B k = IZR (10 ^ k).
Proof.
  intros H. replace k with (Z.of_nat (Z.to_nat k)) by lia.
  rewrite <- pow_powerRZ, <- pow_IZR. reflexivity.
Qed.
Lemma B_le a b : a <= b -> (B a <= B b)%R.
Proof.
  intros H. replace b with (a + (b - a)) by lia. rewrite B_add.
  assert (1 <= B (b - a))%R. { rewrite B_Z by lia. apply IZR_le. assert (0 < 10 ^ (b - a)) by (apply Z.pow_pos_nonneg; lia). lia. }
  pose proof (B_pos a). nra.
Qed.

(** Sizes. *)
Lemma size10_spec fuel : forall n, 0 < n -> n < 2 ^ Z.of_nat fuel ->
  0 <= size10 fuel n /\ 10 ^ size10 fuel n <= n < 10 ^ (size10 fuel n + 1).
Proof.
  induction fuel as [|f IH]; intros n H0 H.
  - simpl in H. lia.
  - cbn [size10]. destruct (Z.ltb_spec n 10).
    + simpl. lia.
    + assert (A : 0 < n / 10) by (apply Z.div_str_pos; lia).
      rewrite Nat2Z.inj_succ, Z.pow_succ_r in H by lia.
      assert (C : n / 10 < 2 ^ Z.of_nat f) by (apply Z.div_lt_upper_bound; lia).
      destruct (IH _ A C) as (S0 & L & U). split; [lia|].
      rewrite (Z.add_comm 1). rewrite (Z.pow_add_r 10 (size10 f (n/10)) 1) by lia.
      rewrite (Z.pow_add_r 10 (size10 f (n/10) + 1) 1) by lia. change (10 ^ 1) with 10.
      pose proof (Z.div_mod n 10 ltac:(lia)). pose proof (Z.mod_pos_bound n 10 ltac:(lia)). lia.
Qed.

Lemma size_nat_gt n : Zpos n < 2 ^ Z.of_nat (Pos.size_nat n).
Proof.
  induction n as [n IH|n IH|]; cbn [Pos.size_nat]; rewrite ?Nat2Z.inj_succ, ?Z.pow_succ_r by lia.
  - rewrite Pos2Z.inj_xI. lia.
  - rewrite Pos2Z.inj_xO. lia.
  - reflexivity.
Qed.

Lemma log10_spec n : 0 <= log10 n /\ 10 ^ log10 n <= Zpos n < 10 ^ (log10 n + 1).
Proof. apply size10_spec; [lia|apply size_nat_gt]. Qed.

Lemma log10_R n : (B (log10 n) <= IZR (Zpos n) < B (log10 n + 1))%R.
Proof.
  destruct (log10_spec n) as (H & L & U). rewrite !B_Z by lia. split; [apply IZR_le; lia|apply IZR_lt; lia].
Qed.

(** Scaling. *)
Lemma IZR_pos p : (0 < IZR (Zpos p))%R.
Proof. apply IZR_lt. lia. Qed.

Lemma scale_spec m d k a b : scale m d k = (a, b) ->
  0 < a /\ 0 < b /\ (IZR a / IZR b = IZR (Zpos m) / IZR (Zpos d) * B k)%R.
Proof.
  unfold scale. pose proof (IZR_pos d). destruct (Z.leb_spec 0 k); intros E; apply pair_equal_spec in E; destruct E as [<- <-].
  - assert (0 < 10 ^ k) by (apply Z.pow_pos_nonneg; lia). split; [apply Z.mul_pos_pos; lia|]. split; [lia|].
    rewrite mult_IZR, B_Z by lia. field. lra.
  - assert (0 < 10 ^ (- k)) by (apply Z.pow_pos_nonneg; lia). split; [lia|]. split; [apply Z.mul_pos_pos; lia|].
    rewrite mult_IZR, <- (B_Z (- k)) by lia.
    pose proof (B_inv k) as I3. pose proof (B_pos k). pose proof (B_pos (- k)).
    replace (B k) with (/ B (- k))%R; [field; lra|].
    apply (Rmult_eq_reg_l (B (- k))); [|lra]. rewrite I3. field. lra.
Qed.

Lemma exponent_spec m d : (B (exponent m d) <= IZR (Zpos m) / IZR (Zpos d) < B (exponent m d + 1))%R.
Proof.
  unfold exponent. set (k := log10 m - log10 d).
  destruct (scale m d (- k)) as [a b] eqn:E. destruct (scale_spec _ _ _ _ _ E) as (Ha & Hb & S).
  pose proof (log10_R m) as [M1 M2]. pose proof (log10_R d) as [D1 D2].
  pose proof (IZR_pos d) as D0. pose proof (IZR_pos m) as M0.
  set (x := (IZR (Zpos m) / IZR (Zpos d))%R) in *.
  assert (X : IZR (Zpos m) = (x * IZR (Zpos d))%R) by (unfold x; field; lra).
  assert (x0 : (0 < x)%R) by (unfold x; apply Rdiv_lt_0_compat; lra).
  assert (U : (x < B (k + 1))%R).
  { replace (log10 m + 1) with (k + 1 + log10 d) in M2 by (unfold k; lia). rewrite B_add in M2.
    pose proof (B_pos (log10 d)). pose proof (B_pos (k + 1)). rewrite X in M2. nra. }
  assert (L : (B (k - 1) <= x)%R).
  { replace (log10 m) with (k - 1 + (log10 d + 1)) in M1 by (unfold k; lia). rewrite B_add in M1.
    pose proof (B_pos (log10 d + 1)). pose proof (B_pos (k - 1)). rewrite X in M1. nra. }
  pose proof (B_inv k). pose proof (B_pos k). pose proof (B_pos (- k)).
  apply IZR_lt in Hb.
  assert (A : IZR a = (x * B (- k) * IZR b)%R) by (rewrite <- S; field; lra).
  destruct (Z.leb_spec b a) as [C|C]; [apply IZR_le in C | apply IZR_lt in C].
  - split; [|exact U]. rewrite A in C.
    assert (1 <= x * B (- k))%R by nra. nra.
  - replace (k - 1 + 1) with k by lia. split; [exact L|]. rewrite A in C.
    assert (x * B (- k) < 1)%R by nra. nra.
Qed.

(** Rounding. *)
Lemma round_near a b : 0 < b -> - b <= 2 * (a - round_even a b * b) <= b.
Proof.
  intros H. unfold round_even. pose proof (Z.div_mod a b ltac:(lia)). pose proof (Z.mod_pos_bound a b H).
  destruct (Z.ltb_spec (2 * (a mod b)) b); [nia|]. destruct (Z.ltb_spec b (2 * (a mod b))); [nia|].
  destruct (Z.even (a / b)); nia.
Qed.
Lemma round_ge a b z : 0 < b -> z * b <= a -> z <= round_even a b.
Proof.
  intros H L. assert (z <= a / b) by (apply Z.div_le_lower_bound; lia). unfold round_even.
  destruct (_ <? _); [lia|]. destruct (_ <? _); [lia|]. destruct (Z.even _); lia.
Qed.
Lemma round_le a b z : 0 < b -> a <= z * b -> round_even a b <= z.
Proof.
  intros H L. unfold round_even. pose proof (Z.div_mod a b ltac:(lia)). pose proof (Z.mod_pos_bound a b H).
  destruct (Z.ltb_spec (2 * (a mod b)) b); [nia|]. assert (a mod b <> 0) by lia.
  assert (a / b < z) by nia. destruct (_ <? _); [lia|]. destruct (Z.even _); lia.
Qed.
Lemma round_mono a b c d : 0 < b -> 0 < d -> a * d <= c * b -> round_even a b <= round_even c d.
Proof.
  intros Hb Hd H. unfold round_even.
  pose proof (Z.div_mod a b ltac:(lia)) as E1. pose proof (Z.mod_pos_bound a b Hb) as M1.
  pose proof (Z.div_mod c d ltac:(lia)) as E2. pose proof (Z.mod_pos_bound c d Hd) as M2.
  set (q := a / b) in *. set (r := a mod b) in *. set (q' := c / d) in *. set (r' := c mod d) in *.
  assert (X : b * d * q + r * d <= b * d * q' + r' * b) by (rewrite E1, E2 in H; lia).
  assert (P : 0 < b * d) by (apply Z.mul_pos_pos; lia).
  assert (R1 : 0 <= r * d) by (apply Z.mul_nonneg_nonneg; lia).
  assert (R2 : r' * b < d * b) by (apply Z.mul_lt_mono_pos_r; lia).
  assert (Q : q <= q').
  { destruct (Z_le_gt_dec q q') as [Q|Q]; [exact Q|exfalso].
    assert (b * d * (q' + 1) <= b * d * q) by (apply Z.mul_le_mono_nonneg_l; lia). lia. }
  destruct (Z.eq_dec q q') as [<-|N].
  - assert (C : r * d <= r' * b) by nia.
    destruct (Z.ltb_spec (2 * r) b), (Z.ltb_spec (2 * r') d); try lia; [destruct (_ <? _); [lia|destruct (Z.even q); lia]|nia|].
    destruct (Z.ltb_spec b (2 * r)), (Z.ltb_spec d (2 * r')); try lia; try (destruct (Z.even q); lia); nia.
  - assert (q + 1 <= q') by lia.
    repeat (destruct (_ <? _)); repeat (destruct (Z.even _)); lia.
Qed.

Lemma significant_spec p m d n e : (1 <= p)%nat -> significant p m d = (n, e) ->
  let x := (IZR (Zpos m) / IZR (Zpos d))%R in
  10 ^ (Z.of_nat p - 1) <= n < 10 ^ Z.of_nat p /\
  (Rabs (IZR n * B (e - (Z.of_nat p - 1)) - x) * (2 * 10 ^ (p - 1)) <= x)%R.
Proof.
  intros Hp. unfold significant. pose proof (exponent_spec m d) as [L U].
  set (q := Z.of_nat p - 1). set (e0 := exponent m d) in *.
  destruct (scale m d (q - e0)) as [a b] eqn:E. destruct (scale_spec _ _ _ _ _ E) as (Ha & Hb & S).
  cbv zeta. set (x := (IZR (Zpos m) / IZR (Zpos d))%R) in *.
  assert (x0 : (0 < x)%R) by (pose proof (B_pos e0); lra).
  assert (Hb' := IZR_lt _ _ Hb).
  assert (A : IZR a = (x * B (q - e0) * IZR b)%R) by (rewrite <- S; field; lra).
  assert (P10 : (10 ^ (p - 1))%R = B q) by (rewrite pow_powerRZ; f_equal; unfold q; lia).
  assert (G : 10 ^ q <= round_even a b).
  { apply round_ge; [lia|]. apply le_IZR. rewrite mult_IZR, <- B_Z, A by (unfold q; lia).
    replace q with (e0 + (q - e0)) at 1 by lia. rewrite B_add. pose proof (B_pos (q - e0)).
    apply Rmult_le_compat_r; [lra|]. apply Rmult_le_compat_r; lra. }
  assert (W : round_even a b <= 10 ^ Z.of_nat p).
  { apply round_le; [lia|]. apply le_IZR. rewrite mult_IZR, <- B_Z, A by lia.
    replace (Z.of_nat p) with (e0 + 1 + (q - e0)) by (unfold q; lia). rewrite B_add. pose proof (B_pos (q - e0)).
    apply Rmult_le_compat_r; [lra|]. apply Rmult_le_compat_r; lra. }
  assert (N : (Rabs (IZR (round_even a b) * B (e0 - q) - x) * (2 * B q) <= x)%R).
  { pose proof (round_near a b Hb) as [N1 N2]. apply IZR_le in N1, N2.
    rewrite mult_IZR, minus_IZR, mult_IZR, ?opp_IZR in *. rewrite A in N1, N2.
    set (D := IZR (round_even a b)) in *.
    assert (F1 : (- 1 <= 2 * (x * B (q - e0) - D) <= 1)%R) by (split; nra).
    pose proof (B_inv (q - e0)) as I. replace (- (q - e0)) with (e0 - q) in I by lia.
    pose proof (B_pos (e0 - q)) as Z1. pose proof (B_pos (q - e0)) as Z2. pose proof (B_pos q) as Z3.
    assert (F2 : (D * B (e0 - q) - x = - (x * B (q - e0) - D) * B (e0 - q))%R).
    { replace (- (x * B (q - e0) - D) * B (e0 - q))%R with (D * B (e0 - q) - x * (B (e0 - q) * B (q - e0)))%R by ring. rewrite I. ring. }
    rewrite F2, Rabs_mult, Rabs_Ropp, (Rabs_pos_eq (B (e0 - q))) by lra.
    assert (F3 : (Rabs (x * B (q - e0) - D) * 2 <= 1)%R) by (unfold Rabs; destruct (Rcase_abs _); lra).
    assert (F4 : (B (e0 - q) * B q = B e0)%R) by (rewrite <- B_add; f_equal; lia).
    pose proof (Rabs_pos (x * B (q - e0) - D)).
    replace (Rabs (x * B (q - e0) - D) * B (e0 - q) * (2 * B q))%R with (Rabs (x * B (q - e0) - D) * 2 * (B (e0 - q) * B q))%R by ring.
    rewrite F4. pose proof (B_pos e0). nra. }
  rewrite P10. destruct (Z.eqb_spec (round_even a b) (10 ^ Z.of_nat p)) as [C|C]; intros F; apply pair_equal_spec in F; destruct F as [<- <-].
  - split.
    + split; [lia|]. apply Z.pow_lt_mono_r; unfold q; lia.
    + rewrite <- (B_Z q) by (unfold q; lia). rewrite C, <- B_Z in N by lia.
      replace (B q * B (e0 + 1 - q))%R with (B (Z.of_nat p) * B (e0 - q))%R; [exact N|].
      rewrite <- !B_add. f_equal. unfold q. lia.
  - split; [lia|exact N].
Qed.

(** Digits. *)
Definition val (v : Z) (l : list Z) : Z := fold_left (fun v d => 10 * v + d) l v.
Definition decimal_digit (d : Z) : Prop := 0 <= d <= 9.

Lemma val_app l1 l2 v : val v (l1 ++ l2) = val (val v l1) l2.
Proof. apply fold_left_app. Qed.
Lemma val_zeros k v : val v (repeat 0 k) = v * 10 ^ Z.of_nat k.
Proof.
  revert v. induction k as [|k IH]; intros v; [simpl; lia|].
  change (val v (repeat 0 (S k))) with (val (10 * v + 0) (repeat 0 k)). rewrite IH, Nat2Z.inj_succ, Z.pow_succ_r by lia. ring.
Qed.
Lemma digits_length k : forall n, List.length (digits k n) = k.
Proof. induction k as [|k IH]; intros n; cbn [digits]; [reflexivity|]. rewrite app_length, IH. simpl. lia. Qed.
Lemma digits_ok k : forall n, Forall decimal_digit (digits k n).
Proof.
  induction k as [|k IH]; intros n; cbn [digits]; [constructor|]. apply Forall_app. split; [apply IH|].
  constructor; [|constructor]. pose proof (Z.mod_pos_bound n 10 ltac:(lia)). unfold decimal_digit. lia.
Qed.
Lemma val_digits k : forall n v, 0 <= n < 10 ^ Z.of_nat k -> val v (digits k n) = v * 10 ^ Z.of_nat k + n.
Proof.
  induction k as [|k IH]; intros n v H; cbn [digits].
  - simpl in *. lia.
  - rewrite Nat2Z.inj_succ, Z.pow_succ_r in * by lia.
    rewrite val_app, IH.
    + unfold val; cbn [fold_left]. pose proof (Z.div_mod n 10 ltac:(lia)). lia.
    + split; [apply Z.div_pos; lia|apply Z.div_lt_upper_bound; lia].
Qed.

Lemma strip_spec l : exists z, l = (strip l ++ repeat 0 z)%list.
Proof.
  induction l as [|d l [z IH]]; [exists O; reflexivity|]. cbn [strip fold_right].
  fold (strip l). destruct (strip l) as [|c r] eqn:E.
  - destruct (Z.eqb_spec d 0) as [->|].
    + exists (S z). simpl in *. f_equal. exact IH.
    + exists z. simpl in *. f_equal. exact IH.
  - exists z. simpl in *. f_equal. exact IH.
Qed.

(** Reading digits. *)
Definition stops (s : string) : Prop := match s with "" => True | String c _ => digit c = None end.
Lemma digit_cases d : decimal_digit d -> d = 0 \/ d = 1 \/ d = 2 \/ d = 3 \/ d = 4 \/ d = 5 \/ d = 6 \/ d = 7 \/ d = 8 \/ d = 9.
Proof. unfold decimal_digit. lia. Qed.
Ltac ten H := destruct (digit_cases _ H) as [-> | [-> | [-> | [-> | [-> | [-> | [-> | [-> | [-> | ->]]]]]]]]].
Lemma digit_char d : decimal_digit d -> digit (char d) = Some d.
Proof. intros H. ten H; reflexivity. Qed.

Lemma take_text l s : Forall decimal_digit l -> stops s -> forall v n,
  take (text l ++ s) v n = (val v l, n + Z.of_nat (List.length l), s).
Proof.
  induction 1 as [|d l Hd _ IH]; intros Hs v n.
  - simpl. rewrite Z.add_0_r. destruct s as [|c s]; [reflexivity|]. simpl in *. rewrite Hs. reflexivity.
  - change (text (d :: l) ++ s) with (String (char d) (text l ++ s)). cbn [take].
    rewrite digit_char by exact Hd. rewrite IH by exact Hs. cbn [List.length].
    unfold val at 2. cbn [fold_left]. fold (val (10 * v + d) l). f_equal. f_equal. lia.
Qed.

Lemma read_power_power e : read_power (power e) = Some e.
Proof.
  unfold power. set (k := Nat.max _ _).
  assert (H : 0 <= Z.abs e < 10 ^ Z.of_nat k).
  { split; [lia|]. destruct (Z.eq_dec e 0) as [->|N].
    - apply Z.pow_pos_nonneg; lia.
    - destruct (size10_spec (Z.to_nat (Z.abs e)) (Z.abs e)) as (S0 & _ & U); [lia| |].
      + rewrite Z2Nat.id by lia. apply Z.pow_gt_lin_r; lia.
      + apply Z.lt_le_trans with (1 := U). apply Z.pow_le_mono_r; [lia|]. unfold k. lia. }
  assert (T : forall v n, take (text (digits k (Z.abs e)) ++ "") v n = (val v (digits k (Z.abs e)), n + Z.of_nat k, "")).
  { intros v n. rewrite take_text; [rewrite digits_length; reflexivity|apply digits_ok|exact I]. }
  assert (A : forall s, s ++ "" = s) by (induction s as [|? ? IH]; simpl; congruence).
  rewrite A in T.
  assert (K : (2 <= k)%nat) by (unfold k; lia).
  cbn [append read_power].
  destruct (Z.ltb_spec e 0) as [L|L]; cbn [plus append sign]; rewrite T, val_digits by lia;
    (replace (0 <? 0 + Z.of_nat k) with true by (symmetry; apply Z.ltb_lt; lia)); cbn [andb String.eqb]; f_equal; lia.
Qed.

Definition tail (t : string) (e : Z) : Prop := (t = "" /\ e = 0) \/ t = power e.
Lemma tail_stops t e : tail t e -> stops t.
Proof. intros [[-> _]| ->]; [exact I|reflexivity]. Qed.
Lemma tail_power t e : tail t e -> read_power t = Some e.
Proof. intros [[-> ->]| ->]; [reflexivity|apply read_power_power]. Qed.

Lemma append_assoc a b c : (a ++ b) ++ c = a ++ (b ++ c).
Proof. induction a as [|x a IH]; simpl; congruence. Qed.

Lemma read_mantissa b ip fp t e : ip <> [] -> Forall decimal_digit ip -> Forall decimal_digit fp -> tail t e ->
  read_digits b (mantissa ip fp ++ t) = Some (Dec b (val 0 (ip ++ fp)) (e - Z.of_nat (List.length fp))).
Proof.
  intros N Hi Hf Ht. unfold read_digits, mantissa.
  assert (NE : (0 + Z.of_nat (List.length ip) =? 0) = false) by (destruct ip; [congruence|]; apply Z.eqb_neq; simpl List.length; lia).
  destruct fp as [|d fp].
  - rewrite append_assoc. cbn [append]. rewrite take_text by (try assumption; eapply tail_stops; eassumption).
    rewrite NE, app_nil_r. simpl List.length.
    destruct Ht as [[-> ->]| ->]; [reflexivity|]. change (power e) with (String "e" (plus (e <? 0) ++ text (digits (Nat.max 2 (S (Z.to_nat (size10 (Z.to_nat (Z.abs e)) (Z.abs e))))) (Z.abs e)))) at 1.
    cbv iota. rewrite read_power_power. reflexivity.
  - rewrite !append_assoc. rewrite take_text by (try assumption; reflexivity).
    rewrite NE. cbn [append]. rewrite take_text by (try assumption; eapply tail_stops; eassumption).
    rewrite (tail_power _ _ Ht). simpl option_map. rewrite val_app. do 2 f_equal.
Qed.

Lemma read_number (s : bool) sg ip fp t e : sg = minus s \/ sg = plus s ->
  ip <> [] -> Forall decimal_digit ip -> Forall decimal_digit fp -> tail t e ->
  read (sg ++ mantissa ip fp ++ t) = Some (Dec s (val 0 (ip ++ fp)) (e - Z.of_nat (List.length fp))).
Proof.
  intros Hs N Hi Hf Ht. rewrite <- (read_mantissa s ip fp t e) by assumption.
  destruct ip as [|d ip]; [congruence|]. inversion Hi as [|? ? Hd _]; subst.
  assert (F : exists v, mantissa (d :: ip) fp ++ t = String (char d) v) by (eexists; reflexivity).
  destruct F as [v F]. rewrite F. unfold read.
  assert (G : sign (String (char d) v) = (false, String (char d) v) /\
    String.eqb (String (char d) v) "inf" = false /\ String.eqb (String (char d) v) "nan" = false) by (ten Hd; repeat split).
  destruct G as (G1 & G2 & G3).
  assert (G : sign (sg ++ String (char d) v) = (s, String (char d) v)) by (destruct Hs as [-> | ->], s; [reflexivity|exact G1|reflexivity|reflexivity]).
  rewrite G, G2, G3. reflexivity.
Qed.

(** The value of stripped digits. *)
Lemma strip_value v fp e : (IZR (val v (strip fp)) * B (e - Z.of_nat (List.length (strip fp))) = IZR (val v fp) * B (e - Z.of_nat (List.length fp)))%R.
Proof.
  destruct (strip_spec fp) as [z E]. rewrite E at 3 4. rewrite val_app, val_zeros, app_length, repeat_length, mult_IZR.
  rewrite <- (B_Z (Z.of_nat z)) by lia. rewrite Rmult_assoc, <- B_add. do 2 f_equal. lia.
Qed.

Lemma Forall_strip l : Forall decimal_digit l -> Forall decimal_digit (strip l).
Proof. intros H. destruct (strip_spec l) as [z E]. rewrite E in H. apply Forall_app in H. tauto. Qed.

Lemma append_nil s : s ++ "" = s.
Proof. induction s as [|c s IH]; simpl; congruence. Qed.

Lemma reads_stripped (s : bool) sg ip fp t e : sg = minus s \/ sg = plus s ->
  ip <> [] -> Forall decimal_digit ip -> Forall decimal_digit fp -> tail t e ->
  reads (sg ++ mantissa ip (strip fp) ++ t) (signed s (IZR (val 0 (ip ++ fp)) * B (e - Z.of_nat (List.length fp)))).
Proof.
  intros Hs N Hi Hf Ht. exists s, (val 0 (ip ++ strip fp)), (e - Z.of_nat (List.length (strip fp))).
  split; [apply read_number; auto using Forall_strip|]. rewrite !val_app, strip_value. reflexivity.
Qed.

Lemma show_g_reads p s m d n e : (1 <= p)%nat -> significant p m d = (n, e) -> 0 <= n < 10 ^ Z.of_nat p ->
  reads (show_g p (Fin s m d)) (signed s (IZR n * B (e - (Z.of_nat p - 1)))).
Proof.
  intros Hp E H. cbn [show_g]. rewrite E. set (l := digits p n).
  assert (Hl : Forall decimal_digit l) by apply digits_ok.
  assert (Ll : List.length l = p) by apply digits_length.
  assert (Vl : val 0 l = n) by (unfold l; rewrite val_digits by lia; lia).
  assert (Fs : forall k, Forall decimal_digit (firstn k l) /\ Forall decimal_digit (skipn k l)).
  { intros k. rewrite <- (firstn_skipn k l) in Hl. apply Forall_app in Hl. exact Hl. }
  assert (Ne : forall k, (1 <= k)%nat -> firstn k l <> []).
  { intros k Hk C. apply (f_equal (@List.length Z)) in C. rewrite firstn_length in C. simpl in C. lia. }
  destruct (Z.leb_spec (-4) e) as [L|L]; destruct (Z.ltb_spec e (Z.of_nat p)) as [U|U]; cbn [andb].
  - destruct (Z.leb_spec 0 e) as [P|P].
    + set (k := Z.to_nat (e + 1)). destruct (Fs k) as [F1 F2].
      rewrite <- (append_nil (mantissa _ _)).
      pose proof (reads_stripped s (minus s) (firstn k l) (skipn k l) "" 0 (or_introl eq_refl) (Ne k ltac:(unfold k; lia)) F1 F2 (or_introl (conj eq_refl eq_refl))) as R.
      rewrite firstn_skipn, Vl, skipn_length, Ll in R.
      replace (e - (Z.of_nat p - 1)) with (0 - Z.of_nat (p - k)) by (unfold k; lia). exact R.
    + rewrite <- (append_nil (mantissa _ _)).
      assert (F2 : Forall decimal_digit (repeat 0 (Z.to_nat (- e - 1)) ++ l)).
      { apply Forall_app. split; [|exact Hl]. apply Forall_forall. intros z Hz. apply repeat_spec in Hz. unfold decimal_digit. lia. }
      assert (F1 : Forall decimal_digit [0]) by (constructor; [unfold decimal_digit; lia|constructor]).
      pose proof (reads_stripped s (minus s) [0] _ "" 0 (or_introl eq_refl) ltac:(congruence) F1 F2 (or_introl (conj eq_refl eq_refl))) as R.
      rewrite !val_app in R. rewrite val_zeros in R. change (val 0 [0]) with 0 in R. rewrite Z.mul_0_l, Vl, app_length, repeat_length, Ll in R.
      replace (e - (Z.of_nat p - 1)) with (0 - Z.of_nat (Z.to_nat (- e - 1) + p)) by lia. exact R.
  - destruct (Fs 1%nat) as [F1 F2].
    pose proof (reads_stripped s (minus s) _ _ (power e) e (or_introl eq_refl) (Ne 1%nat ltac:(lia)) F1 F2 (or_intror eq_refl)) as R.
    rewrite firstn_skipn, Vl, skipn_length, Ll in R. replace (e - (Z.of_nat p - 1)) with (e - Z.of_nat (p - 1)) by lia. exact R.
  - destruct (Fs 1%nat) as [F1 F2].
    pose proof (reads_stripped s (minus s) _ _ (power e) e (or_introl eq_refl) (Ne 1%nat ltac:(lia)) F1 F2 (or_intror eq_refl)) as R.
    rewrite firstn_skipn, Vl, skipn_length, Ll in R. replace (e - (Z.of_nat p - 1)) with (e - Z.of_nat (p - 1)) by lia. exact R.
  - destruct (Fs 1%nat) as [F1 F2].
    pose proof (reads_stripped s (minus s) _ _ (power e) e (or_introl eq_refl) (Ne 1%nat ltac:(lia)) F1 F2 (or_intror eq_refl)) as R.
    rewrite firstn_skipn, Vl, skipn_length, Ll in R. replace (e - (Z.of_nat p - 1)) with (e - Z.of_nat (p - 1)) by lia. exact R.
Qed.

Lemma show_e_reads p s m d n e : significant (S p) m d = (n, e) -> 0 <= n < 10 ^ Z.of_nat (S p) ->
  reads (show_e p (Fin s m d)) (signed s (IZR n * B (e - Z.of_nat p))).
Proof.
  intros E H. cbn [show_e]. rewrite E. set (l := digits (S p) n).
  assert (Hl : Forall decimal_digit l) by apply digits_ok.
  assert (Ll : List.length l = S p) by apply digits_length.
  assert (Vl : val 0 l = n) by (unfold l; rewrite val_digits by lia; lia).
  assert (Hl' := Hl). rewrite <- (firstn_skipn 1 l) in Hl'. apply Forall_app in Hl' as [F1 F2].
  exists s, n, (e - Z.of_nat p). split; [|reflexivity].
  rewrite (read_number s (plus s) (firstn 1 l) (skipn 1 l) (power e) e); auto.
  - rewrite firstn_skipn, Vl, skipn_length, Ll. do 2 f_equal. lia.
  - intros C. apply (f_equal (@List.length Z)) in C. rewrite firstn_length, Ll in C. simpl in C. lia.
  - now right.
Qed.

(** The value printed. *)
Lemma significant_value p m d n e a b : (1 <= p)%nat -> significant p m d = (n, e) ->
  scale m d (Z.of_nat p - 1 - exponent m d) = (a, b) ->
  (IZR n * B (e - (Z.of_nat p - 1)) = IZR (round_even a b) * B (exponent m d - (Z.of_nat p - 1)))%R.
Proof.
  intros Hp E A. unfold significant in E. rewrite A in E.
  destruct (Z.eqb_spec (round_even a b) (10 ^ Z.of_nat p)) as [C|C]; apply pair_equal_spec in E; destruct E as [<- <-]; [|reflexivity].
  rewrite C, <- !B_Z by lia. rewrite <- !B_add. f_equal. lia.
Qed.

Lemma B_lt_inv a b : (B a < B b)%R -> a < b.
Proof. intros H. destruct (Z_lt_ge_dec a b) as [L|L]; [exact L|]. pose proof (B_le b a ltac:(lia)). lra. Qed.

Lemma significant_exact p m d n e M k : (1 <= p)%nat -> significant p m d = (n, e) -> M < 10 ^ Z.of_nat p ->
  (IZR (Zpos m) / IZR (Zpos d) = IZR M * B k)%R -> (IZR n * B (e - (Z.of_nat p - 1)) = IZR (Zpos m) / IZR (Zpos d))%R.
Proof.
  intros Hp E HM X. destruct (scale m d (Z.of_nat p - 1 - exponent m d)) as [a b] eqn:A.
  rewrite (significant_value _ _ _ _ _ _ _ Hp E A). set (q := Z.of_nat p - 1) in *.
  destruct (scale_spec _ _ _ _ _ A) as (Ha & Hb & Sc). pose proof (exponent_spec m d) as [L U].
  set (e0 := exponent m d) in *. set (x := (IZR (Zpos m) / IZR (Zpos d))%R) in *.
  assert (K : 0 <= k + (q - e0)).
  { assert (e0 < k + Z.of_nat p); [|unfold q; lia]. apply B_lt_inv. apply Rle_lt_trans with (1 := L). rewrite X.
    rewrite Z.add_comm, B_add, (B_Z (Z.of_nat p)) by lia. apply Rmult_lt_compat_r; [apply B_pos|apply IZR_lt; lia]. }
  assert (Hb' := IZR_lt _ _ Hb).
  assert (Z1 : a = M * 10 ^ (k + (q - e0)) * b).
  { apply eq_IZR. rewrite !mult_IZR, <- B_Z, B_add by lia. rewrite X in Sc. rewrite <- Rmult_assoc, <- Sc. field. lra. }
  assert (R1 : round_even a b = M * 10 ^ (k + (q - e0))).
  { apply Z.le_antisymm; [apply round_le; lia|apply round_ge; lia]. }
  rewrite R1, mult_IZR, <- B_Z, X by lia. rewrite Rmult_assoc, <- B_add. do 2 f_equal. lia.
Qed.

Lemma significant_mono p m d n e m' d' n' e' : (1 <= p)%nat -> significant p m d = (n, e) -> significant p m' d' = (n', e') ->
  (IZR (Zpos m) / IZR (Zpos d) <= IZR (Zpos m') / IZR (Zpos d'))%R ->
  (IZR n * B (e - (Z.of_nat p - 1)) <= IZR n' * B (e' - (Z.of_nat p - 1)))%R.
Proof.
  intros Hp E E' H.
  destruct (scale m d (Z.of_nat p - 1 - exponent m d)) as [a b] eqn:A. rewrite (significant_value _ _ _ _ _ _ _ Hp E A).
  destruct (scale m' d' (Z.of_nat p - 1 - exponent m' d')) as [a' b'] eqn:A'. rewrite (significant_value _ _ _ _ _ _ _ Hp E' A').
  set (q := Z.of_nat p - 1) in *.
  destruct (scale_spec _ _ _ _ _ A) as (Ha & Hb & Sc). destruct (scale_spec _ _ _ _ _ A') as (Ha' & Hb' & Sc').
  pose proof (exponent_spec m d) as [L U]. pose proof (exponent_spec m' d') as [L' U'].
  set (e0 := exponent m d) in *. set (e1 := exponent m' d') in *.
  set (x := (IZR (Zpos m) / IZR (Zpos d))%R) in *. set (y := (IZR (Zpos m') / IZR (Zpos d'))%R) in *.
  assert (RB := IZR_lt _ _ Hb). assert (RB' := IZR_lt _ _ Hb').
  assert (AX : IZR a = (x * B (q - e0) * IZR b)%R) by (rewrite <- Sc; field; lra).
  assert (AY : IZR a' = (y * B (q - e1) * IZR b')%R) by (rewrite <- Sc'; field; lra).
  assert (O : e0 <= e1) by (cut (e0 < e1 + 1); [lia|apply B_lt_inv; lra]).
  destruct (Z.eq_dec e0 e1) as [Q|Q].
  - rewrite <- Q in *. apply Rmult_le_compat_r; [apply Rlt_le, B_pos|]. apply IZR_le, round_mono; try lia.
    apply le_IZR. rewrite !mult_IZR, AX, AY. pose proof (B_pos (q - e0)).
    replace (x * B (q - e0) * IZR b * IZR b')%R with (x * (B (q - e0) * IZR b * IZR b'))%R by ring.
    replace (y * B (q - e0) * IZR b' * IZR b)%R with (y * (B (q - e0) * IZR b * IZR b'))%R by ring.
    apply Rmult_le_compat_r; [|exact H]. repeat apply Rmult_le_pos; lra.
  - apply Rle_trans with (B e1).
    + apply Rle_trans with (B (e0 + 1)); [|apply B_le; lia].
      replace (e0 + 1) with (q + 1 + (e0 - q)) by lia. rewrite B_add, (B_Z (q + 1)) by (unfold q; lia).
      apply Rmult_le_compat_r; [apply Rlt_le, B_pos|]. apply IZR_le, round_le; [lia|].
      apply le_IZR. rewrite mult_IZR, <- B_Z, AX by (unfold q; lia).
      replace (q + 1) with (e0 + 1 + (q - e0)) by lia. rewrite B_add. pose proof (B_pos (q - e0)).
      apply Rmult_le_compat_r; [lra|]. apply Rmult_le_compat_r; lra.
    + replace e1 with (q + (e1 - q)) at 1 by lia. rewrite B_add, (B_Z q) by (unfold q; lia).
      apply Rmult_le_compat_r; [apply Rlt_le, B_pos|]. apply IZR_le, round_ge; [lia|].
      apply le_IZR. rewrite mult_IZR, <- B_Z, AY by (unfold q; lia).
      replace q with (e1 + (q - e1)) at 1 by lia. rewrite B_add. pose proof (B_pos (q - e1)).
      apply Rmult_le_compat_r; [lra|]. apply Rmult_le_compat_r; lra.
Qed.

(** What a number is printed as, for both conversions. *)
Definition printed (p : nat) (x : number) : R :=
  match x with
  | Fin s m d => let '(n, e) := significant p m d in signed s (IZR n * B (e - (Z.of_nat p - 1)))
  | _ => 0%R
  end.

Lemma significant_pos p m d n e : (1 <= p)%nat -> significant p m d = (n, e) -> 0 < n < 10 ^ Z.of_nat p.
Proof.
  intros Hp E. destruct (significant_spec _ _ _ _ _ Hp E) as [[L U] _].
  assert (0 < 10 ^ (Z.of_nat p - 1)) by (apply Z.pow_pos_nonneg; lia). lia.
Qed.

Lemma show_g_printed p x : (1 <= p)%nat -> finite x -> reads (show_g p x) (printed p x).
Proof.
  intros Hp. destruct x as [s|s|s|s m d]; cbn [finite]; intros F; try contradiction.
  - exists s, 0, 0. split; [destruct s; reflexivity|]. destruct s; simpl; ring.
  - unfold printed. destruct (significant p m d) as [n e] eqn:E. apply show_g_reads; [exact Hp|exact E|].
    pose proof (significant_pos _ _ _ _ _ Hp E). lia.
Qed.

Lemma show_e_printed p x : finite x -> reads (show_e p x) (printed (S p) x).
Proof.
  destruct x as [s|s|s|s m d]; cbn [finite]; intros F; try contradiction.
  - exists s, (val 0 ([0] ++ repeat 0 p)), (0 - Z.of_nat (List.length (repeat 0 p))). split.
    + cbn [show_e]. apply read_number; auto; [congruence|repeat constructor; unfold decimal_digit; lia| |now right].
      apply Forall_forall. intros z Hz. apply repeat_spec in Hz. unfold decimal_digit. lia.
    + rewrite val_app, val_zeros. change (val 0 [0]) with 0. rewrite Z.mul_0_l, Rmult_0_l. destruct s; simpl; ring.
  - unfold printed. destruct (significant (S p) m d) as [n e] eqn:E.
    replace (Z.of_nat (S p) - 1) with (Z.of_nat p) by lia. apply show_e_reads; [exact E|].
    pose proof (significant_pos (S p) _ _ _ _ ltac:(lia) E). lia.
Qed.

Lemma reads_fun s v w : reads s v -> reads s w -> v = w.
Proof. intros (b & n & e & E & ->) (b' & n' & e' & E' & ->). rewrite E in E'. injection E' as <- <- <-. reflexivity. Qed.

Lemma Rabs_signed s x : Rabs (signed s x) = Rabs x.
Proof. destruct s; [apply Rabs_Ropp|reflexivity]. Qed.

Lemma printed_near p x : (1 <= p)%nat -> (Rabs (printed p x - real x) * (2 * 10 ^ (p - 1)) <= Rabs (real x))%R.
Proof.
  intros Hp. destruct x as [s|s|s|s m d]; cbn [printed real]; try (rewrite Rminus_0_r, Rabs_R0; lra).
  destruct (significant p m d) as [n e] eqn:E. destruct (significant_spec _ _ _ _ _ Hp E) as [_ N].
  set (v := (IZR n * B (e - (Z.of_nat p - 1)))%R) in *. set (x := (IZR (Zpos m) / IZR (Zpos d))%R) in *.
  assert (0 < x)%R by (unfold x; apply Rdiv_lt_0_compat; apply IZR_pos).
  replace (signed s v - signed s x)%R with (signed s (v - x)) by (destruct s; simpl; ring).
  rewrite !Rabs_signed, (Rabs_pos_eq x) by lra. exact N.
Qed.

Lemma printed_exact p x M k : (1 <= p)%nat -> Z.abs M < 10 ^ Z.of_nat p -> real x = (IZR M * B k)%R -> printed p x = real x.
Proof.
  intros Hp HM. destruct x as [s|s|s|s m d]; cbn [printed real]; try reflexivity.
  destruct (significant p m d) as [n e] eqn:E. intros X. f_equal.
  apply (significant_exact p m d n e (if s then - M else M) k Hp E); [destruct s; lia|].
  destruct s; cbn [signed] in X; [rewrite opp_IZR; lra|exact X].
Qed.

Lemma printed_sign p s m d : (1 <= p)%nat -> (0 < signed s (printed p (Fin s m d)))%R.
Proof.
  intros Hp. unfold printed. destruct (significant p m d) as [n e] eqn:E.
  assert (0 < IZR n * B (e - (Z.of_nat p - 1)))%R.
  { apply Rmult_lt_0_compat; [apply IZR_lt; pose proof (significant_pos _ _ _ _ _ Hp E); lia|apply B_pos]. }
  destruct s; simpl; lra.
Qed.

Lemma printed_mono p x y : (1 <= p)%nat -> (real x <= real y)%R -> (printed p x <= printed p y)%R.
Proof.
  intros Hp.
  assert (P : forall m d, (0 < IZR (Zpos m) / IZR (Zpos d))%R) by (intros; apply Rdiv_lt_0_compat; apply IZR_pos).
  destruct x as [s|s|s|s m d], y as [t|t|t|t m' d']; cbn [real];
    try (intros _; cbn [printed]; lra);
    try (pose proof (printed_sign p t m' d' Hp); pose proof (P m' d'); destruct t; cbn [signed printed] in *; lra);
    try (pose proof (printed_sign p s m d Hp); pose proof (P m d); destruct s; cbn [signed printed] in *; lra).
  pose proof (printed_sign p s m d Hp) as S1. pose proof (printed_sign p t m' d' Hp) as S2.
  unfold printed in *. destruct (significant p m d) as [n e] eqn:E. destruct (significant p m' d') as [n' e'] eqn:E'.
  pose proof (P m d). pose proof (P m' d').
  destruct s, t; cbn [signed] in *; intros HL.
  - pose proof (significant_mono _ _ _ _ _ _ _ _ _ Hp E' E ltac:(lra)). lra.
  - lra.
  - lra.
  - apply (significant_mono _ _ _ _ _ _ _ _ _ Hp E E' HL).
Qed.

(** Characters. *)
Lemma word_app a b : word a -> word b -> word (a ++ b).
Proof.
  unfold word. intros Ha Hb. induction a as [|c a IH]; [exact Hb|]. inversion Ha; subst. simpl. constructor; auto.
Qed.
Lemma word_text l : Forall decimal_digit l -> word (text l).
Proof.
  induction 1 as [|d l Hd _ IH]; [constructor|]. constructor; [|exact IH].
  ten Hd; unfold word_char; cbn; tauto.
Qed.
Lemma word_minus s : word (minus s).
Proof. destruct s; repeat constructor; unfold word_char; cbn; tauto. Qed.
Lemma word_mantissa ip fp : Forall decimal_digit ip -> Forall decimal_digit fp -> word (mantissa ip fp).
Proof.
  intros H1 H2. apply word_app; [apply word_text, H1|]. destruct fp as [|d fp]; [constructor|].
  apply word_app; [repeat constructor; unfold word_char; cbn; tauto|apply word_text, H2].
Qed.
Lemma word_power e : word (power e).
Proof.
  unfold power. apply word_app; [repeat constructor; unfold word_char; cbn; tauto|].
  apply word_app; [|apply word_text, digits_ok]. destruct (e <? 0); repeat constructor; unfold word_char; cbn; tauto.
Qed.

Lemma show_g_word p x : word (show_g p x).
Proof.
  destruct x as [s|s|s|s m d]; cbn [show_g].
  1-3: apply word_app; [apply word_minus|repeat constructor; unfold word_char; cbn; tauto].
  destruct (significant p m d) as [n e]. set (l := digits p n).
  assert (Hl : Forall decimal_digit l) by apply digits_ok.
  assert (Fs : forall k, Forall decimal_digit (firstn k l) /\ Forall decimal_digit (skipn k l)).
  { intros k. rewrite <- (firstn_skipn k l) in Hl. apply Forall_app in Hl. exact Hl. }
  apply word_app; [apply word_minus|].
  destruct (_ && _); [destruct (_ <=? _)|].
  - apply word_mantissa; [apply Fs|apply Forall_strip, Fs].
  - apply word_mantissa; [repeat constructor; unfold decimal_digit; lia|]. apply Forall_strip, Forall_app. split; [|exact Hl].
    apply Forall_forall. intros z Hz. apply repeat_spec in Hz. unfold decimal_digit. lia.
  - apply word_app; [apply word_mantissa; [apply Fs|apply Forall_strip, Fs]|apply word_power].
Qed.

Lemma apart c a b s t : ~ word_char c -> word a -> word b -> a ++ String c s = b ++ String c t -> a = b /\ s = t.
Proof.
  intros Hc. revert b. induction a as [|x a IH]; intros [|y b] Ha Hb E; cbn [append] in E.
  - injection E as <-. auto.
  - injection E as <- _. inversion Hb; subst. contradiction.
  - injection E as -> _. inversion Ha; subst. contradiction.
  - injection E as <- E. inversion Ha; inversion Hb; subst. destruct (IH b) as [-> ->]; auto.
Qed.
