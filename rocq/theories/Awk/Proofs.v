(** Proofs about the awk scripts. *)

From Coq Require Import List ZArith Bool String Reals Lra Lia Sorted.
From Verif Require Import Base.Num Awk.Model Awk.Spec.
Import ListNotations.
Local Open Scope R_scope.

(** * Fields *)

Lemma dollar_value (k : nat) (r : list rfield) : (1 <= k)%nat ->
  (num (dollar r (Z.of_nat k)) : R) = value k r.
Proof.
  intros H. unfold dollar, value. replace (Z.to_nat (Z.of_nat k - 1)) with (k - 1)%nat by lia.
  destruct (nth_error r (k - 1)) as [f|] eqn:E.
  - rewrite (nth_error_nth _ _ _ E). reflexivity.
  - apply nth_error_None in E. rewrite nth_overflow by lia. reflexivity.
Qed.
Lemma dollar_text (k : nat) (r : list rfield) : (1 <= k)%nat ->
  txt (dollar r (Z.of_nat k)) = text k r.
Proof.
  intros H. unfold dollar, text. replace (Z.to_nat (Z.of_nat k - 1)) with (k - 1)%nat by lia.
  destruct (nth_error r (k - 1)) as [f|] eqn:E.
  - rewrite (nth_error_nth _ _ _ E). reflexivity.
  - apply nth_error_None in E. rewrite nth_overflow by lia. reflexivity.
Qed.
Lemma dollar_numeric (k : nat) (r : list rfield) : (1 <= k)%nat -> numeric k r ->
  isnum (dollar r (Z.of_nat k)) = true.
Proof.
  intros H. unfold dollar, numeric. replace (Z.to_nat (Z.of_nat k - 1)) with (k - 1)%nat by lia.
  destruct (nth_error r (k - 1)) as [f|] eqn:E.
  - rewrite (nth_error_nth _ _ _ E). auto.
  - apply nth_error_None in E. rewrite nth_overflow by lia. reflexivity.
Qed.

Lemma zvar_chosen v d z : chosen v d z -> zvar v (Z.of_nat d) = Z.of_nat z.
Proof.
  intros [[-> ->]|[-> N]]; [reflexivity|]. cbn [zvar].
  destruct (Z.eqb_spec (Z.of_nat z) 0); [lia|reflexivity].
Qed.

(** * Lines *)

Lemma nth_error_map_seq {A} (f : nat -> A) n i : (i < n)%nat ->
  nth_error (map f (seq 0 n)) i = Some (f i).
Proof.
  intros H. rewrite nth_error_map.
  rewrite (nth_error_nth' _ 0%nat) by (rewrite seq_length; exact H).
  rewrite seq_nth by exact H. reflexivity.
Qed.

Lemma texts_length (r : list rfield) a n : List.length (texts (K:=RNum) r a n) = Z.to_nat n.
Proof. unfold texts. rewrite map_length, seq_length. reflexivity. Qed.

Lemma line_replaced (k : nat) (x : T RNum) (r : list rfield) : (1 <= k)%nat ->
  replaced k x r (texts r 1 (Z.of_nat k - 1) ++ [Number x] ++
                  texts r (Z.of_nat k + 1) (NF r - Z.of_nat k)).
Proof.
  intros H. split.
  - rewrite !app_length, !texts_length. cbn [List.length]. unfold NF. lia.
  - rewrite !app_length, !texts_length. cbn [List.length]. unfold NF. intros i Hi.
    destruct (Nat.eqb_spec i k) as [->|N].
    + rewrite nth_error_app2 by (rewrite texts_length; lia). rewrite texts_length.
      replace (k - 1 - Z.to_nat (Z.of_nat k - 1))%nat with 0%nat by lia. reflexivity.
    + destruct (Nat.lt_ge_cases i k) as [L|L].
      * rewrite nth_error_app1 by (rewrite texts_length; lia). unfold texts.
        rewrite nth_error_map_seq by lia. do 2 f_equal.
        rewrite <- dollar_text by lia. do 2 f_equal. lia.
      * rewrite nth_error_app2 by (rewrite texts_length; lia). rewrite texts_length.
        rewrite nth_error_app2 by (cbn [List.length]; lia). cbn [List.length]. unfold texts.
        rewrite nth_error_map_seq by lia. do 2 f_equal.
        rewrite <- dollar_text by lia. do 2 f_equal. lia.
Qed.

(** * Sums *)

Lemma total_app a b : total (a ++ b) = total a + total b.
Proof. induction a as [|x a IH]; cbn; [lra|]. rewrite IH. lra. Qed.

Lemma lastn_all {A} k (l : list A) : (List.length l <= k)%nat -> lastn k l = l.
Proof. intros H. unfold lastn. replace (List.length l - k)%nat with 0%nat by lia. reflexivity. Qed.

Lemma skipn_nth {A} (d : A) l n : (n < List.length l)%nat -> skipn n l = nth n l d :: skipn (S n) l.
Proof.
  revert n. induction l as [|a l IH]; intros n H; cbn in H; [lia|].
  destruct n as [|n]; [reflexivity|]. cbn [skipn nth]. apply IH. lia.
Qed.

(** The sum of the last [k] of [l ++ [x]]. *)
Lemma total_lastn_snoc k (l : list R) x : (1 <= k)%nat ->
  total (lastn k (l ++ [x])) =
  (if (List.length l <? k)%nat then total l else total (lastn k l) - nth (List.length l - k) l 0) + x.
Proof.
  intros K. destruct (Nat.ltb_spec (List.length l) k) as [L|L].
  - rewrite lastn_all by (rewrite app_length; cbn; lia). rewrite total_app. cbn. lra.
  - unfold lastn. rewrite app_length. cbn [List.length].
    replace (List.length l + 1 - k)%nat with (S (List.length l - k)) by lia.
    rewrite skipn_app. replace (S (List.length l - k) - List.length l)%nat with 0%nat by lia.
    rewrite total_app. change (skipn 0 [x]) with [x].
    rewrite (skipn_nth 0 l (List.length l - k)) by lia. cbn [total].
    set (q := total (skipn (S (List.length l - k)) l)). lra.
Qed.

(** * Moving average *)

Section Mavg.
Variable c s : nat.
Hypothesis Hc : (1 <= c)%nat.
Hypothesis Hs : (1 <= s)%nat.

(** After the rows [pre]: the buffer has the last [s] values. *)
Record mavg_good (pre : table) (st : @mavg_state RNum) : Prop := {
  g_arr : forall j, (j < List.length pre)%nat -> (List.length pre <= j + s)%nat ->
    (num (array st (Z.rem (Z.of_nat (S j)) (Z.of_nat s))) : R) = value c (nth j pre []);
  g_sum : (msum st : R) = total (lastn s (map (value c) pre));
  g_count : mcount st = Z.of_nat (Nat.min (List.length pre) s) }.

Lemma mavg_good_start : mavg_good [] mavg_start.
Proof. split; cbn; intros; try lia; reflexivity. Qed.

Lemma mavg_good_step pre st r : mavg_good pre st ->
  exists line st', mavg_step (Z.of_nat c) (Z.of_nat s) (Z.of_nat (S (List.length pre))) r st = Some (line, st') /\
    mavg_good (pre ++ [r]) st' /\
    replaced c (mean (lastn s (map (value c) (pre ++ [r])))) r line.
Proof.
  intros [A S C]. unfold mavg_step.
  destruct (Z.ltb_spec (Z.of_nat c) 0) as [B|_]; [lia|].
  set (n := List.length pre) in *. set (NR := Z.of_nat (Datatypes.S n)).
  set (cnt := (if (NR <=? Z.of_nat s)%Z then (mcount st + 1)%Z else mcount st)).
  assert (EC : cnt = Z.of_nat (Nat.min (Datatypes.S n) s)).
  { unfold cnt. rewrite C. destruct (Z.leb_spec NR (Z.of_nat s)); unfold NR in *; lia. }
  set (sm := (if (NR <=? Z.of_nat s)%Z then msum st
              else (msum st - num (array st (Z.rem NR (Z.of_nat s))))%num)).
  assert (ES : (sm + num (dollar r (Z.of_nat c)))%num = total (lastn s (map (value c) (pre ++ [r])))).
  { rewrite map_app. cbn [map]. rewrite total_lastn_snoc by exact Hs.
    rewrite map_length. fold n. unfold sm.
    transitivity ((sm : R) + value c r).
    { unfold sm. rewrite <- (dollar_value c r Hc). reflexivity. }
    apply f_equal2; [|reflexivity]. unfold sm.
    destruct (Nat.ltb_spec n s) as [L|L].
    - destruct (Z.leb_spec NR (Z.of_nat s)); [|unfold NR in *; lia].
      rewrite S. rewrite lastn_all by (rewrite map_length; fold n; lia). reflexivity.
    - destruct (Z.leb_spec NR (Z.of_nat s)); [unfold NR in *; lia|].
      change (msum st - num (array st (Z.rem NR (Z.of_nat s))))%num
        with ((msum st : R) - (num (array st (Z.rem NR (Z.of_nat s))) : R)).
      rewrite S. apply f_equal2; [reflexivity|].
      assert (E : Z.rem NR (Z.of_nat s) = Z.rem (Z.of_nat (Datatypes.S (n - s))) (Z.of_nat s)).
      { rewrite !Z.rem_mod_nonneg by (unfold NR; lia).
        replace NR with (Z.of_nat (Datatypes.S (n - s)) + 1 * Z.of_nat s)%Z by (unfold NR; lia).
        apply Z.mod_add. lia. }
      rewrite E. rewrite A by lia.
      rewrite (nth_indep _ 0 (value c [])) by (rewrite map_length; fold n; lia).
      rewrite map_nth. reflexivity. }
  destruct (Z.eqb_spec cnt 0) as [B|_]; [lia|].
  eexists. eexists. split; [reflexivity|]. split.
  - split; cbn [array msum mcount].
    + rewrite app_length. cbn [List.length]. fold n. intros j Hj1 Hj2. unfold update.
      destruct (Z.eqb_spec (Z.rem (Z.of_nat (Datatypes.S j)) (Z.of_nat s)) (Z.rem NR (Z.of_nat s))) as [E|E].
      * assert (j = n) as ->.
        { rewrite !Z.rem_mod_nonneg in E by (unfold NR; lia).
          destruct (Nat.eq_dec j n) as [|N]; [assumption|]. exfalso.
          assert (D : (NR = Z.of_nat (Datatypes.S j) + (Z.of_nat n - Z.of_nat j))%Z) by (unfold NR; lia).
          assert (M : ((Z.of_nat n - Z.of_nat j) mod Z.of_nat s = 0)%Z).
          { replace (Z.of_nat n - Z.of_nat j)%Z with (NR - Z.of_nat (Datatypes.S j))%Z by lia.
            rewrite Zminus_mod, E, Z.sub_diag. apply Z.mod_0_l. lia. }
          rewrite Z.mod_small in M by lia. lia. }
        rewrite app_nth2 by (fold n; lia). fold n. rewrite Nat.sub_diag. cbn [nth].
        apply dollar_value. exact Hc.
      * rewrite app_nth1 by (fold n; destruct (Nat.eq_dec j n) as [->|]; [exfalso; apply E; reflexivity|lia]).
        apply A; [destruct (Nat.eq_dec j n) as [->|]; [exfalso; apply E; reflexivity|lia]|lia].
    + exact ES.
    + rewrite app_length. cbn [List.length]. fold n. rewrite EC. f_equal. lia.
  - fold sm. fold cnt. rewrite ES.
    assert (EM : ndiv (n:=RNum) (total (lastn s (map (value c) (pre ++ [r])))) (nofZ cnt) =
                 mean (lastn s (map (value c) (pre ++ [r])))).
    { unfold mean.
      change (total (lastn s (map (value c) (pre ++ [r]))) / IZR cnt =
              total (lastn s (map (value c) (pre ++ [r]))) /
              INR (List.length (lastn s (map (value c) (pre ++ [r]))))).
      apply f_equal. rewrite EC, <- INR_IZR_INZ. apply f_equal. unfold lastn.
      rewrite skipn_length, map_length, app_length. cbn [List.length]. fold n. lia. }
    rewrite EM. exact (line_replaced c _ r Hc).
Qed.

Lemma mavg_loop_ok rs : forall pre st, mavg_good pre st ->
  exists out, mavg_loop (Z.of_nat c) (Z.of_nat s) (Z.of_nat (S (List.length pre))) rs st = (out, true) /\
  List.length out = List.length rs /\
  forall i r line, nth_error rs i = Some r -> nth_error out i = Some line ->
    replaced c (mean (lastn s (map (value c) (pre ++ firstn (S i) rs)))) r line.
Proof.
  induction rs as [|r rs IH]; intros pre st G.
  - exists []. split; [reflexivity|]. split; [reflexivity|]. intros [|i] r line H; discriminate.
  - destruct (mavg_good_step _ _ r G) as (line & st' & E & G' & R).
    destruct (IH _ _ G') as (out & O & L & P). exists (line :: out). cbn [mavg_loop]. rewrite E.
    replace (Z.of_nat (S (List.length pre)) + 1)%Z with (Z.of_nat (S (List.length (pre ++ [r]))))
      by (rewrite app_length; cbn [List.length]; lia).
    rewrite O. split; [reflexivity|]. split; [cbn [List.length]; congruence|].
    intros [|i] r' line' H1 H2; cbn [nth_error] in H1, H2.
    + assert (r' = r) as -> by congruence. assert (line' = line) as -> by congruence. exact R.
    + specialize (P i r' line' H1 H2). rewrite <- app_assoc in P. exact P.
Qed.

End Mavg.

(** * Average and deviation *)

Section Avg.
Variable slt : string -> string -> bool.
Variable num2str : R -> string.
Variable minus_inf plus_inf : string.
Notation inside := (@inside RNum slt num2str minus_inf plus_inf).

(** A row that is not numeric is left out when its text is not above the bound. *)
Definition skipped (r : list rfield) : Prop :=
  slt minus_inf (text 1 r) = false /\ forall x, slt (num2str x) (text 1 r) = false.

Definition usable (a b : option R) (r : list rfield) : Prop :=
  numeric 1 r /\ between a b (value 1 r).

Lemma numeric_dec k r : {numeric k r} + {~ numeric k r}.
Proof.
  unfold numeric. destruct (nth_error r (k - 1)) as [f|]; [|left; exact I].
  destruct (isnum f); [left; reflexivity|right; discriminate].
Qed.

Lemma isnum_numeric k r : (1 <= k)%nat -> isnum (dollar r (Z.of_nat k)) = true -> numeric k r.
Proof.
  intros H. unfold dollar, numeric. replace (Z.to_nat (Z.of_nat k - 1)) with (k - 1)%nat by lia.
  destruct (nth_error r (k - 1)) as [f|] eqn:E; [|auto].
  rewrite (nth_error_nth _ _ _ E). auto.
Qed.

Lemma inside_spec (a b : option R) r : (numeric 1 r \/ skipped r) ->
  inside a b r = true <-> usable a b r.
Proof.
  intros NS. unfold Model.inside, usable.
  destruct (isnum (dollar r 1)) eqn:N.
  - pose proof (isnum_numeric 1 r ltac:(lia) N) as N1. rewrite andb_true_iff.
    pose proof (dollar_value 1 r ltac:(lia)) as V. change (Z.of_nat 1) with 1%Z in V.
    assert (E1 : @above RNum slt num2str minus_inf (dollar r 1) a = true <->
                 match a with Some m => m < value 1 r | None => True end).
    { unfold above. destruct a as [m|]; [|rewrite N; tauto].
      unfold lt. rewrite N. cbn [isnum const andb num].
      change (Rltb m (num (dollar r 1)) = true <-> m < value 1 r).
      rewrite Rltb_true, V. tauto. }
    assert (E2 : @below RNum slt num2str plus_inf (dollar r 1) b = true <->
                 match b with Some m => value 1 r < m | None => True end).
    { unfold below. destruct b as [m|]; [|rewrite N; tauto].
      unfold lt. rewrite N. cbn [isnum const andb num].
      change (Rltb (num (dollar r 1)) m = true <-> value 1 r < m).
      rewrite Rltb_true, V. tauto. }
    unfold between. rewrite E1, E2. tauto.
  - assert (NN : ~ numeric 1 r).
    { intros X. apply (dollar_numeric 1 r ltac:(lia)) in X. change (Z.of_nat 1) with 1%Z in X. congruence. }
    destruct NS as [NS|[S1 S2]]; [contradiction|].
    pose proof (dollar_text 1 r ltac:(lia)) as V. change (Z.of_nat 1) with 1%Z in V.
    assert (E : @above RNum slt num2str minus_inf (dollar r 1) a = false).
    { unfold above. destruct a as [m|].
      - unfold lt. rewrite N, andb_false_r. rewrite V. apply S2.
      - rewrite N, V. exact S1. }
    rewrite E. cbn [andb]. split; [discriminate|tauto].
Qed.

Variable c : nat.
Hypothesis Hc : (1 <= c)%nat.

Lemma select_filter (a b : option R) (rs : table) :
  (forall r, In r rs -> numeric 1 r \/ skipped r) ->
  forall sel, select (usable a b) rs sel -> sel = filter (inside a b) rs.
Proof.
  intros H sel S. induction S as [|r l l' P S IH|r l l' P S IH]; [reflexivity| |].
  - cbn [filter]. rewrite (proj2 (inside_spec a b r (H r (or_introl eq_refl))) P).
    rewrite IH; [reflexivity|]. intros; apply H; right; assumption.
  - cbn [filter]. destruct (inside a b r) eqn:E.
    + apply inside_spec in E; [contradiction|]. apply H. left; reflexivity.
    + apply IH. intros; apply H; right; assumption.
Qed.

Lemma avg_fold (a b : option R) (rs : table) : forall (x : R) (n : Z),
  fold_left (@avg_step RNum slt num2str minus_inf plus_inf (Z.of_nat c) a b) rs ((x : T RNum), n) =
  ((x + total (map (value c) (filter (inside a b) rs)) : T RNum),
   (n + Z.of_nat (List.length (filter (inside a b) rs)))%Z).
Proof.
  induction rs as [|r rs IH]; intros x n.
  - cbn. f_equal; [|lia]. change (x = x + 0). lra.
  - cbn [fold_left filter]. unfold avg_step at 2. destruct (inside a b r).
    + cbn [fst snd].
      change (@nadd RNum) with Rplus.
      assert (E : x + (num (dollar r (Z.of_nat c)) : R) = x + value c r)
        by (rewrite <- (dollar_value c r Hc); reflexivity).
      rewrite E, IH. cbn [map total List.length].
      f_equal; [|lia]. lra.
    + apply IH.
Qed.

Lemma sd_fold (a b : option R) (rs : table) : forall (x y : R) (n : Z),
  fold_left (@sd_step RNum slt num2str minus_inf plus_inf (Z.of_nat c) a b) rs
    ((x : T RNum), (y : T RNum), n) =
  ((x + total (map (value c) (filter (inside a b) rs)) : T RNum),
   (y + total (map (fun r => value c r * value c r) (filter (inside a b) rs)) : T RNum),
   (n + Z.of_nat (List.length (filter (inside a b) rs)))%Z).
Proof.
  induction rs as [|r rs IH]; intros x y n.
  - cbn. f_equal; [f_equal|lia].
    + change (x = x + 0). lra.
    + change (y = y + 0). lra.
  - cbn [fold_left filter]. unfold sd_step at 2. destruct (inside a b r).
    + assert (E : (num (dollar r (Z.of_nat c)) : R) = value c r) by exact (dollar_value c r Hc).
      change (@nadd RNum) with Rplus in *. change (@nmul RNum) with Rmult in *. cbv zeta. rewrite !E, IH.
      cbn [map total List.length].
      f_equal; [f_equal; lra|lia].
    + apply IH.
Qed.

End Avg.
