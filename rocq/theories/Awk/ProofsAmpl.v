(** Proofs about vvawk.ampl. *)

From Coq Require Import List ZArith Bool String Reals Lra Lia Sorted.
From Verif Require Import Base.Num Awk.Model Awk.Spec Awk.Proofs.
Import ListNotations.
Local Open Scope R_scope.

Lemma seq_sorted n : forall a, StronglySorted Peano.lt (seq a n).
Proof.
  induction n as [|n IH]; intros a; cbn [seq]; [constructor|]. constructor; [apply IH|].
  apply Forall_forall. intros x H. apply in_seq in H. lia.
Qed.
Lemma filter_sorted {A} (R : A -> A -> Prop) f l : StronglySorted R l -> StronglySorted R (filter f l).
Proof.
  induction 1 as [|a l S IH F]; cbn [filter]; [constructor|]. destruct (f a); [|exact IH].
  constructor; [exact IH|]. rewrite Forall_forall in *. intros x H. apply F.
  apply filter_In in H. tauto.
Qed.

Section Ampl.
Variable slt : string -> string -> bool.
Variable num2str : R -> string.
Variable minus_inf plus_inf : string.

(** * Odd spans *)

Section Odd.
Variable c span : Z.
Variable a b : option R.
Hypothesis Hodd : Z.odd span = true.

Lemma centre2_odd NR : Z.even (centre2 NR span) = false.
Proof.
  unfold centre2. rewrite <- Z.negb_odd. apply negb_false_iff.
  assert (E : (Z.rem (2 * NR - span) (2 * span) =
    span - 2 * span * Z.quot (2 * NR - span) (2 * span) + 2 * (NR - span))%Z).
  { pose proof (Z.quot_rem' (2 * NR - span) (2 * span)). lia. }
  rewrite E, Z.odd_add, Z.odd_sub, Hodd, !Z.odd_mul. cbn [Z.odd andb xorb].
  reflexivity.
Qed.

Lemma ampl_odd_step NR r (st : @ampl_state RNum) :
  (smin st : R) = 0 -> (smax st : R) = 0 ->
  let s' := match @ampl_step RNum slt num2str minus_inf plus_inf c span a b NR r st with
            | Next s | Exit s => s end in
  (smin s' : R) = 0 /\ (smax s' : R) = 0.
Proof.
  intros H1 H2. unfold ampl_step. cbn [ax ay smin smax nmin nmax].
  destruct (NR <? span)%Z; [split; assumption|].
  unfold element. rewrite centre2_odd.
  match goal with |- context [if ?t then Next _ else _] => destruct t end; [split; assumption|].
  match goal with |- context [if ?t then Exit _ else _] => destruct t end; [split; assumption|].
  destruct (extremum _ _ _ _) as [i j]. cbn [smin smax num unset].
  change (@nadd RNum) with Rplus. change (@nofZ RNum 0) with 0. rewrite H1, H2.
  split; [destruct i|destruct j]; lra.
Qed.

Lemma ampl_odd_loop rs : forall NR (st : @ampl_state RNum), (smin st : R) = 0 -> (smax st : R) = 0 ->
  let s' := @ampl_loop RNum slt num2str minus_inf plus_inf c span a b NR rs st in
  (smin s' : R) = 0 /\ (smax s' : R) = 0.
Proof.
  induction rs as [|r rs IH]; intros NR st H1 H2; cbn [ampl_loop]; [split; assumption|].
  pose proof (ampl_odd_step NR r st H1 H2) as [E1 E2].
  destruct (@ampl_step RNum slt num2str minus_inf plus_inf c span a b NR r st).
  - exact (IH _ _ E1 E2).
  - split; assumption.
Qed.

End Odd.

(** * Even spans *)

Section Even.
Variable rs : table.
Variable c h : nat.
Variable a b : option R.
Hypothesis Hc : (1 <= c)%nat.
Hypothesis Hh : (1 <= h)%nat.
Hypothesis Hnum : forall r, In r rs -> numeric 1 r /\ numeric c r.

Notation X := (cellv rs 1).
Notation Y := (cellv rs c).
Definition row i := nth i rs [].
Definition span := (2 * h)%nat.

Lemma row_numeric i : numeric 1 (row i) /\ numeric c (row i).
Proof.
  unfold row. destruct (nth_in_or_default i rs []) as [H| ->]; [exact (Hnum _ H)|].
  unfold numeric. destruct c as [|[|k]]; cbn; auto.
Qed.

(** The fields of a row compare as its numbers. *)
Lemma y_field i : isnum (dollar (row i) (Z.of_nat c)) = true /\
  (num (dollar (row i) (Z.of_nat c)) : R) = Y i.
Proof.
  split; [apply dollar_numeric; [exact Hc|exact (proj2 (row_numeric i))]|].
  exact (dollar_value c (row i) Hc).
Qed.
Lemma x_field i : isnum (dollar (row i) 1) = true /\ (num (dollar (row i) 1) : R) = X i.
Proof.
  split; [apply (dollar_numeric 1); [lia|exact (proj1 (row_numeric i))]|].
  exact (dollar_value 1 (row i) ltac:(lia)).
Qed.

Lemma lt_numbers (f g : rfield) : isnum f = true -> isnum g = true ->
  lt slt f g = Rltb (num f) (num g).
Proof. intros F G. unfold lt. rewrite F, G. reflexivity. Qed.

(** ** What is counted *)

Definition low i : bool := match a with Some m => Rltb (X i) m | None => false end.
Definition high i : bool := match b with Some m => Rltb m (X i) | None => false end.
Definition cons_b i : bool :=
  negb (low i) && forallb (fun j => negb (high j)) (seq (h - 1) (i + 2 - h)).
Definition min_b i : bool := forallb (fun j => Rleb (Y i) (Y j)) (seq (i + 1 - h) span).
Definition max_b i : bool := forallb (fun j => Rleb (Y j) (Y i)) (seq (i + 1 - h) span).
Definition centres m := seq (h - 1) (m + 1 - span).
Definition mins m := filter (fun i => cons_b i && min_b i) (centres m).
Definition maxs m := filter (fun i => cons_b i && max_b i) (centres m).

(** ** The buffer *)

Definition key (j : nat) : Z := Z.rem (Z.of_nat (S j)) (Z.of_nat span).

Definition holds (m : nat) (arr : Z -> rfield) (f : nat -> rfield) : Prop :=
  forall j, (j < m)%nat -> (m <= j + span)%nat -> arr (key j) = f j.

Lemma span_pos : (2 <= span)%nat. Proof. unfold span. lia. Qed.

Lemma key_eq i j : (i < j + span)%nat -> (j < i + span)%nat -> key i = key j -> i = j.
Proof.
  unfold key. pose proof span_pos. intros H1 H2 E.
  rewrite !Z.rem_mod_nonneg in E by lia.
  destruct (Nat.eq_dec i j) as [|N]; [assumption|]. exfalso.
  assert (M : ((Z.of_nat i - Z.of_nat j) mod Z.of_nat span = 0)%Z).
  { replace (Z.of_nat i - Z.of_nat j)%Z with (Z.of_nat (S i) - Z.of_nat (S j))%Z by lia.
    rewrite Zminus_mod, E, Z.sub_diag. apply Z.mod_0_l. lia. }
  destruct (Nat.lt_ge_cases j i) as [L|L].
  - rewrite Z.mod_small in M by lia. lia.
  - assert (M' : ((Z.of_nat j - Z.of_nat i) mod Z.of_nat span = 0)%Z).
    { replace (Z.of_nat j - Z.of_nat i)%Z with (- (Z.of_nat i - Z.of_nat j))%Z by lia.
      apply Z.mod_opp_l_z; lia. }
    rewrite Z.mod_small in M' by lia. lia.
Qed.

Lemma holds_update m arr f : holds m arr f -> holds (S m) (update arr (key m) (f m)) f.
Proof.
  intros H j Hj1 Hj2. unfold update. destruct (Z.eqb_spec (key j) (key m)) as [E|E].
  - apply key_eq in E; [congruence|lia|lia].
  - assert (j <> m) by congruence. apply H; lia.
Qed.

(** Every index of the buffer belongs to a row of the window. *)
Lemma key_onto m i : (span <= m)%nat -> (i < span)%nat ->
  exists j, (j < m)%nat /\ (m <= j + span)%nat /\ key j = Z.of_nat i.
Proof.
  intros Hm Hi. pose proof span_pos.
  set (d := ((Z.of_nat m - Z.of_nat i) mod Z.of_nat span)%Z).
  assert (Hd : (0 <= d < Z.of_nat span)%Z) by (apply Z.mod_pos_bound; lia).
  exists (Z.to_nat (Z.of_nat m - d) - 1)%nat.
  assert (P : (1 <= Z.of_nat m - d)%Z) by lia.
  split; [lia|]. split; [lia|]. unfold key.
  replace (Z.of_nat (S (Z.to_nat (Z.of_nat m - d) - 1))) with (Z.of_nat m - d)%Z by lia.
  rewrite Z.rem_mod_nonneg by lia.
  unfold d. rewrite Zminus_mod_idemp_r.
  replace (Z.of_nat m - (Z.of_nat m - Z.of_nat i))%Z with (Z.of_nat i) by lia.
  apply Z.mod_small. lia.
Qed.

Lemma key_range j : (0 <= key j < Z.of_nat span)%Z.
Proof.
  pose proof span_pos. unfold key. rewrite Z.rem_mod_nonneg by lia. apply Z.mod_pos_bound. lia.
Qed.

(** ** One window *)

(** After [m] rows the centre is row [m - h - 1]. *)
Lemma centre2_key m : (span <= m)%nat ->
  centre2 (Z.of_nat m) (Z.of_nat span) = (2 * key (m - h - 1))%Z.
Proof.
  intros Hm. pose proof span_pos. unfold centre2, key.
  rewrite !Z.rem_mod_nonneg by (unfold span in *; lia).
  replace (2 * Z.of_nat m - Z.of_nat span)%Z with (2 * Z.of_nat (S (m - h - 1)))%Z
    by (unfold span in *; lia).
  apply Z.mul_mod_distr_l; lia.
Qed.
Lemma element_key (arr : Z -> rfield) j : element arr (2 * key j) = arr (key j).
Proof.
  unfold element. rewrite Z.even_mul. cbn [Z.even orb].
  replace (2 * key j / 2)%Z with (key j); [reflexivity|].
  rewrite Z.mul_comm, Z.div_mul; lia.
Qed.

Definition yf i : rfield := dollar (row i) (Z.of_nat c).
Definition xf i : rfield := dollar (row i) 1.

Lemma extremum_fold (y : Z -> rfield) c2 (l : list nat) : forall s,
  fold_left (fun s i =>
    if (2 * Z.of_nat i =? c2)%Z then s else
    (fst s && negb (lt slt (y (Z.of_nat i)) (element y c2)),
     snd s && negb (lt slt (element y c2) (y (Z.of_nat i))))) l s =
  (fst s && forallb (fun i => (2 * Z.of_nat i =? c2)%Z || negb (lt slt (y (Z.of_nat i)) (element y c2))) l,
   snd s && forallb (fun i => (2 * Z.of_nat i =? c2)%Z || negb (lt slt (element y c2) (y (Z.of_nat i)))) l).
Proof.
  induction l as [|i l IH]; intros [p q]; cbn [fold_left forallb fst snd]; [rewrite !andb_true_r; reflexivity|].
  rewrite IH. destruct (2 * Z.of_nat i =? c2)%Z; cbn [orb andb fst snd]; [reflexivity|].
  rewrite <- !andb_assoc. reflexivity.
Qed.

Lemma bool_iff (p q : bool) : (p = true <-> q = true) -> p = q.
Proof. destruct p, q; intros [A B]; try reflexivity; [symmetry; apply A|apply B]; reflexivity. Qed.

Lemma extremum_window m (y : Z -> rfield) : (span <= m)%nat -> holds m y yf ->
  extremum slt y (Z.of_nat span) (2 * key (m - h - 1)) =
  (min_b (m - h - 1), max_b (m - h - 1)).
Proof.
  intros Hm H. unfold extremum. rewrite Nat2Z.id. cbv zeta.
  rewrite extremum_fold. cbn [fst snd andb].
  set (i0 := (m - h - 1)%nat).
  assert (EC : element y (2 * key i0) = yf i0).
  { rewrite element_key. apply H; unfold i0, span in *; lia. }
  rewrite EC. destruct (y_field i0) as [N0 V0].
  apply f_equal2; apply bool_iff; unfold min_b, max_b; rewrite !forallb_forall; split.
  - intros F j Hj. apply in_seq in Hj.
    assert (J : (j < m /\ m <= j + span)%nat) by (unfold i0, span in *; lia).
    pose proof (key_range j) as KR. specialize (F (Z.to_nat (key j))).
    rewrite Z2Nat.id in F by lia. specialize (F ltac:(apply in_seq; lia)).
    destruct (y_field j) as [Nj Vj].
    destruct (Z.eqb_spec (2 * key j) (2 * key i0)) as [E|E].
    + assert (key j = key i0) as E' by lia. apply key_eq in E'; [|unfold i0, span in *; lia|unfold i0, span in *; lia].
      subst j. apply Rleb_true. lra.
    + cbn [orb] in F. rewrite (H j) in F by (apply J).
      rewrite lt_numbers in F by assumption. rewrite negb_true_iff in F.
      apply Rltb_false in F. apply Rleb_true. unfold yf in F. rewrite <- V0, <- Vj. exact F.
  - intros F i Hi. apply in_seq in Hi.
    destruct (key_onto m i Hm ltac:(lia)) as (j & J1 & J2 & J3). rewrite <- J3.
    destruct (Z.eqb_spec (2 * key j) (2 * key i0)) as [E|E]; [reflexivity|]. cbn [orb].
    rewrite (H j J1 J2). destruct (y_field j) as [Nj Vj].
    rewrite lt_numbers by assumption. rewrite negb_true_iff. apply Rltb_false.
    specialize (F j ltac:(apply in_seq; unfold i0, span in *; lia)). apply Rleb_true in F.
    unfold yf. rewrite V0, Vj. exact F.
  - intros F j Hj. apply in_seq in Hj.
    assert (J : (j < m /\ m <= j + span)%nat) by (unfold i0, span in *; lia).
    pose proof (key_range j) as KR. specialize (F (Z.to_nat (key j))).
    rewrite Z2Nat.id in F by lia. specialize (F ltac:(apply in_seq; lia)).
    destruct (y_field j) as [Nj Vj].
    destruct (Z.eqb_spec (2 * key j) (2 * key i0)) as [E|E].
    + assert (key j = key i0) as E' by lia. apply key_eq in E'; [|unfold i0, span in *; lia|unfold i0, span in *; lia].
      subst j. apply Rleb_true. lra.
    + cbn [orb] in F. rewrite (H j) in F by (apply J).
      rewrite lt_numbers in F by assumption. rewrite negb_true_iff in F.
      apply Rltb_false in F. apply Rleb_true. unfold yf in F. rewrite <- V0, <- Vj. exact F.
  - intros F i Hi. apply in_seq in Hi.
    destruct (key_onto m i Hm ltac:(lia)) as (j & J1 & J2 & J3). rewrite <- J3.
    destruct (Z.eqb_spec (2 * key j) (2 * key i0)) as [E|E]; [reflexivity|]. cbn [orb].
    rewrite (H j J1 J2). destruct (y_field j) as [Nj Vj].
    rewrite lt_numbers by assumption. rewrite negb_true_iff. apply Rltb_false.
    specialize (F j ltac:(apply in_seq; unfold i0, span in *; lia)). apply Rleb_true in F.
    unfold yf. rewrite V0, Vj. exact F.
Qed.

(** ** The loop *)

Definition counted (m : nat) (st : @ampl_state RNum) : Prop :=
  (smin st : R) = total (map Y (mins m)) /\ (smax st : R) = total (map Y (maxs m)) /\
  nmin st = Z.of_nat (List.length (mins m)) /\ nmax st = Z.of_nat (List.length (maxs m)).

Record ampl_good (m : nat) (st : @ampl_state RNum) : Prop := {
  gx : holds m (ax st) xf;
  gy : holds m (ay st) yf;
  gc : counted m st;
  gn : forall j, In j (centres m) -> high j = true -> low j = true }.

Lemma centres_small m : (m < span)%nat -> centres m = [].
Proof. intros H. unfold centres. replace (m + 1 - span)%nat with 0%nat by lia. reflexivity. Qed.
Lemma centres_S m : (span <= S m)%nat -> centres (S m) = centres m ++ [(m - h)%nat].
Proof.
  intros H. unfold centres. replace (S m + 1 - span)%nat with (S (m + 1 - span)) by lia.
  rewrite seq_S. do 2 f_equal. unfold span in *. lia.
Qed.

(** A row considered: in the range, none before it beyond. *)
Lemma cons_now m : (span <= S m)%nat ->
  (forall j, In j (centres m) -> high j = true -> low j = true) ->
  low (m - h) = false -> high (m - h) = false -> cons_b (m - h) = true.
Proof.
  intros Hm G L Hi. unfold cons_b. rewrite L. cbn [negb andb]. apply forallb_forall.
  intros j Hj. apply in_seq in Hj. apply negb_true_iff.
  destruct (high j) eqn:E; [exfalso|reflexivity].
  destruct (Nat.eq_dec j (m - h)) as [->|N]; [congruence|].
  assert (I : In j (centres m)) by (apply in_seq; unfold span in *; lia).
  specialize (G j I E). unfold low, high in *.
  destruct a as [ma|]; [|discriminate]. destruct b as [mb|]; [|discriminate].
  rbool. lra.
Qed.

(** Nothing is considered after a row beyond the range. *)
Lemma cons_after i j : (h <= i + 1)%nat -> (i <= j)%nat -> high i = true -> cons_b j = false.
Proof.
  intros Hi Hj E. unfold cons_b.
  assert (F : forallb (fun j => negb (high j)) (seq (h - 1) (j + 2 - h)) = false).
  { destruct (forallb _ _) eqn:F; [|reflexivity]. rewrite forallb_forall in F.
    specialize (F i ltac:(apply in_seq; lia)). rewrite E in F. discriminate. }
  rewrite F. apply andb_false_r.
Qed.

Lemma filter_none {A} (f : A -> bool) l : (forall x, In x l -> f x = false) -> filter f l = [].
Proof.
  induction l as [|x l IH]; intros H; [reflexivity|]. cbn [filter].
  rewrite (H x (or_introl eq_refl)). apply IH. intros; apply H; right; assumption.
Qed.

Lemma ampl_step_ok m st : ampl_good m st ->
  match @ampl_step RNum slt num2str minus_inf plus_inf (Z.of_nat c) (Z.of_nat span) a b
          (Z.of_nat (S m)) (row m) st with
  | Next st' => ampl_good (S m) st'
  | Exit st' => forall n, (S m <= n)%nat -> counted n st'
  end.
Proof.
  intros [GX GY GC GN]. unfold ampl_step. cbn [ax ay smin smax nmin nmax].
  change (Z.rem (Z.of_nat (S m)) (Z.of_nat span)) with (key m).
  change (dollar (row m) (Z.of_nat c)) with (yf m). change (dollar (row m) 1) with (xf m).
  pose proof (holds_update _ _ _ GX) as GX'. pose proof (holds_update _ _ _ GY) as GY'.
  set (x := update (ax st) (key m) (xf m)) in *. set (y := update (ay st) (key m) (yf m)) in *.
  destruct (Z.ltb_spec (Z.of_nat (S m)) (Z.of_nat span)) as [L|L].
  { split; cbn [ax ay]; [exact GX'|exact GY'| |].
    - destruct GC as (C1 & C2 & C3 & C4). unfold counted, mins, maxs in *. cbn [smin smax nmin nmax].
      rewrite centres_small in * by lia. auto.
    - rewrite centres_small by lia. intros j []. }
  assert (Hm : (span <= S m)%nat) by lia.
  rewrite centre2_key by exact Hm. replace (S m - h - 1)%nat with (m - h)%nat by lia.
  set (i0 := (m - h)%nat).
  assert (EX : element x (2 * key i0) = xf i0).
  { rewrite element_key. apply GX'; unfold i0, span in *; lia. }
  assert (EY : element y (2 * key i0) = yf i0).
  { rewrite element_key. apply GY'; unfold i0, span in *; lia. }
  rewrite EX, EY. destruct (x_field i0) as [NX VX]. destruct (y_field i0) as [NY VY].
  assert (EL : (match a with
      | Some m => lt slt (xf i0) (@const RNum num2str m)
      | None => if isnum (xf i0) then false else slt (txt (xf i0)) minus_inf end) = low i0).
  { unfold low. destruct a as [ma|].
    - rewrite lt_numbers by (exact NX || reflexivity). unfold xf. rewrite VX. reflexivity.
    - unfold xf. rewrite NX. reflexivity. }
  assert (EH : (match b with
      | Some m => lt slt (@const RNum num2str m) (xf i0)
      | None => if isnum (xf i0) then false else slt plus_inf (txt (xf i0)) end) = high i0).
  { unfold high. destruct b as [mb|].
    - rewrite lt_numbers by (exact NX || reflexivity). unfold xf. rewrite VX. reflexivity.
    - unfold xf. rewrite NX. reflexivity. }
  match goal with |- context [if ?t then Next _ else _] =>
    replace t with (low i0) by (symmetry; exact EL) end.
  match goal with |- context [if ?t then Exit _ else _] =>
    replace t with (high i0) by (symmetry; exact EH) end.
  destruct GC as (C1 & C2 & C3 & C4).
  destruct (low i0) eqn:Lo.
  { split; cbn [ax ay]; [exact GX'|exact GY'| |].
    - unfold counted, mins, maxs in *. cbn [smin smax nmin nmax]. rewrite centres_S by exact Hm.
      rewrite !filter_app. fold i0. cbn [filter].
      assert (CB : cons_b i0 = false) by (unfold cons_b; rewrite Lo; reflexivity).
      rewrite CB. cbn [andb]. rewrite !app_nil_r. auto.
    - rewrite centres_S by exact Hm. intros j Hj Ej. apply in_app_or in Hj.
      destruct Hj as [Hj|[<-|[]]]; [exact (GN j Hj Ej)|exact Lo]. }
  destruct (high i0) eqn:Hi.
  { intros n Hn. unfold counted. cbn [smin smax nmin nmax].
    assert (EN : forall f, filter (fun i => cons_b i && f i) (centres n) =
                           filter (fun i => cons_b i && f i) (centres m)).
    { intros f. unfold centres.
      replace (n + 1 - span)%nat with ((m + 1 - span) + (n - m))%nat by lia.
      rewrite seq_app, filter_app.
      rewrite (filter_none _ (seq _ (n - m))); [apply app_nil_r|].
      intros j Hj. apply in_seq in Hj.
      rewrite (cons_after i0 j); [reflexivity|unfold i0, span in *; lia| |exact Hi].
      unfold i0, span in *; lia. }
    unfold mins, maxs in *. rewrite !EN. auto. }
  pose proof (extremum_window (S m) y Hm GY') as EE.
  replace (S m - h - 1)%nat with i0 in EE by (unfold i0; lia). rewrite EE.
  assert (CB : cons_b i0 = true) by (apply cons_now; assumption).
  assert (VY' : (num (yf i0) : R) = Y i0) by exact VY.
  split; cbn [ax ay]; [exact GX'|exact GY'| |].
  - unfold counted, mins, maxs in *. cbn [smin smax nmin nmax]. rewrite centres_S by exact Hm.
    rewrite !filter_app. fold i0. cbn [filter]. rewrite CB. cbn [andb].
    rewrite !map_app, !total_app, !app_length.
    change (@nadd RNum) with Rplus.
    repeat split; [destruct (min_b i0)|destruct (max_b i0)|destruct (min_b i0)|destruct (max_b i0)];
      cbn [map total List.length]; rewrite ?C1, ?C2, ?C3, ?C4, ?VY'; try lra; lia.
  - rewrite centres_S by exact Hm. intros j Hj Ej. apply in_app_or in Hj.
    destruct Hj as [Hj|[<-|[]]]; [exact (GN j Hj Ej)|]. fold i0 in Ej. congruence.
Qed.

Lemma ampl_loop_ok k : forall m st, ampl_good m st -> (m + k = List.length rs)%nat ->
  counted (List.length rs)
    (@ampl_loop RNum slt num2str minus_inf plus_inf (Z.of_nat c) (Z.of_nat span) a b
       (Z.of_nat (S m)) (skipn m rs) st).
Proof.
  induction k as [|k IH]; intros m st G E.
  - rewrite skipn_all2 by lia. cbn [ampl_loop]. replace (List.length rs) with m by lia. exact (gc _ _ G).
  - rewrite (skipn_nth [] rs m) by lia. cbn [ampl_loop]. fold (row m).
    pose proof (ampl_step_ok m st G) as S.
    destruct (@ampl_step RNum slt num2str minus_inf plus_inf (Z.of_nat c) (Z.of_nat span) a b
      (Z.of_nat (Datatypes.S m)) (row m) st).
    + replace (Z.of_nat (Datatypes.S m) + 1)%Z with (Z.of_nat (Datatypes.S (Datatypes.S m))) by lia.
      apply IH; [exact S|lia].
    + apply S. lia.
Qed.

Lemma ampl_good_start : ampl_good 0 ampl_start.
Proof.
  pose proof span_pos. split; cbn [ax ay ampl_start].
  - intros j Hj; lia.
  - intros j Hj; lia.
  - unfold counted, mins, maxs. rewrite centres_small by lia. repeat split.
  - rewrite centres_small by lia. intros j [].
Qed.

(** ** The lists are those of the specification *)

Lemma centre_in i : In i (centres (List.length rs)) <-> centre h (List.length rs) i.
Proof. unfold centres, centre, span. rewrite in_seq. lia. Qed.

Lemma cons_spec i : In i (centres (List.length rs)) -> (cons_b i = true <-> considered rs h a b i).
Proof.
  intros I. unfold cons_b, considered. rewrite andb_true_iff, forallb_forall.
  apply centre_in in I. split.
  - intros [L F]. split; [exact I|]. split.
    + unfold low in L. destruct a as [ma|]; [|exact Logic.I]. apply negb_true_iff in L. rbool. exact L.
    + unfold high in F. destruct b as [mb|]; [|exact Logic.I]. intros j [J1 J2] J3.
      specialize (F j ltac:(apply in_seq; unfold centre in *; lia)). apply negb_true_iff in F. rbool. exact F.
  - intros (_ & L & F). split.
    + unfold low. destruct a as [ma|]; [|reflexivity]. apply negb_true_iff, Rltb_false. exact L.
    + intros j Hj. apply in_seq in Hj. unfold high. destruct b as [mb|]; [|reflexivity].
      apply negb_true_iff, Rltb_false. apply F; unfold centre in *; lia.
Qed.
Lemma min_spec i : (h <= i + 1)%nat -> (min_b i = true <-> minimum rs c h i).
Proof.
  intros H. unfold min_b, minimum. rewrite forallb_forall. split.
  - intros F j [J1 J2]. apply Rleb_true. apply F. apply in_seq. unfold span. lia.
  - intros F j Hj. apply in_seq in Hj. apply Rleb_true. apply F. unfold window, span in *. lia.
Qed.
Lemma max_spec i : (h <= i + 1)%nat -> (max_b i = true <-> maximum rs c h i).
Proof.
  intros H. unfold max_b, maximum. rewrite forallb_forall. split.
  - intros F j [J1 J2]. apply Rleb_true. apply F. apply in_seq. unfold span. lia.
  - intros F j Hj. apply in_seq in Hj. apply Rleb_true. apply F. unfold window, span in *. lia.
Qed.

Lemma mins_rows : rows_with (fun i => considered rs h a b i /\ minimum rs c h i) (mins (List.length rs)).
Proof.
  split; [apply filter_sorted, seq_sorted|]. intros i. unfold mins. rewrite filter_In, andb_true_iff. split.
  - intros (I & C & M). pose proof (proj1 (centre_in i) I) as [I1 _].
    split; [apply cons_spec; assumption|apply min_spec; assumption].
  - intros [C M]. pose proof (proj1 C) as I. split; [apply centre_in; exact I|].
    split; [apply cons_spec; [apply centre_in; exact I|exact C]|apply min_spec; [exact (proj1 I)|exact M]].
Qed.
Lemma maxs_rows : rows_with (fun i => considered rs h a b i /\ maximum rs c h i) (maxs (List.length rs)).
Proof.
  split; [apply filter_sorted, seq_sorted|]. intros i. unfold maxs. rewrite filter_In, andb_true_iff. split.
  - intros (I & C & M). pose proof (proj1 (centre_in i) I) as [I1 _].
    split; [apply cons_spec; assumption|apply max_spec; assumption].
  - intros [C M]. pose proof (proj1 C) as I. split; [apply centre_in; exact I|].
    split; [apply cons_spec; [apply centre_in; exact I|exact C]|apply max_spec; [exact (proj1 I)|exact M]].
Qed.

End Even.
End Ampl.
