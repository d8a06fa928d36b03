(** Proofs about vvawk.zeros, vvawk.drv and vvawk.sd. *)

From Coq Require Import List ZArith Bool String Reals Lra Lia Sorted.
From Verif Require Import Base.Num Awk.Model Awk.Spec Awk.Proofs Awk.ProofsAmpl.
Import ListNotations.
Local Open Scope R_scope.

Section Zeros.
Variable slt : string -> string -> bool.
Variable num2str : R -> string.
Variable minus_inf plus_inf : string.
Variable rs : table.
Variable c : nat.
Variable a b : option R.
Hypothesis Hc : (1 <= c)%nat.
Hypothesis Hnum : forall r, In r rs -> numeric 1 r /\ numeric c r.

Notation X := (cellv rs 1).
Notation Y := (cellv rs c).
Notation zeros_row := (@zeros_row RNum slt num2str minus_inf plus_inf).

Lemma lt_zero (f : rfield) : isnum f = true ->
  lt slt f (@const RNum num2str (nofZ 0)) = Rltb (num f) 0 /\
  lt slt (@const RNum num2str (nofZ 0)) f = Rltb 0 (num f) /\
  eq f (@const RNum num2str (nofZ 0)) = Reqb (num f) 0.
Proof. intros F. unfold lt, eq. rewrite F. cbn [isnum const andb]. auto. Qed.

Lemma aabs_abs (f : rfield) : isnum f = true -> (@aabs RNum slt num2str f : R) = Rabs (num f).
Proof.
  intros F. unfold aabs. rewrite (proj1 (lt_zero f F)).
  destruct (Rltb (num f) 0) eqn:E; rbool.
  - rewrite Rabs_left by exact E. reflexivity.
  - rewrite Rabs_right by lra. reflexivity.
Qed.

(** One row, all fields numeric. *)
Lemma zeros_row_ok (xp yp xc yc : rfield) :
  isnum yp = true -> isnum xc = true -> isnum yc = true ->
  ((forall z, ~ In z (zeros_row a b xp yp xc yc)) /\ zeros_row a b xp yp xc yc = [] /\
    ~ (between a b (num xc) /\ ((num yc : R) = 0 \/ (num yp : R) * (num yc : R) < 0))) \/
  (exists z : R, zeros_row a b xp yp xc yc = [(z : T RNum)] /\ between a b (num xc) /\
    (((num yc : R) = 0 /\ z = num xc) \/
     ((num yp : R) * (num yc : R) < 0 /\
      (z - (num xp : R)) * (num yc : R) = (z - (num xc : R)) * (num yp : R) /\
      Rmin (num xp) (num xc) <= z <= Rmax (num xp) (num xc)))).
Proof.
  intros NYP NXC NYC. unfold Model.zeros_row.
  assert (EB : (@above RNum slt num2str minus_inf xc a && @below RNum slt num2str plus_inf xc b)%bool = true <->
               between a b (num xc)).
  { rewrite andb_true_iff. unfold above, below, between, lt. rewrite NXC.
    destruct a as [ma|], b as [mb|]; cbn [isnum const andb num];
      rewrite ?andb_true_r; cbn [andb];
      repeat match goal with |- context [nltb ?p ?q = true] =>
        change (nltb p q = true) with (Rltb p q = true) end; rewrite ?Rltb_true; tauto. }
  destruct (above _ _ _ xc a && below _ _ _ xc b)%bool eqn:B.
  2:{ left. split; [intros z []|]. split; [reflexivity|]. intros [H _]. apply EB in H. discriminate. }
  pose proof (proj1 EB eq_refl) as BT. clear EB.
  destruct (lt_zero yp NYP) as (P1 & P2 & _). destruct (lt_zero yc NYC) as (C1 & C2 & C3).
  rewrite P1, P2, C1, C2, C3, (aabs_abs yp NYP), (aabs_abs yc NYC).
  set (p := num yp : R) in *. set (q := num yc : R) in *.
  set (u := num xp : R) in *. set (v := num xc : R) in *.
  change (@nadd RNum) with Rplus. change (@nmul RNum) with Rmult. change (@ndiv RNum) with Rdiv.
  destruct ((Rltb p 0 && Rltb 0 q) || (Rltb 0 p && Rltb q 0))%bool eqn:E.
  - right. exists ((v * Rabs p + u * Rabs q) / (Rabs p + Rabs q)). split; [reflexivity|].
    split; [exact BT|]. right.
    apply orb_true_iff in E. rewrite !andb_true_iff in E.
    assert (S : (p < 0 /\ 0 < q) \/ (0 < p /\ q < 0)).
    { destruct E as [[E1 E2]|[E1 E2]]; rbool; [left|right]; split; assumption. }
    clear E.
    assert (D : 0 < Rabs p + Rabs q).
    { destruct S as [[S1 S2]|[S1 S2]]; [pose proof (Rabs_pos p)|pose proof (Rabs_pos q)];
        [rewrite (Rabs_right q) by lra|rewrite (Rabs_right p) by lra]; lra. }
    assert (Hp := Rabs_pos p). assert (Hq := Rabs_pos q).
    split; [|split].
    + destruct S as [[S1 S2]|[S1 S2]]; nra.
    + destruct S as [[S1 S2]|[S1 S2]].
      * rewrite (Rabs_left p), (Rabs_right q) in * by lra. field. lra.
      * rewrite (Rabs_right p), (Rabs_left q) in * by lra. field. lra.
    + set (A := Rabs p) in *. set (B' := Rabs q) in *.
      pose proof (Rmin_l u v). pose proof (Rmin_r u v). pose proof (Rmax_l u v). pose proof (Rmax_r u v).
      split.
      * apply Rmult_le_reg_r with (A + B'); [exact D|]. unfold Rdiv.
        rewrite Rmult_assoc, Rinv_l by lra. nra.
      * apply Rmult_le_reg_r with (A + B'); [exact D|]. unfold Rdiv.
        rewrite Rmult_assoc, Rinv_l by lra. nra.
  - apply orb_false_iff in E. rewrite !andb_false_iff in E.
    assert (S : 0 <= p * q).
    { destruct E as [E1 E2]. destruct E1 as [E1|E1], E2 as [E2|E2]; rbool.
      - assert (p = 0) as -> by lra. lra.
      - nra.
      - nra.
      - assert (q = 0) as -> by lra. lra. }
    destruct (Reqb q 0) eqn:Q; rbool.
    + right. exists v. split; [reflexivity|]. split; [exact BT|]. left. auto.
    + left. split; [intros z []|]. split; [reflexivity|]. intros [_ [H|H]]; [contradiction|lra].
Qed.

Definition found (m i : nat) : Prop :=
  (m <= i < List.length rs)%nat /\ between a b (X i) /\ exists z, zero_at rs c i z.

Lemma zero_at_iff i : (exists z, zero_at rs c i z) <->
  Y i = 0 \/ (exists p, i = S p /\ Y p * Y i < 0).
Proof.
  split.
  - intros (z & [(H & _)|(p & E & H & _)]); [left; exact H|right; exists p; auto].
  - intros [H|(p & E & H)].
    + exists (X i). left. auto.
    + assert (D : Y i - Y p <> 0) by (intros D; assert (Y i = Y p) as F by lra; rewrite F in H; nra).
      exists ((X p * Y i - X i * Y p) / (Y i - Y p)). right. exists p. split; [exact E|]. split; [exact H|].
      split; [field; exact D|].
      assert (S : (Y p < 0 /\ 0 < Y i) \/ (0 < Y p /\ Y i < 0)).
      { destruct (Rle_or_lt 0 (Y p)), (Rle_or_lt 0 (Y i)); [nra| | |nra].
        - right. split; [|assumption]. destruct (Req_dec (Y p) 0) as [F|F]; [rewrite F in H; lra|lra].
        - left. split; [assumption|]. destruct (Req_dec (Y i) 0) as [F|F]; [rewrite F in H; lra|lra]. }
      pose proof (Rmin_l (X p) (X i)). pose proof (Rmin_r (X p) (X i)).
      pose proof (Rmax_l (X p) (X i)). pose proof (Rmax_r (X p) (X i)).
      destruct S as [[S1 S2]|[S1 S2]].
      * split; apply Rmult_le_reg_r with (Y i - Y p); try lra; unfold Rdiv;
          rewrite Rmult_assoc, Rinv_l by exact D; nra.
      * replace ((X p * Y i - X i * Y p) / (Y i - Y p)) with ((X i * Y p - X p * Y i) / (Y p - Y i)) by (field; lra).
        split; apply Rmult_le_reg_r with (Y p - Y i); try lra; unfold Rdiv;
          rewrite Rmult_assoc, Rinv_l by lra; nra.
Qed.

Lemma zeros_loop_ok k : forall m (xp yp : rfield), (m + k = List.length rs)%nat ->
  isnum yp = true ->
  (m = 0%nat /\ (num yp : R) = 0 \/
   exists p, m = S p /\ (num xp : R) = X p /\ (num yp : R) = Y p) ->
  exists idx, StronglySorted Peano.lt idx /\ (forall i, In i idx <-> found m i) /\
    Forall2 (zero_at rs c) idx
      (@zeros_loop RNum slt num2str minus_inf plus_inf (Z.of_nat c) a b xp yp (skipn m rs)).
Proof.
  induction k as [|k IH]; intros m xp yp E NY PR.
  - exists []. rewrite skipn_all2 by lia. split; [constructor|]. split; [|constructor].
    intros i. split; [intros []|]. intros ((H & H') & _). lia.
  - rewrite (skipn_nth [] rs m) by lia. cbn [zeros_loop].
    set (r := nth m rs []).
    assert (NR : numeric 1 r /\ numeric c r) by (apply Hnum, nth_In; lia).
    pose proof (dollar_numeric 1 r ltac:(lia) (proj1 NR)) as NX. change (Z.of_nat 1) with 1%Z in NX.
    pose proof (dollar_numeric c r Hc (proj2 NR)) as NYc.
    pose proof (dollar_value 1 r ltac:(lia)) as VX. change (Z.of_nat 1) with 1%Z in VX.
    pose proof (dollar_value c r Hc) as VY.
    destruct (IH (S m) (dollar r 1) (dollar r (Z.of_nat c)) ltac:(lia) NYc) as (idx & S1 & S2 & S3).
    { right. exists m. split; [reflexivity|]. split; [exact VX|exact VY]. }
    change (value 1 r) with (X m) in VX. change (value c r) with (Y m) in VY.
    destruct (zeros_row_ok xp yp (dollar r 1) (dollar r (Z.of_nat c)) NY NX NYc)
      as [(_ & Z1 & Z2)|(z & Z1 & Z2 & Z3)].
    + rewrite Z1. exists idx. split; [exact S1|]. split; [|exact S3].
      intros i. rewrite S2. unfold found. split.
      * intros ((H1 & H2) & H3). split; [lia|exact H3].
      * intros ((H1 & H2) & H3 & H4). split; [|auto].
        destruct (Nat.eq_dec i m) as [->|]; [exfalso|lia].
        apply Z2. rewrite VX, VY. split; [exact H3|]. apply zero_at_iff in H4.
        destruct H4 as [H4|(p & Ep & H4)]; [left; exact H4|right].
        destruct PR as [[M0 _]|(p' & Ep' & _ & Vp)]; [lia|].
        assert (p' = p) as -> by lia. rewrite Vp. exact H4.
    + rewrite Z1. exists (m :: idx). cbn [app]. rewrite VX, VY in *. split; [|split].
      * constructor; [exact S1|]. apply Forall_forall. intros i Hi. apply S2 in Hi.
        destruct Hi as ((H1 & H2) & _). lia.
      * assert (ZA : zero_at rs c m z).
        { destruct Z3 as [[Z3 Z4]|(Z3 & Z4 & Z5)]; [left; auto|right].
          destruct PR as [[_ M0]|(p & Ep & Vx & Vy)]; [exfalso; rewrite M0 in Z3; lra|].
          rewrite Vx, Vy in *. exists p. auto. }
        intros i. cbn [In]. rewrite S2. unfold found. split.
        -- intros [<-|((H1 & H2) & H3)]; [|split; [lia|exact H3]].
           split; [lia|]. split; [exact Z2|]. exists z. exact ZA.
        -- intros ((H1 & H2) & H3). destruct (Nat.eq_dec m i) as [->|]; [left; reflexivity|right].
           split; [lia|exact H3].
      * constructor; [|exact S3].
        destruct Z3 as [[Z3 Z4]|(Z3 & Z4 & Z5)]; [left; auto|right].
        destruct PR as [[_ M0]|(p & Ep & Vx & Vy)]; [exfalso; rewrite M0 in Z3; lra|].
        rewrite Vx, Vy in *. exists p. auto.
Qed.

End Zeros.

(** * Derivative *)

Lemma drv_loop_ok (c : nat) (d : R) : (1 <= c)%nat -> forall (rs : table) (yp : rfield),
  List.length (@drv_loop RNum (Z.of_nat c) d yp rs) = List.length rs /\
  forall i r line, nth_error rs i = Some r -> nth_error (@drv_loop RNum (Z.of_nat c) d yp rs) i = Some line ->
    replaced c ((value c r - match i with O => (num yp : R) | S j => cellv rs c j end) / d) r line.
Proof.
  intros Hc. induction rs as [|r rs IH]; intros yp.
  - split; [reflexivity|]. intros [|i] r line H; discriminate.
  - cbn [drv_loop List.length]. destruct (IH (dollar r (Z.of_nat c))) as [L P]. split; [congruence|].
    intros [|i] r' line H1 H2; cbn [nth_error] in H1, H2.
    + assert (r' = r) as -> by congruence.
      assert (line = drv_line (K:=RNum) (Z.of_nat c) d yp r) as -> by congruence.
      unfold drv_line. rewrite <- (dollar_value c r Hc). apply line_replaced. exact Hc.
    + specialize (P i r' line H1 H2). destruct i as [|i]; [|exact P].
      rewrite (dollar_value c r Hc) in P. exact P.
Qed.

(** * Deviation *)

Definition square (x : R) : R := x * x.
Lemma total_square (l : list R) (m : R) :
  total (map (fun x => square (x - m)) l) =
  total (map square l) - 2 * m * total l + INR (List.length l) * (m * m).
Proof.
  induction l as [|x l IH]; [cbn; lra|]. cbn [map total List.length]. rewrite IH, S_INR.
  unfold square. lra.
Qed.
Lemma variance (l : list R) : l <> [] ->
  mean (map square l) - square (mean l) = mean (map (fun x => square (x - mean l)) l).
Proof.
  intros H. assert (N : 0 < INR (List.length l)) by (destruct l; [congruence|apply lt_0_INR; cbn; lia]).
  assert (T : total l = mean l * INR (List.length l)) by (unfold mean; field; lra).
  unfold mean at 1 3. rewrite !map_length, total_square, T. unfold square at 2.
  set (m := mean l). set (q := total (map square l)). field. lra.
Qed.
