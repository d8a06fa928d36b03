(** Properties C41, C42, C88 and C89: the awk scripts. *)

From Coq Require Import List ZArith Bool String Reals Lra Lia Sorted.
From Flocq Require Import IEEE754.BinarySingleNaN.
From Verif Require Import Base.Num Awk.Model Awk.Spec Awk.Proofs Awk.ProofsAmpl Awk.ProofsZeros.
Import ListNotations.
Local Open Scope R_scope.

(** * C41: moving average, average and deviation *)

Theorem C41_mavg : forall col span c s (rs : table),
  chosen col 2 c -> chosen span 20 s -> (1 <= c)%nat -> (1 <= s)%nat ->
  exists out, mavg (K:=RNum) col span rs = (out, true) /\ List.length out = List.length rs /\
  forall n r line, nth_error rs n = Some r -> nth_error out n = Some line ->
    replaced c (mean (lastn s (map (value c) (firstn (S n) rs)))) r line.
Proof.
  intros col span c s rs C S Hc Hs. unfold mavg.
  rewrite (zvar_chosen col 2 c C : zvar col 2 = _), (zvar_chosen span 20 s S : zvar span 20 = _).
  exact (mavg_loop_ok c s Hc Hs rs [] mavg_start (mavg_good_start c s Hc Hs)).
Qed.

Section Order.
(** Any order of texts and any way to write numbers. *)
Variable slt : string -> string -> bool.
Variable num2str : R -> string.
Variable minus_inf plus_inf : string.

(** A heading: a first field that is not a number and that is below all of them. *)
Definition heading (r : list rfield) : Prop :=
  ~ numeric 1 r /\ slt minus_inf (text 1 r) = false /\ forall x, slt (num2str x) (text 1 r) = false.

(** Bounds other than 0. *)
Definition nonzero (a : option R) : Prop := a <> Some 0.

Lemma kvar_nonzero (a : option R) : nonzero a -> @kvar RNum a = a.
Proof.
  destruct a as [m|]; intros N; [|reflexivity]. unfold kvar.
  destruct (neqb (n:=RNum) m (nofZ 0)) eqn:E; [|reflexivity].
  exfalso. apply N. f_equal. apply Reqb_true. exact E.
Qed.

Lemma select_exists {A} (P : A -> Prop) (l : list A) : (forall x, {P x} + {~ P x}) ->
  exists l', select P l l'.
Proof.
  intros D. induction l as [|x l [l' IH]]; [exists []; constructor|].
  destruct (D x); [exists (x :: l')|exists l']; constructor; assumption.
Qed.

Theorem C41_avg_partial : forall col c a b (rs : table) sel,
  chosen col 2 c -> (1 <= c)%nat -> nonzero a -> nonzero b ->
  (forall r, In r rs -> numeric 1 r \/ heading r) ->
  select (fun r => numeric 1 r /\ between a b (value 1 r)) rs sel ->
  avg (K:=RNum) slt num2str minus_inf plus_inf col a b rs =
  Some (mean0 (map (value c) sel)).
Proof.
  intros col c a b rs sel C Hc Na Nb H S. unfold avg.
  rewrite (zvar_chosen col 2 c C : zvar col 2 = _), !kvar_nonzero by assumption.
  destruct (Z.ltb_spec (Z.of_nat c) 0) as [B|_]; [lia|]. cbn [andb].
  change (@nofZ RNum 0) with 0. rewrite (avg_fold slt num2str minus_inf plus_inf c Hc a b rs 0 0).
  assert (E : sel = filter (@Model.inside RNum slt num2str minus_inf plus_inf a b) rs).
  { apply (select_filter slt num2str minus_inf plus_inf a b rs); [|exact S].
    intros r I. destruct (H r I) as [N|[N [N1 N2]]]; [left; exact N|right; split; assumption]. }
  rewrite <- E. f_equal. rewrite Rplus_0_l. destruct sel as [|r sel].
  - cbn. reflexivity.
  - destruct (Z.ltb_spec 0 (0 + Z.of_nat (List.length (r :: sel)))) as [L|L]; [|cbn in L; lia].
    unfold mean0. cbn [map]. unfold mean. cbn [List.length]. rewrite map_length.
    change (@ndiv RNum) with Rdiv. apply f_equal.
    rewrite Z.add_0_l. change (@nofZ RNum) with IZR. rewrite <- INR_IZR_INZ. reflexivity.
Qed.

(** The root of the mean square of the deviations. *)
Definition deviation (l : list R) : R := sqrt (mean0 (map (fun x => (x - mean l) * (x - mean l)) l)).

Theorem C41_sd_partial : forall col c a b (rs : table) sel,
  chosen col 2 c -> (1 <= c)%nat -> nonzero a -> nonzero b ->
  (forall r, In r rs -> numeric 1 r \/ heading r) ->
  select (fun r => numeric 1 r /\ between a b (value 1 r)) rs sel ->
  sd (K:=RNum) slt num2str minus_inf plus_inf col a b rs =
  Some (deviation (map (value c) sel)).
Proof.
  intros col c a b rs sel C Hc Na Nb H S. unfold sd.
  rewrite (zvar_chosen col 2 c C : zvar col 2 = _), !kvar_nonzero by assumption.
  destruct (Z.ltb_spec (Z.of_nat c) 0) as [B|_]; [lia|]. cbn [andb].
  change (@nofZ RNum 0) with 0. rewrite (sd_fold slt num2str minus_inf plus_inf c Hc a b rs 0 0 0).
  assert (E : sel = filter (@Model.inside RNum slt num2str minus_inf plus_inf a b) rs).
  { apply (select_filter slt num2str minus_inf plus_inf a b rs); [|exact S].
    intros r I. destruct (H r I) as [N|[N [N1 N2]]]; [left; exact N|right; split; assumption]. }
  rewrite <- E, !Rplus_0_l, Z.add_0_l. f_equal. unfold deviation.
  change (@nsqrt RNum) with sqrt. apply f_equal. destruct sel as [|r sel].
  - cbn. change (0 * 0 - 0 * 0 * (0 * 0) = 0). lra.
  - cbv zeta. set (l := map (value c) (r :: sel)).
    transitivity (mean (map square l) - square (mean l)).
    + unfold mean, square, l. rewrite map_map, !map_length.
      change (@ndiv RNum) with Rdiv. change (@nofZ RNum) with IZR. change (@nmul RNum) with Rmult.
      change (@nsub RNum) with Rminus. rewrite <- INR_IZR_INZ.
      match goal with |- context [Z.ltb 0 ?z] => replace (Z.ltb 0 z) with true
        by (symmetry; apply Z.ltb_lt; cbn [List.length]; lia) end.
      assert (F : forall (u v : R) (k : nat), k <> 0%nat ->
        v * (1 / INR k) - u * (1 / INR k) * (u * (1 / INR k)) = v / INR k - u / INR k * (u / INR k)).
      { intros u v k Hk. field. apply not_0_INR. exact Hk. }
      exact (F _ _ (Datatypes.S (List.length sel)) ltac:(discriminate)).
    + rewrite variance by discriminate. reflexivity.
Qed.

(** A bound of 0 is taken for none: with [xmin = 0] a row at [x = -1] counts. *)
Theorem C41_zero_bound_refuted :
  ~ forall col c a b (rs : table) sel,
    chosen col 2 c -> (1 <= c)%nat ->
    (forall r, In r rs -> numeric 1 r) ->
    select (fun r => numeric 1 r /\ between a b (value 1 r)) rs sel ->
    avg (K:=RNum) slt num2str minus_inf plus_inf col a b rs = Some (mean0 (map (value c) sel)).
Proof.
  intros H.
  pose (r := [mkField (K:=RNum) "-1" (-1) true; mkField (K:=RNum) "6" 6 true]).
  specialize (H None 2%nat (Some 0) None [r] []).
  assert (E : avg (K:=RNum) slt num2str minus_inf plus_inf None (Some 0) None [r] = Some 6).
  { assert (Q : @kvar RNum (Some 0) = None).
    { unfold kvar. change (neqb (n:=RNum) 0 (nofZ 0)) with (Reqb 0 0).
      rewrite (proj2 (Reqb_true 0 0) eq_refl). reflexivity. }
    assert (Q' : avg (K:=RNum) slt num2str minus_inf plus_inf None (Some 0) None [r] =
                 avg (K:=RNum) slt num2str minus_inf plus_inf None None None [r])
      by (unfold avg; rewrite Q; reflexivity).
    transitivity (Some (mean0 (map (value 2) [r]))).
    2:{ f_equal. cbn. unfold mean. cbn. field. }
    rewrite Q'. apply C41_avg_partial.
    - left; auto.
    - lia.
    - discriminate.
    - discriminate.
    - intros q [<-|[]]. left. reflexivity.
    - constructor; [|constructor]. split; [reflexivity|split; exact I]. }
  assert (F : Some 6 = Some 0).
  { transitivity (avg (K:=RNum) slt num2str minus_inf plus_inf None (Some 0) None [r]); [symmetry; exact E|].
    apply H; [left; auto|lia| |].
    - intros q [<-|[]]. reflexivity.
    - apply sel_out; [|constructor]. intros [_ [L _]]. cbn in L. lra. }
  injection F. lra.
Qed.

(** * C42: the amplitude *)

(** An even span [2h]: the mean of the maxima of the windows less that of the minima. *)
Theorem C42_even_partial : forall col span c h a b (rs : table) (maxima minima : list nat),
  chosen col 2 c -> (1 <= c)%nat -> span = Some (2 * Z.of_nat h)%Z -> (1 <= h)%nat ->
  nonzero a -> nonzero b ->
  (forall r, In r rs -> numeric 1 r /\ numeric c r) ->
  rows_with (fun i => considered rs h a b i /\ maximum rs c h i) maxima ->
  rows_with (fun i => considered rs h a b i /\ minimum rs c h i) minima ->
  ampl (K:=RNum) slt num2str minus_inf plus_inf col span a b rs =
  Some (mean0 (map (cellv rs c) maxima) - mean0 (map (cellv rs c) minima)).
Proof.
  intros col span c h a b rs maxima minima C Hc -> Hh Na Nb N MX MN. unfold ampl.
  rewrite (zvar_chosen col 2 c C : zvar col 2 = _), !kvar_nonzero by assumption.
  destruct (Z.ltb_spec (Z.of_nat c) 0) as [B|_]; [lia|]. cbn [andb].
  assert (ES : zvar (Some (2 * Z.of_nat h)%Z) 5 = Z.of_nat (ProofsAmpl.span h)).
  { unfold ProofsAmpl.span. cbn [zvar]. destruct (Z.eqb_spec (2 * Z.of_nat h) 0); lia. }
  rewrite ES.
  pose proof (ampl_loop_ok slt num2str minus_inf plus_inf rs c h a b Hc Hh N (List.length rs) 0 ampl_start
    (ampl_good_start rs c h a b Hc Hh) eq_refl) as G.
  change (Z.of_nat 1) with 1%Z in G. change (skipn 0 rs) with rs in G.
  set (st := ampl_loop _ _ _ _ _ _ _ _ _ rs ampl_start) in *.
  destruct G as (G1 & G2 & G3 & G4).
  assert (U : forall P l l', rows_with P l -> rows_with P l' -> l = l').
  { clear. intros P l l' [S1 I1] [S2 I2].
    assert (I : forall x, In x l <-> In x l') by (intros; rewrite I1, I2; tauto). clear I1 I2.
    revert l' S2 I. induction S1 as [|x l S1 IH F1]; intros l' S2 I.
    - destruct l' as [|y l']; [reflexivity|]. destruct (proj2 (I y) (or_introl eq_refl)).
    - destruct S2 as [|y l' S2 F2]; [destruct (proj1 (I x) (or_introl eq_refl))|].
      rewrite Forall_forall in F1, F2.
      assert (x = y) as ->.
      { destruct (proj1 (I x) (or_introl eq_refl)) as [|Hx]; [auto|].
        destruct (proj2 (I y) (or_introl eq_refl)) as [|Hy]; [auto|].
        specialize (F1 y Hy). specialize (F2 x Hx). lia. }
      f_equal. apply IH; [exact S2|]. intros z. split; intros Hz.
      + destruct (proj1 (I z) (or_intror Hz)) as [<-|]; [|assumption]. specialize (F1 _ Hz). lia.
      + destruct (proj2 (I z) (or_intror Hz)) as [<-|]; [|assumption]. specialize (F2 _ Hz). lia. }
  pose proof (U _ _ _ MX (maxs_rows rs c h a b Hc Hh)) as ->.
  pose proof (U _ _ _ MN (mins_rows rs c h a b Hc Hh)) as ->.
  f_equal.
  assert (M : forall (l : list nat) (s : R) n, s = total (map (cellv rs c) l) -> n = Z.of_nat (List.length l) ->
    (if (0 <? n)%Z then ndiv (n:=RNum) s (nofZ n) else nofZ 0) = mean0 (map (cellv rs c) l)).
  { intros l s n -> ->. destruct l as [|x l].
    - reflexivity.
    - destruct (Z.ltb_spec 0 (Z.of_nat (List.length (x :: l)))) as [L|L]; [|cbn in L; lia].
      unfold mean0. cbn [map]. unfold mean. cbn [List.length]. rewrite map_length.
      change (@ndiv RNum) with Rdiv. apply f_equal.
      change (@nofZ RNum) with IZR. rewrite <- INR_IZR_INZ. reflexivity. }
  rewrite (M _ _ _ G2 G4), (M _ _ _ G1 G3). reflexivity.
Qed.

(** An odd span, so also the default: 0 is printed whatever the table. *)
Theorem C42_odd_refuted : forall col span a b (rs : table),
  (span = None \/ exists n, span = Some n /\ Z.odd n = true) -> (col = None \/ exists c, col = Some c /\ (0 <= c)%Z) ->
  ampl (K:=RNum) slt num2str minus_inf plus_inf col span a b rs = Some 0.
Proof.
  intros col span a b rs S C. unfold ampl.
  assert (C' : (zvar col 2 <? 0)%Z = false).
  { destruct C as [->|(c & -> & Hc)]; [reflexivity|]. cbn [zvar].
    destruct (Z.eqb_spec c 0); [reflexivity|]. apply Z.ltb_ge. exact Hc. }
  rewrite C'. cbn [andb].
  assert (O : Z.odd (zvar span 5) = true).
  { destruct S as [->|(n & -> & Hn)]; [reflexivity|]. cbn [zvar].
    destruct (Z.eqb_spec n 0); [reflexivity|exact Hn]. }
  destruct (ampl_odd_loop slt num2str minus_inf plus_inf (zvar col 2) (zvar span 5) (@kvar RNum a) (@kvar RNum b)
    O rs 1 ampl_start eq_refl eq_refl) as [E1 E2].
  set (st := ampl_loop _ _ _ _ _ _ _ _ _ rs ampl_start) in *.
  rewrite E1, E2. f_equal.
  change (@ndiv RNum) with Rdiv. change (@nsub RNum) with Rminus. change (@nofZ RNum 0) with 0.
  unfold Rdiv. rewrite !Rmult_0_l. destruct (0 <? nmax st)%Z, (0 <? nmin st)%Z; lra.
Qed.

(** * C88: zeros *)

(** One zero for each row inside the range where the sign changes or the value
    vanishes, in the order of the rows, none else. *)
Theorem C88_zeros_partial : forall col c a b (rs : table),
  chosen col 2 c -> (1 <= c)%nat -> nonzero a -> nonzero b ->
  (forall r, In r rs -> numeric 1 r /\ numeric c r) ->
  exists idx out, zeros (K:=RNum) slt num2str minus_inf plus_inf col a b rs = Some out /\
    rows_with (fun i => (i < List.length rs)%nat /\ between a b (cellv rs 1 i) /\
                        exists z, zero_at rs c i z) idx /\
    Forall2 (zero_at rs c) idx out.
Proof.
  intros col c a b rs C Hc Na Nb N. unfold zeros.
  rewrite (zvar_chosen col 2 c C : zvar col 2 = _), !kvar_nonzero by assumption.
  destruct (Z.ltb_spec (Z.of_nat c) 0) as [B|_]; [lia|]. cbn [andb].
  destruct (zeros_loop_ok slt num2str minus_inf plus_inf rs c a b Hc N (List.length rs) 0 unset
    (@const RNum num2str (nofZ 0)) eq_refl eq_refl (or_introl (conj eq_refl eq_refl))) as (idx & S1 & S2 & S3).
  exists idx. eexists. split; [reflexivity|]. split; [|exact S3]. split; [exact S1|].
  intros i. rewrite S2. unfold found. intuition lia.
Qed.

(** A zero can lie outside the range: only the second row of a pair is looked at. *)
Theorem C88_range_refuted :
  ~ forall col a b (rs : table) out z,
    (forall r, In r rs -> numeric 1 r /\ numeric 2 r) -> nonzero a -> nonzero b -> col = None ->
    zeros (K:=RNum) slt num2str minus_inf plus_inf col a b rs = Some out -> In z out -> between a b z.
Proof.
  intros H.
  pose (f := fun x : R => mkField (K:=RNum) "" x true).
  pose (rs := [[f 0; f (-1)]; [f 4; f 1]]).
  destruct (C88_zeros_partial None 2 (Some 3) None rs (or_introl (conj eq_refl eq_refl)) ltac:(lia)
    ltac:(unfold nonzero; intros E; injection E; lra) ltac:(discriminate)) as (idx & out & E & [_ W] & F).
  { intros r [<-|[<-|[]]]; split; reflexivity. }
  assert (I : In 1%nat idx).
  { apply W. split; [cbn; lia|]. split; [split; [cbn; lra|exact I]|].
    exists 2. right. exists 0%nat. cbn. repeat split; try lra;
      [unfold Rmin; destruct (Rle_dec 0 4); lra|unfold Rmax; destruct (Rle_dec 0 4); lra]. }
  assert (Z : exists z, In z out /\ zero_at rs 2 1 z).
  { clear - F I. induction F as [|i z idx out Z F IH]; [destruct I|].
    destruct I as [->|I]; [exists z; split; [left; reflexivity|exact Z]|].
    destruct (IH I) as (z' & Hz & Z'). exists z'. split; [right; exact Hz|exact Z']. }
  destruct Z as (z & Hz & Z).
  assert (B : between (Some 3) None z).
  { apply (H None (Some 3) None rs out z); try reflexivity; try assumption.
    - intros r [<-|[<-|[]]]; split; reflexivity.
    - intros X; injection X; lra.
    - discriminate. }
  destruct B as [B _]. destruct Z as [[Z _]|(p & Ep & _ & Z & _)]; [cbn in Z; lra|].
  assert (p = 0%nat) as -> by lia. cbn in Z. lra.
Qed.

(** A heading above a negative value makes a zero where there is none. *)
Theorem C88_heading_refuted : forall label,
  slt (num2str 0) label = true -> slt label (num2str 0) = false ->
  let f := fun x : R => mkField (K:=RNum) "" x true in
  zeros (K:=RNum) slt num2str minus_inf plus_inf None None None
    [[mkField (K:=RNum) "#time" 0 false; mkField (K:=RNum) label 0 false]; [f 5; f (-1)]; [f 6; f (-2)]] = 
  Some ((if slt minus_inf "#time" && slt "#time" plus_inf && String.eqb label (num2str 0) then [0] else []) ++ [0]).
Proof.
  intros label L1 L2 f.
  set (z := @const RNum num2str 0).
  set (hx := mkField (K:=RNum) "#time" 0 false). set (hy := mkField (K:=RNum) label 0 false).
  transitivity (Some
    (@zeros_row RNum slt num2str minus_inf plus_inf None None unset z hx hy ++
     @zeros_row RNum slt num2str minus_inf plus_inf None None hx hy (f 5) (f (-1)) ++
     @zeros_row RNum slt num2str minus_inf plus_inf None None (f 5) (f (-1)) (f 6) (f (-2)) ++ []));
    [reflexivity|].
  f_equal. subst z hx hy.
  assert (LT : forall x y : R, x < y -> Rltb x y = true) by (intros; apply Rltb_true; assumption).
  assert (GE : forall x y : R, y <= x -> Rltb x y = false) by (intros; apply Rltb_false; assumption).
  unfold zeros_row, aabs, above, below, lt, eq. cbn [isnum num txt const andb]. unfold f.
  cbn [isnum num txt const andb]. change (@nofZ RNum 0) with 0.
  change (@nltb RNum) with Rltb. change (@neqb RNum) with Reqb.
  rewrite L1, L2, (GE 0 0), (LT (-1) 0), (GE 0 (-1)), (LT (-2) 0), (GE 0 (-2)) by lra.
  rewrite (proj2 (Reqb_false (-2) 0)) by lra. cbn [andb orb app].
  change (@ndiv RNum) with Rdiv. change (@nadd RNum) with Rplus. change (@nmul RNum) with Rmult.
  change (@nopp RNum) with Ropp.
  assert (V : (5 * 0 + 0 * - (-1)) / (0 + - (-1)) = 0) by field.
  rewrite V. destruct (slt minus_inf "#time"), (slt "#time" plus_inf); cbn [andb app]; try reflexivity.
Qed.

End Order.

(** * C89: differences *)

(** One line for each row but the first: the difference to the row before, all
    other columns as they are. *)
Theorem C89_drv : forall col c (div : option R) (d : R) (rs : table),
  chosen col 2 c -> (1 <= c)%nat ->
  (div = None /\ d = 1 \/ div = Some d /\ d <> 0) ->
  exists out, drv (K:=RNum) col div rs = Some out /\ List.length out = (List.length rs - 1)%nat /\
  forall n line, nth_error out n = Some line ->
    replaced c ((cellv rs c (S n) - cellv rs c n) / d) (nth (S n) rs []) line.
Proof.
  intros col c div d rs C Hc D. unfold drv.
  rewrite (zvar_chosen col 2 c C : zvar col 2 = _).
  assert (ED : (match @kvar RNum div with Some d => d | None => @nofZ RNum 1 end) = d).
  { destruct D as [[-> ->]|[-> N]]; [reflexivity|]. rewrite (kvar_nonzero (Some d)); [reflexivity|].
    unfold nonzero. congruence. }
  destruct rs as [|r rs].
  - exists []. split; [reflexivity|]. split; [reflexivity|]. intros [|n] line H; discriminate.
  - destruct (Z.ltb_spec (Z.of_nat c) 0) as [B|_]; [lia|].
    destruct (drv_loop_ok c d Hc rs (dollar r (Z.of_nat c))) as [L P].
    eexists. split; [rewrite <- ED; reflexivity|]. rewrite ED.
    split; [rewrite L; cbn [List.length]; lia|].
    intros n line H. assert (Hn : (n < List.length rs)%nat).
    { rewrite <- L. apply nth_error_Some. congruence. }
    pose proof (nth_error_nth' rs [] Hn) as E. specialize (P n _ line E H).
    cbn [nth]. unfold cellv at 1. cbn [nth].
    replace (cellv (r :: rs) c n) with (match n with O => (num (dollar r (Z.of_nat c)) : R) | S j => cellv rs c j end);
      [exact P|]. destruct n; [exact (dollar_value c r Hc)|reflexivity].
Qed.

(** So their sum is the whole change. *)
Corollary C89_total : forall (c : nat) (rs : table) (d : R), d <> 0 -> rs <> [] ->
  total (map (fun n => (cellv rs c (S n) - cellv rs c n) / d) (seq 0 (List.length rs - 1))) =
  (cellv rs c (List.length rs - 1) - cellv rs c 0) / d.
Proof.
  intros c rs d D N. set (m := (List.length rs - 1)%nat). clearbody m. clear N.
  induction m as [|m IH]; [cbn [seq map total]; field; exact D|].
  rewrite seq_S, map_app, total_app, IH. cbn [map total]. rewrite Nat.add_0_l. field. exact D.
Qed.

(** * Doubles *)

(** The sum carries rounding errors along: after 1e16, 1, 1 the mean of the last
    two is printed as 1/2. *)
Theorem C41_double_refuted :
  let f := fun x : f64 => mkField (K:=F64) "" x true in
  let row := fun x : f64 => [f (f64_ofZ 0); f x] in
  let out := fst (mavg (K:=F64) None (Some 2%Z) [row (f64_ofZ (10 ^ 16)); row (f64_ofZ 1); row (f64_ofZ 1)]) in
  match nth 2 out [] with [Text _; Number x] => Beqb x (f64_dec 5 1) | _ => false end = true.
Proof. vm_compute. reflexivity. Qed.

(** The deviation of three equal values is not a number. *)
Theorem C41_sd_double_refuted :
  let f := fun x : f64 => mkField (K:=F64) "" x true in
  let row := [f (f64_ofZ 0); f (f64_dec 13 1)] in
  match sd (K:=F64) (fun _ _ => false) (fun _ => ""%string) "" "" None None None [row; row; row] with
  | Some x => is_nan x | None => false end = true.
Proof. vm_compute. reflexivity. Qed.

(** ** Concrete cases *)

Definition ex_row (x y : R) : list rfield := [mkField (K:=RNum) "x" x true; mkField (K:=RNum) "y" y true; mkField (K:=RNum) "last" 0 false].

(** Rows 1, 5, 3, 7 with span 2: 1, 3, 4, 5. *)
Example C41_ex : exists out,
  mavg (K:=RNum) None (Some 2%Z) [ex_row 0 1; ex_row 1 5; ex_row 2 3; ex_row 3 7] = (out, true) /\
  nth_error out 3 = Some [Text "x"; Number (5 : T RNum); Text "last"] /\
  nth_error out 0 = Some [Text "x"; Number (1 : T RNum); Text "last"].
Proof.
  set (rs := [ex_row 0 1; ex_row 1 5; ex_row 2 3; ex_row 3 7]).
  assert (C : chosen None 2 2) by (left; split; reflexivity).
  assert (D : chosen (Some 2%Z) 20 2) by (right; split; [reflexivity|discriminate]).
  pose proof (C41_mavg None (Some 2%Z) 2 2 rs C D (le_S _ _ (le_n 1)) (le_S _ _ (le_n 1))) as M.
  assert (L4 : List.length rs = 4%nat) by reflexivity.
  assert (N0 : nth_error rs 0 = Some (ex_row 0 1)) by reflexivity.
  assert (N3 : nth_error rs 3 = Some (ex_row 3 7)) by reflexivity.
  assert (M0 : mean (lastn 2 (map (value 2) (firstn 1 rs))) = 1) by (unfold mean; cbn; field).
  assert (M3 : mean (lastn 2 (map (value 2) (firstn 4 rs))) = 5) by (unfold mean; cbn; field).
  clearbody rs. destruct M as (out & E & L & P). exists out. split; [exact E|].
  assert (V : forall n x y v, nth_error rs n = Some (ex_row x y) ->
    mean (lastn 2 (map (value 2) (firstn (S n) rs))) = v ->
    nth_error out n = Some [Text "x"; Number (v : T RNum); Text "last"]).
  { intros n x y v Hr Hv. assert (Hn : (n < List.length rs)%nat) by (apply nth_error_Some; rewrite Hr; discriminate).
    destruct (nth_error out n) as [line|] eqn:El; [|apply nth_error_None in El; lia].
    destruct (P n _ line Hr El) as [PL PI]. rewrite Hv in PI. cbn [List.length ex_row Nat.max] in PL.
    assert (H1 : (1 <= 1 <= 3)%nat) by lia. assert (H2 : (1 <= 2 <= 3)%nat) by lia. assert (H3 : (1 <= 3 <= 3)%nat) by lia.
    destruct line as [|l1 [|l2 [|l3 [|]]]]; try discriminate. f_equal.
    pose proof (PI 1%nat H1) as Q1; pose proof (PI 2%nat H2) as Q2; pose proof (PI 3%nat H3) as Q3.
    cbn in Q1, Q2, Q3. congruence. }
  split; [exact (V 3%nat 3 7 5 N3 M3)|exact (V 0%nat 0 1 1 N0 M0)].
Qed.

(** Rows 0, 3, 1, 2, -4, 0 in windows of 2: the maxima are 3 and 2, the minima 1 and -4
    (row i against row i+1). *)
Example C42_ex : forall slt num2str,
  let rs := [ex_row 0 0; ex_row 1 3; ex_row 2 1; ex_row 3 2; ex_row 4 (-4); ex_row 5 0] in
  ampl (K:=RNum) slt num2str "" "" None (Some 2%Z) None None rs = Some ((3 + 2) / 2 - (0 + 1 + -4) / 3) /\
  ampl (K:=RNum) slt num2str "" "" None None None None rs = Some 0.
Proof.
  intros slt num2str rs. split; [|apply C42_odd_refuted; auto].
  etransitivity; [apply (C42_even_partial slt num2str "" "" None (Some 2%Z) 2 1 None None rs [1; 3]%nat [0; 2; 4]%nat)|].
  - left; auto.
  - lia.
  - reflexivity.
  - lia.
  - discriminate.
  - discriminate.
  - intros r Hr. cbn in Hr. repeat (destruct Hr as [<-|Hr]; [split; reflexivity|]). destruct Hr.
  - split; [repeat constructor; lia|]. intros i. unfold considered, centre, maximum, window.
    split.
    + intros H. assert (Hi : i = 1%nat \/ i = 3%nat) by (cbn in H; intuition). clear H.
      split; [cbn; intuition lia|]. intros j [J1 J2].
      assert (j = i \/ j = S i) as [->| ->] by lia; [lra|].
      destruct Hi as [->| ->]; cbn; lra.
    + intros [[[H1 H2] _] F]. cbn in H2. assert (Hi : (i < 5)%nat) by lia.
      assert (Q : cellv rs 2 (S i) <= cellv rs 2 i) by (apply F; lia).
      destruct i as [|[|[|[|[|i]]]]]; [cbn in Q; lra|left; reflexivity|cbn in Q; lra|right; left; reflexivity|cbn in Q; lra|lia].
  - split; [repeat constructor; lia|]. intros i. unfold considered, centre, minimum, window. split.
    + intros H. assert (Hi : i = 0%nat \/ i = 2%nat \/ i = 4%nat) by (cbn in H; intuition). clear H.
      split; [cbn; intuition lia|]. intros j [J1 J2].
      assert (j = i \/ j = S i) as [->| ->] by lia; [lra|].
      destruct Hi as [->|[->| ->]]; cbn; lra.
    + intros [[[H1 H2] _] F]. cbn in H2. assert (Hi : (i < 5)%nat) by lia.
      assert (Q : cellv rs 2 i <= cellv rs 2 (S i)) by (apply F; lia).
      destruct i as [|[|[|[|[|i]]]]]; [left; reflexivity|cbn in Q; lra|right; left; reflexivity|cbn in Q; lra|right; right; left; reflexivity|lia].
  - f_equal. unfold mean0, mean. cbn. f_equal; field.
Qed.

(** A line from -1 at x=0 to 3 at x=4, then 0: the zeros are 1 and 5. *)
Example C88_ex : zero_at [ex_row 0 (-1); ex_row 4 3; ex_row 5 0] 2 1 1 /\
  zero_at [ex_row 0 (-1); ex_row 4 3; ex_row 5 0] 2 2 5.
Proof.
  split.
  - right. exists 0%nat. cbn. repeat split; try lra;
      [unfold Rmin; destruct (Rle_dec 0 4); lra|unfold Rmax; destruct (Rle_dec 0 4); lra].
  - left. cbn. lra.
Qed.

(** Rows 1, 5, 3 divided by 2: 2 and -1. *)
Example C89_ex :
  let rs := [ex_row 0 1; ex_row 1 5; ex_row 2 3] in
  drv (K:=RNum) None (Some 2) rs =
    Some [[Text "x"; Number ((5 - 1) / 2 : T RNum); Text "last"]; [Text "x"; Number ((3 - 5) / 2 : T RNum); Text "last"]] /\
  total [(5 - 1) / 2; (3 - 5) / 2] = (3 - 1) / 2.
Proof.
  intros rs. split; [|cbn; field].
  assert (Q : @kvar RNum (Some 2) = Some 2) by (apply kvar_nonzero; unfold nonzero; intros E; injection E; lra).
  unfold drv. rewrite Q. reflexivity.
Qed.

Print Assumptions C41_mavg.
Print Assumptions C41_avg_partial.
Print Assumptions C41_sd_partial.
Print Assumptions C41_zero_bound_refuted.
Print Assumptions C41_double_refuted.
Print Assumptions C41_sd_double_refuted.
Print Assumptions C42_even_partial.
Print Assumptions C42_odd_refuted.
Print Assumptions C88_zeros_partial.
Print Assumptions C88_range_refuted.
Print Assumptions C88_heading_refuted.
Print Assumptions C89_drv.
Print Assumptions C89_total.
