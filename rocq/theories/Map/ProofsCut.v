(** The cut of the stream function behind a source. *)

From Coq Require Import List Reals ZArith Lra Psatz Bool Arith Lia Permutation.
From Verif.Base Require Import Num.
From Verif.Body Require Import Model.
From Verif.Vortex Require Import Model.
From Verif.Map Require Import Model Spec ProofsAngle ProofsStream ProofsFlow.
Import ListNotations.
Local Open Scope R_scope.

(** ** Angles seen *)

Section F.
Variable f : R -> R -> R.
Hypothesis P : principal f.

Lemma seen_diff : forall (a b : rvec) k, (x a <> 0 \/ y a <> 0) -> (x b <> 0 \/ y b <> 0) ->
  (k = 0 \/ k = 2 * PI) ->
  - PI < f (y b) (x b) - f (y a) (x a) - k < PI ->
  seen a b (f (y b) (x b) - f (y a) (x a) - k).
Proof.
  intros a b k Na Nb K B. destruct (P (y a) (x a) Na) as [_ [Xa Ya]]. destruct (P (y b) (x b) Nb) as [_ [Xb Yb]].
  set (A := f (y a) (x a)) in *. set (C := f (y b) (x b)) in *.
  set (ma := sqrt (x a * x a + y a * y a)) in *. set (mb := sqrt (x b * x b + y b * y b)) in *.
  assert (Ec : cos (C - A - k) = cos (C - A)).
  { destruct K as [-> | ->]; [rewrite Rminus_0_r; reflexivity |]. rewrite cos_minus, cos_2PI, sin_2PI. ring. }
  assert (Es : sin (C - A - k) = sin (C - A)).
  { destruct K as [-> | ->]; [rewrite Rminus_0_r; reflexivity |]. rewrite sin_minus, cos_2PI, sin_2PI. ring. }
  split; [exact B |]. fold ma mb. rewrite Ec, Es, cos_minus, sin_minus. rewrite Xa, Ya, Xb, Yb. split; ring.
Qed.
Lemma seen_back : forall a b t, seen a b t -> seen b a (- t).
Proof.
  intros a b t [B [C S]]. split; [lra |]. rewrite cos_neg, sin_neg. change (T RNum) with R in *. split; lra.
Qed.

Lemma PI4 : 0 < PI. Proof. exact PI_RGT_0. Qed.

(** A step upwards; the cut is crossed on the left. *)
Definition crosses (X Ya Yb : R) : bool := if Rlt_dec X 0 then if Rlt_dec Ya 0 then if Rle_dec 0 Yb then true else false else false else false.
Lemma seen_up : forall X Ya Yb, Ya < Yb -> ~ (X = 0 /\ Ya <= 0 <= Yb) ->
  seen (V X Ya) (V X Yb) (f Yb X - f Ya X - (if crosses X Ya Yb then 2 * PI else 0)).
Proof.
  intros X Ya Yb L N. pose proof PI4.
  apply (seen_diff (V X Ya) (V X Yb)); cbn [x y].
  - destruct (Req_dec X 0); [right; intro; apply N; split; lra | left; assumption].
  - destruct (Req_dec X 0); [right; intro; apply N; split; lra | left; assumption].
  - destruct (crosses X Ya Yb); [right | left]; reflexivity.
  - unfold crosses. destruct (Rlt_dec X 0) as [HX | HX].
    + destruct (Rlt_dec Ya 0) as [Ha | Ha].
      * pose proof (range_left_down f P Ya X HX Ha). destruct (Rle_dec 0 Yb) as [Hb | Hb].
        -- pose proof (range_left_up f P Yb X HX Hb). lra.
        -- assert (Hb' : Yb < 0) by lra. pose proof (range_left_down f P Yb X HX Hb'). lra.
      * assert (Ha' : 0 <= Ya) by lra. assert (Hb' : 0 <= Yb) by lra.
        pose proof (range_left_up f P Ya X HX Ha'). pose proof (range_left_up f P Yb X HX Hb'). lra.
    + destruct (Req_dec X 0) as [-> | Z].
      * destruct (range_zero f P Ya) as [A1 A2]. destruct (range_zero f P Yb) as [B1 B2].
        destruct (Rlt_dec 0 Ya) as [Ha | Ha]; [rewrite A1, B1 by lra; lra |].
        destruct (Rlt_dec Yb 0) as [Hb | Hb]; [rewrite A2, B2 by lra; lra |].
        exfalso. apply N. lra.
      * assert (HX' : 0 < X) by lra. pose proof (range_right f P Ya X HX'). pose proof (range_right f P Yb X HX'). lra.
Qed.
(** A step to the side. *)
Lemma seen_side : forall Y Xa Xb, Xa < Xb -> ~ (Y = 0 /\ Xa <= 0 <= Xb) ->
  seen (V Xa Y) (V Xb Y) (f Y Xb - f Y Xa - 0).
Proof.
  intros Y Xa Xb L N. pose proof PI4.
  apply (seen_diff (V Xa Y) (V Xb Y)); cbn [x y].
  - destruct (Req_dec Y 0); [left; intro; apply N; split; lra | right; assumption].
  - destruct (Req_dec Y 0); [left; intro; apply N; split; lra | right; assumption].
  - left; reflexivity.
  - destruct (Rlt_dec 0 Y) as [HY | HY].
    + pose proof (range_up f P Y Xa HY). pose proof (range_up f P Y Xb HY). lra.
    + destruct (Rlt_dec Y 0) as [HY' | HY'].
      * pose proof (range_down f P Y Xa HY'). pose proof (range_down f P Y Xb HY'). lra.
      * assert (Y = 0) by lra. subst Y.
        destruct (Rlt_dec 0 Xa) as [Ha | Ha].
        -- assert (Hb : 0 < Xb) by lra. pose proof (range_right f P 0 Xa Ha). pose proof (range_right f P 0 Xb Hb). lra.
        -- destruct (Rlt_dec Xb 0) as [Hb | Hb]; [| exfalso; apply N; lra].
           assert (Ha' : Xa < 0) by lra. rewrite (f_left f P Xa Ha'), (f_left f P Xb Hb). lra.
Qed.
End F.

(** ** The gaps *)

Lemma total_perm : forall {A} (g : A -> R) l m, Permutation l m -> total g l = total g m.
Proof. intros A g l m H. induction H; cbn [total]; lra. Qed.
Lemma total_zero : forall {A} (g : A -> R) l, (forall a, In a l -> g a = 0) -> total g l = 0.
Proof. intros A g l. induction l as [| a l IH]; intro H; cbn [total]; [reflexivity |]. rewrite (H a (or_introl eq_refl)), IH; [ring | intros; apply H; right; assumption]. Qed.
Lemma total_one : forall {A} (g : A -> R) l c, NoDup l -> In c l -> (forall a, In a l -> a <> c -> g a = 0) -> total g l = g c.
Proof.
  intros A g l c ND. induction ND as [| a l Na ND IH]; intros I Z; [contradiction |]. cbn [total].
  destruct I as [-> | I].
  - rewrite total_zero; [ring |]. intros b Hb. apply Z; [right; exact Hb | intros ->; contradiction].
  - rewrite IH; [| exact I | intros b Hb; apply Z; right; exact Hb].
    rewrite Z; [ring | left; reflexivity | intros ->; contradiction].
Qed.
Lemma total_swap : forall {A B} (g : A -> B -> R) l m, total (fun a => total (g a) m) l = total (fun b => total (fun a => g a b) l) m.
Proof.
  intros A B g l m. induction l as [| a l IH]; cbn [total].
  - symmetry. apply total_zero. intros; reflexivity.
  - rewrite IH, <- total_plus. reflexivity.
Qed.
Lemma total_app : forall {A} (g : A -> R) l m, total g (l ++ m) = total g l + total g m.
Proof. intros A g l m. induction l as [| a l IH]; cbn [total app]; [ring | rewrite IH; ring]. Qed.
Lemma total_flat : forall {A B} (h : A -> list B) (g : B -> R) l, total g (flat_map h l) = total (fun a => total g (h a)) l.
Proof. intros A B h g l. induction l as [| a l IH]; cbn [total flat_map]; [reflexivity | rewrite total_app, IH; reflexivity]. Qed.

Lemma shifted_total : forall keep gaps j v,
  shifted (K := RNum) keep gaps j v =
  v + total (fun g : Z * Z * R => if Z.eqb (snd (fst g)) (Z.of_nat j) && keep (fst (fst g)) then snd g else 0) gaps.
Proof.
  intros keep gaps j. unfold shifted. induction gaps as [| g gaps IH]; intro v; cbn [fold_left total]; [rring |].
  rewrite IH. destruct (_ && _); cbn [nadd RNum]; rring.
Qed.
Lemma gap_total : forall (l : list rpart) step (p : rvec),
  gap_at (K := RNum) l step p = total (fun s => if in_cell p step (pr s) then pg s else 0) l.
Proof.
  intros l step p. unfold gap_at. change (@nofZ RNum 0) with 0.
  assert (E : forall s, fold_left (fun (s : RNum) (o : rpart) => if in_cell p step (pr o) then (s + pg o)%num else s) l s
            = s + total (fun s => if in_cell p step (pr s) then pg s else 0) l).
  { induction l as [| o l IH]; intro s; cbn [fold_left total]; [rring |].
    rewrite IH. destruct (in_cell p step (pr o)); cbn [nadd RNum]; rring. }
  rewrite E. rring.
Qed.

Lemma in_cell_true : forall (p q : rvec) step,
  in_cell (K := RNum) p step q = true <-> x p < x q <= x p + step /\ y p < y q <= y p + step.
Proof.
  intros p q step. unfold in_cell. rewrite !andb_true_iff.
  change (@nltb RNum) with Rltb. change (@nleb RNum) with Rleb. change (@nadd RNum) with Rplus.
  rewrite !Rltb_true, !Rleb_true. tauto.
Qed.

Lemma node_point : forall o step i j, node (K := RNum) o step i j = point o step i j.
Proof.
  intros o step i j. unfold node, point, vadd, vscale. cbn [x y].
  change (@nofZ RNum) with IZR. rewrite <- !INR_IZR_INZ. reflexivity.
Qed.

(** The cell a source is in. *)
Lemma column : forall n a step xs i, 0 < step -> a + INR i * step < xs -> xs <= a + INR (i + n) * step ->
  exists c, (i <= c < i + n)%nat /\ a + INR c * step < xs <= a + INR c * step + step.
Proof.
  induction n as [| n IH]; intros a step xs i Hs L U.
  - rewrite Nat.add_0_r in U. lra.
  - destruct (Rle_dec xs (a + INR i * step + step)) as [H | H].
    + exists i. split; [lia | lra].
    + destruct (IH a step xs (S i)) as [c [Hc B]]; [exact Hs | rewrite S_INR; lra | replace (S i + n)%nat with (i + S n)%nat by lia; exact U |].
      exists c. split; [lia | exact B].
Qed.
Lemma one_column : forall a step xs c d, 0 < step ->
  a + INR c * step < xs <= a + INR c * step + step -> a + INR d * step < xs <= a + INR d * step + step -> c = d.
Proof.
  intros a step xs c d Hs B1 B2.
  destruct (lt_eq_lt_dec c d) as [[L | E] | L]; [| exact E |]; exfalso.
  - assert (INR (S c) <= INR d) by (apply le_INR; lia). rewrite S_INR in H. nra.
  - assert (INR (S d) <= INR c) by (apply le_INR; lia). rewrite S_INR in H. nra.
Qed.
Lemma column_ge : forall a step xs c m, 0 < step -> a + INR c * step < xs <= a + INR c * step + step ->
  a + INR m * step < xs -> (m <= c)%nat.
Proof.
  intros a step xs c m Hs B L. destruct (le_lt_dec m c) as [H | H]; [exact H | exfalso].
  assert (INR (S c) <= INR m) by (apply le_INR; lia). rewrite S_INR in H0. nra.
Qed.

Section G.
Variables (o : rvec) (step : R) (xres yres : nat) (l : list rpart) (order : list (nat * nat)).
Hypothesis Hstep : 0 < step.
Hypothesis All : all_nodes xres yres order.
Hypothesis Hx : (Z.of_nat xres <= 65536)%Z.
Hypothesis Hy : (Z.of_nat yres <= 65536)%Z.
Hypothesis Right : none_right o step xres yres l.

Lemma nodup_prod : forall {A B} (u : list A) (v : list B), NoDup u -> NoDup v -> NoDup (list_prod u v).
Proof.
  intros A B u v Hu Hv. induction Hu as [| a u Na Hu IH]; cbn [list_prod]; [constructor |].
  assert (H1 : NoDup (map (fun b => (a, b)) v)) by (apply FinFun.Injective_map_NoDup; [intros b c E; congruence | exact Hv]).
  assert (D : forall z, In z (map (fun b => (a, b)) v) -> ~ In z (list_prod u v)).
  { intros [c d] Hz Hin. apply in_map_iff in Hz. destruct Hz as [b [E _]]. apply in_prod_iff in Hin. destruct Hin. congruence. }
  revert H1 D. generalize (map (fun b => (a, b)) v) as m. induction m as [| z m IHm]; intros H1 D; cbn [app]; [exact IH |].
  inversion H1; subst. constructor.
  - rewrite in_app_iff. intros [I | I]; [contradiction | apply (D z); [left; reflexivity | exact I]].
  - apply IHm; [assumption |]. intros y' Hy'. apply D. right. exact Hy'.
Qed.
Lemma order_nodup : NoDup order.
Proof. eapply Permutation_NoDup; [symmetry; exact All |]. apply nodup_prod; apply seq_NoDup. Qed.
Lemma in_order : forall i j, In (i, j) order <-> (i < xres)%nat /\ (j < yres)%nat.
Proof.
  intros i j. split.
  - intro H. apply (Permutation_in _ All) in H. apply in_prod_iff in H. rewrite !in_seq in H. lia.
  - intro H. apply (Permutation_in _ (Permutation_sym All)). apply in_prod_iff. rewrite !in_seq. lia.
Qed.

(** A source whose cut goes through row [j] left of it from column [m] on. *)
Definition cut (m j : nat) (s : rpart) : bool :=
  crosses (x o + INR m * step - x (pr s)) (y o + INR j * step - y (pr s)) (y o + INR (S j) * step - y (pr s)).

Lemma wrap16_small : forall n, (Z.of_nat n < 65536)%Z -> wrap16 n = Z.of_nat n.
Proof. intros n H. unfold wrap16. apply Z.mod_small. change (2 ^ 16)%Z with 65536%Z. lia. Qed.

Lemma gaps_total : forall keep m j, (j < yres)%nat ->
  (forall c, (c < xres)%nat -> keep (Z.of_nat c) = Nat.leb m c) ->
  total (fun g : Z * Z * R => if Z.eqb (snd (fst g)) (Z.of_nat j) && keep (fst (fst g)) then snd g else 0)
    (gap_list (K := RNum) l o step order)
  = total (fun s => if cut m j s then pg s else 0) l.
Proof.
  intros keep m j Hj Hk. unfold gap_list. rewrite total_flat.
  transitivity (total (fun n => total (fun s : rpart =>
    if (Nat.eqb (snd n) j && Nat.leb m (fst n) && in_cell (point o step (fst n) (snd n)) step (pr s))%bool then pg s else 0) l) order).
  - apply total_ext. intros [c d] Hn. apply in_order in Hn. destruct Hn as [Hc Hd]. cbn [fst snd].
    rewrite node_point. set (g := gap_at (K := RNum) l step (point o step c d)).
    assert (E : total (fun g : Z * Z * R => if Z.eqb (snd (fst g)) (Z.of_nat j) && keep (fst (fst g)) then snd g else 0)
                (if (g =? nofZ 0)%num then [] else [(wrap16 c, wrap16 d, g)])
              = if Nat.eqb d j && Nat.leb m c then g else 0).
    { rewrite !wrap16_small by lia. change (@nofZ RNum 0) with 0.
      destruct (g =? 0)%num eqn:Z; cbn [total fst snd].
      - assert (G : g = 0) by (apply Reqb_true; exact Z). destruct (_ && _); [symmetry; exact G | reflexivity].
      - rewrite Hk by exact Hc. replace (Z.of_nat d =? Z.of_nat j)%Z with (d =? j)%nat.
        + destruct (_ && _); rring.
        + destruct (Nat.eqb_spec d j), (Z.eqb_spec (Z.of_nat d) (Z.of_nat j)); lia || reflexivity. }
    etransitivity; [exact E |]. clear E. unfold g. rewrite gap_total. destruct (Nat.eqb d j && Nat.leb m c)%bool; [reflexivity |].
    symmetry. apply total_zero. intros; reflexivity.
  - rewrite total_swap. apply total_ext. intros s Hs.
    unfold cut, crosses.
    assert (B : forall c d, In (c, d) order -> (Nat.eqb d j && Nat.leb m c && in_cell (K := RNum) (point o step c d) step (pr s))%bool = true ->
                d = j /\ (m <= c)%nat /\ x o + INR c * step < x (pr s) <= x o + INR c * step + step /\ y o + INR j * step < y (pr s) <= y o + INR j * step + step).
    { intros c d _ H. rewrite !andb_true_iff, in_cell_true in H. destruct H as [[H1 H2] H3].
      apply Nat.eqb_eq in H1. apply Nat.leb_le in H2. subst d. unfold point in H3. cbn [x y] in H3. tauto. }
    rewrite S_INR.
    destruct (Rlt_dec (x o + INR m * step - x (pr s)) 0) as [Hm | Hm].
    + destruct (Rlt_dec (y o + INR j * step - y (pr s)) 0) as [Hl | Hl].
      * destruct (Rle_dec 0 (y o + (INR j + 1) * step - y (pr s))) as [Hu | Hu].
        -- destruct (Right s Hs) as [R1 | [R1 | R1]].
           ++ destruct (le_lt_dec m xres) as [Hmx | Hmx].
              ** destruct (column (xres - m) (x o) step (x (pr s)) m Hstep) as [c [Hc Bc]];
                   [change (T RNum) with R in *; lra | replace (m + (xres - m))%nat with xres by lia; exact R1 |].
                 rewrite (total_one _ order (c, j)); cbn [fst snd].
                 --- rewrite Nat.eqb_refl. replace (m <=? c)%nat with true by (symmetry; apply Nat.leb_le; lia). cbn [andb].
                     replace (in_cell (K := RNum) (point o step c j) step (pr s)) with true; [reflexivity |].
                     symmetry. apply in_cell_true. unfold point. cbn [x y]. change (T RNum) with R in *. lra.
                 --- apply order_nodup.
                 --- apply in_order. lia.
                 --- intros [c' d'] Hin N. cbn [fst snd].
                     destruct (Nat.eqb d' j && Nat.leb m c' && in_cell (K := RNum) (point o step c' d') step (pr s))%bool eqn:E; [| reflexivity].
                     exfalso. apply N. destruct (B c' d' Hin E) as [-> [_ [Bc' _]]].
                     f_equal. apply (one_column (x o) step (x (pr s))); assumption.
              ** exfalso. assert (INR xres <= INR m) by (apply le_INR; lia). change (T RNum) with R in *. nra.
           ++ exfalso. pose proof (pos_INR j). change (T RNum) with R in *. nra.
           ++ exfalso. assert (INR (S j) <= INR yres) by (apply le_INR; lia). rewrite S_INR in H. change (T RNum) with R in *. nra.
        -- apply total_zero. intros [c d] Hin. cbn [fst snd].
           destruct (Nat.eqb d j && Nat.leb m c && in_cell (K := RNum) (point o step c d) step (pr s))%bool eqn:E; [| reflexivity].
           exfalso. destruct (B c d Hin E) as [_ [_ [_ B4]]]. change (T RNum) with R in *. lra.
      * apply total_zero. intros [c d] Hin. cbn [fst snd].
        destruct (Nat.eqb d j && Nat.leb m c && in_cell (K := RNum) (point o step c d) step (pr s))%bool eqn:E; [| reflexivity].
        exfalso. destruct (B c d Hin E) as [_ [_ [_ B4]]]. change (T RNum) with R in *. lra.
    + apply total_zero. intros [c d] Hin. cbn [fst snd].
      destruct (Nat.eqb d j && Nat.leb m c && in_cell (K := RNum) (point o step c d) step (pr s))%bool eqn:E; [| reflexivity].
      exfalso. destruct (B c d Hin E) as [_ [B2 [B3 _]]]. assert (INR m <= INR c) by (apply le_INR; lia).
      change (T RNum) with R in *. nra.
Qed.
End G.
