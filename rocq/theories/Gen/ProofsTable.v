(** Parameters of the generators. *)

From Coq Require Import ZArith Bool List String Reals Lia Lra.
From Flocq Require Import Core.Core IEEE754.BinarySingleNaN.
From Verif.Base Require Import Num F64.
From Verif.Body Require Import Model.
From Verif.Gen Require Import Model Spec.
Import ListNotations.

Lemma is_name_true s k : is_name s k = true <-> k = Name s.
Proof.
  destruct k as [s'|n]; cbn; [|split; discriminate]. rewrite String.eqb_eq. split; [intros ->; reflexivity|congruence].
Qed.

Lemma field_unset {K} (t : table K) s s' : s <> s' -> field s (unset s' t) = field s t.
Proof.
  intros D. unfold field, unset. induction t as [|[k v] t IH]; [reflexivity|]. cbn [filter find fst].
  destruct (is_name s' k) eqn:E; cbn [negb].
  - apply is_name_true in E. subst k. cbn [is_name]. destruct (String.eqb_spec s' s) as [X|X]; [congruence|]. exact IH.
  - cbn [find fst]. destruct (is_name s k); [reflexivity|]. exact IH.
Qed.

Lemma only_nil {K} (t : table K) : t = [] <-> only t [].
Proof.
  split; [intros -> k v []|]. destruct t as [|[k v] t]; [reflexivity|]. intros H.
  destruct (H k v (or_introl eq_refl)) as (s & [] & _).
Qed.

Lemma only_unset {K} (t : table K) s l : only (unset s t) l <-> only t (s :: l).
Proof.
  unfold only, unset. split.
  - intros H k v I. destruct (is_name s k) eqn:E.
    + exists s. split; [left; reflexivity|]. apply is_name_true, E.
    + destruct (H k v) as (s' & A & B); [apply filter_In; cbn; rewrite E; auto|]. exists s'. split; [right; exact A|exact B].
  - intros H k v I. apply filter_In in I as [I E]. cbn in E. destruct (H k v I) as (s' & [A|A] & B).
    + subst. apply negb_true_iff in E. cbn in E. rewrite String.eqb_refl in E. discriminate.
    + exists s'. auto.
Qed.

Lemma only_absent {K} (t : table K) s l : absent t s -> (only t (s :: l) <-> only t l).
Proof.
  intros A. split; intros H k v I.
  - destruct (H k v I) as (s' & [E|E] & B); [|exists s'; auto]. subst s' k. exfalso.
    unfold absent, field in A. destruct (find _ t) eqn:F; [discriminate|].
    apply (find_none _ _ F (Name s, v)) in I. cbn in I. rewrite String.eqb_refl in I. discriminate.
  - destruct (H k v I) as (s' & E & B). exists s'. split; [right; exact E|exact B].
Qed.

Lemma only_perm {K} (t : table K) l l' : (forall s, In s l -> In s l') -> only t l -> only t l'.
Proof. intros S H k v I. destruct (H k v I) as (s & A & B). exists s. auto. Qed.

Section Param.
Context {K : Num}.
Implicit Types t : table K.

Lemma param_bind {B} s r lo hi df t (f : K * table K -> outcome B) o : (forall e, o <> Err e) ->
  bind (get_param s r lo hi df t) f = o <->
  (exists v, in_range t s lo hi v /\ f (v, unset s t) = o) \/
  (exists v, absent t s /\ df = Some v /\ f (v, t) = o).
Proof.
  intros NE. unfold get_param, in_range, given, absent.
  assert (X : forall m, Err m = o -> False) by (intros m E; exact (NE m (eq_sym E))).
  destruct (field s t) as [[v|]|] eqn:F.
  - destruct (nfinite v) eqn:Fi; cbn [negb].
    + destruct (nltb v lo) eqn:A; cbn [orb]; [|destruct (nltb hi v) eqn:B'].
      1,2: cbn [bind]; split; [intros E; destruct (X _ E)|intros [(v' & (G & _ & H1 & H2) & _)|(v' & G & _)]; [|discriminate]];
        assert (v = v') by congruence; subst; congruence.
      cbn [bind]. split; [intros E; left; exists v; auto|]. intros [(v' & (G & _) & E)|(v' & G & _)]; [|discriminate].
      assert (v = v') by congruence. subst. reflexivity.
    + cbn [bind]. split; [intros E; destruct (X _ E)|]. intros [(v' & (G & H & _) & _)|(v' & G & _)]; [|discriminate].
      assert (v = v') by congruence. subst. congruence.
  - cbn [bind]. split; [intros E; destruct (X _ E)|]. intros [(v' & (G & _) & _)|(v' & G & _)]; discriminate.
  - destruct df as [d|]; cbn [bind].
    + split; [intros E; right; exists d; auto|]. intros [(v' & (G & _) & _)|(v' & _ & G & E)]; [discriminate|]. injection G as ->. exact E.
    + split; [intros E; destruct (X _ E)|]. intros [(v' & (G & _) & _)|(v' & _ & G & _)]; discriminate.
Qed.

(** The same for an accepting call. *)
Lemma param_accepts {B} s r lo hi df t (f : K * table K -> outcome B) :
  accepts (bind (get_param s r lo hi df t) f) <->
  (exists v, in_range t s lo hi v /\ accepts (f (v, unset s t))) \/
  (exists v, absent t s /\ df = Some v /\ accepts (f (v, t))).
Proof.
  split.
  - intros A. remember (bind (get_param s r lo hi df t) f) as o eqn:E. symmetry in E. apply param_bind in E; [|exact A].
    destruct E as [(v & R & E)|(v & R & D & E)]; [left|right]; exists v; rewrite E; auto.
  - intros [(v & R & A)|(v & R & D & A)].
    + intros e E. apply (A e). rewrite <- E. symmetry. unfold get_param. destruct R as (G & F & L & H).
      unfold given in G. rewrite G, F, L, H. reflexivity.
    + intros e E. apply (A e). rewrite <- E. symmetry. unfold get_param. unfold absent in R. rewrite R, D. reflexivity.
Qed.

Lemma excess_bind {B} t (k : outcome B) o : (forall e, o <> Err e) -> no_excess t k = o <-> only t [] /\ k = o.
Proof.
  intros NE. rewrite <- only_nil. destruct t as [|[[s|n] v] t]; cbn.
  - tauto.
  - split; [intros E; destruct (NE _ (eq_sym E))|intros [? _]; discriminate].
  - split; [intros E; destruct (NE _ (eq_sym E))|intros [? _]; discriminate].
Qed.

Lemma check_bind {B} c m (k : outcome B) o : (forall e, o <> Err e) -> argcheck c m k = o <-> c = true /\ k = o.
Proof.
  intros NE. destruct c; cbn; [tauto|]. split; [intros E; destruct (NE _ (eq_sym E))|intros [? _]; discriminate].
Qed.

(** What the conversions have to satisfy. *)
Record good (lib : libm K) : Prop := {
  good_n : forall v n, nfinite v = true -> nltb v (nofZ 1) = false -> to_i64 lib v = Some n -> (0 < n)%Z;
  good_0 : to_i64 lib (nofZ 0) = Some 0%Z;
  good_d : forall v, nfinite v = true -> nltb v (dblmin lib) = false -> nltb (nofZ 0) v = true;
  good_z : @nltb K (nofZ 0) (nofZ 0) = false
}.

Variable lib : libm K.
Hypothesis G : good lib.

Lemma unset_absent s t : absent t s -> unset s t = t.
Proof using.
  intros A. unfold absent, field in A. unfold unset. destruct (find _ t) eqn:F; [discriminate|].
  pose proof (find_none _ _ F) as N. clear F A. induction t as [|e t IH]; [reflexivity|]. cbn [filter].
  rewrite (N e (or_introl eq_refl)). cbn [negb]. f_equal. apply IH. intros; apply N; right; assumption.
Qed.

Lemma in_range_unset t s s' : s <> s' -> forall lo hi v, in_range (unset s' t) s lo hi v <-> in_range t s lo hi v.
Proof using. intros D lo hi v. unfold in_range, given. rewrite (field_unset t s s' D). tauto. Qed.

Lemma absent_unset t s s' : s <> s' -> absent (unset s' t) s <-> absent t s.
Proof using. intros D. unfold absent. rewrite (field_unset t s s' D). tauto. Qed.

(** A parameter without default, and one with. *)
Lemma req_ok {B} s r lo hi t (f : K * table K -> outcome B) x :
  bind (get_param s r lo hi None t) f = Ok x <-> exists v, in_range t s lo hi v /\ f (v, unset s t) = Ok x.
Proof using.
  rewrite param_bind by discriminate. split; [intros [H|(v & _ & D & _)]; [exact H|discriminate]|intros H; left; exact H].
Qed.

Lemma opt_ok {B} s r lo hi d t (f : K * table K -> outcome B) x :
  bind (get_param s r lo hi (Some d) t) f = Ok x <-> exists v, in_range_or d t s lo hi v /\ f (v, unset s t) = Ok x.
Proof using.
  rewrite param_bind by discriminate. unfold in_range_or. split.
  - intros [(v & R & E)|(v & A & D & E)]; [exists v; auto|]. injection D as ->. exists v. rewrite (unset_absent s t A). auto.
  - intros (v & [R|[A ->]] & E); [left; exists v; auto|right; exists d; rewrite (unset_absent s t A) in E; auto].
Qed.

Lemma n_dl_ok {B} t (f : Z * K * table K -> outcome B) x :
  bind (get_n_dl lib t) f = Ok x <->
  exists n d z, n_or_dl lib t n d /\ to_i64 lib n = Some z /\ f (z, d, unset "dl" (unset "N" t)) = Ok x.
Proof.
  unfold get_n_dl.
  assert (AS : forall A C D (m : outcome A) (g : A -> outcome C) (h : C -> outcome D), bind (bind m g) h = bind m (fun a => bind (g a) h)).
  { intros. destruct m; reflexivity. }
  assert (CK : forall A C c m (k : outcome A) (h : A -> outcome C), bind (argcheck c m k) h = argcheck c m (bind k h)).
  { intros. destruct c; reflexivity. }
  assert (ND : "dl"%string <> "N"%string) by discriminate.
  rewrite AS, opt_ok. unfold n_or_dl. split.
  - intros (n & Rn & E). destruct (to_i64 lib n) as [z|] eqn:Z; [|discriminate]. cbn [bind] in E. rewrite AS, opt_ok in E.
    destruct E as (d & Rd & E). rewrite !CK in E. apply check_bind in E as [E1 E]; [|discriminate]. apply check_bind in E as [E2 E]; [|discriminate].
    cbn [bind] in E. exists n, d, z. split; [|auto]. unfold in_range_or in Rd. rewrite in_range_unset, absent_unset in Rd by exact ND.
    destruct Rn as [Rn|[An ->]], Rd as [Rd|[Ad ->]].
    + exfalso. pose proof (good_n lib G n z (proj1 (proj2 Rn)) (proj1 (proj2 (proj2 Rn))) Z) as Pz.
      rewrite (good_d lib G d (proj1 (proj2 Rd)) (proj1 (proj2 (proj2 Rd)))) in E2. apply Z.ltb_lt in Pz. rewrite Pz in E2. discriminate E2.
    + left. auto.
    + right. auto.
    + exfalso. rewrite (good_0 lib G) in Z. injection Z as <-. rewrite (good_z lib G) in E1. discriminate E1.
  - intros (n & d & z & H & Z & E). exists n. destruct H as [(Rn & Ad & ->)|(An & Rd & ->)].
    + split; [left; exact Rn|]. rewrite Z. cbn [bind]. rewrite AS, opt_ok. exists (nofZ 0).
      split; [right; split; [apply absent_unset; assumption|reflexivity]|].
      pose proof (good_n lib G n z (proj1 (proj2 Rn)) (proj1 (proj2 (proj2 Rn))) Z) as Pz. apply Z.ltb_lt in Pz.
      rewrite (good_z lib G), Pz. cbn. exact E.
    + split; [right; auto|]. rewrite Z. cbn [bind]. rewrite AS, opt_ok. exists d.
      split; [left; apply in_range_unset; assumption|].
      rewrite (good_0 lib G) in Z. injection Z as <-.
      rewrite (good_d lib G d (proj1 (proj2 Rd)) (proj1 (proj2 (proj2 Rd)))). cbn. exact E.
Qed.

Lemma req_step s r lo hi df t v : in_range t s lo hi v -> get_param s r lo hi df t = Ok (v, unset s t).
Proof using. intros (G1 & F & L & H). unfold get_param. unfold given in G1. rewrite G1, F, L, H. reflexivity. Qed.

Lemma dflt_step s r lo hi d t : absent t s -> get_param s r lo hi (Some d) t = Ok (d, t).
Proof using. intros A. unfold get_param. unfold absent in A. rewrite A. reflexivity. Qed.

Lemma n_dl_step t n d z : n_or_dl lib t n d -> to_i64 lib n = Some z ->
  get_n_dl lib t = Ok (z, d, unset "dl" (unset "N" t)).
Proof.
  intros N Z. assert (E : bind (get_n_dl lib t) (fun a => Ok a) = Ok (z, d, unset "dl" (unset "N" t))).
  { apply n_dl_ok. exists n, d, z. auto. }
  destruct (get_n_dl lib t); cbn [bind] in E; [exact E|discriminate|discriminate].
Qed.

Lemma excess_ok {B} t (k : outcome B) x : no_excess t k = Ok x <-> only t [] /\ k = Ok x.
Proof using. apply excess_bind. discriminate. Qed.

Lemma check_ok {B} c m (k : outcome B) x : argcheck c m k = Ok x <-> c = true /\ k = Ok x.
Proof using. apply check_bind. discriminate. Qed.

Lemma in_range_or_unset d t s s' : s <> s' -> forall lo hi v, in_range_or d (unset s' t) s lo hi v <-> in_range_or d t s lo hi v.
Proof using. intros D lo hi v. unfold in_range_or. rewrite in_range_unset, absent_unset by exact D. tauto. Qed.

End Param.

(** Removes the tables with parameters taken out. *)
Ltac untable H := repeat (rewrite in_range_unset in H by discriminate) || (rewrite in_range_or_unset in H by discriminate) ||
  (rewrite only_unset in H).
Ltac untable_goal := repeat (rewrite in_range_unset by discriminate) || (rewrite in_range_or_unset by discriminate) ||
  (rewrite only_unset).

Section Success.
Context {K : Num}.
Variable lib : libm K.
Hypothesis G : good lib.
Implicit Types t : table K.
Notation inf := (dblinf lib).
Notation dmin := (dblmin lib).
Notation eps := (dbleps lib).

Local Open Scope string_scope.
Local Open Scope num_scope.

Ltac fwd := repeat match goal with
  | H : bind (get_n_dl _ _) _ = Ok _ |- _ => apply (n_dl_ok lib G) in H; let n := fresh "n" in let d := fresh "d" in let z := fresh "z" in
      let Z := fresh "Z" in let N := fresh "N" in destruct H as (n & d & z & N & Z & H)
  | H : bind (get_param _ _ _ _ None _) _ = Ok _ |- _ => apply req_ok in H; let v := fresh "v" in let R := fresh "R" in destruct H as (v & R & H); untable R
  | H : bind (get_param _ _ _ _ (Some _) _) _ = Ok _ |- _ => apply opt_ok in H; let v := fresh "v" in let R := fresh "R" in destruct H as (v & R & H); untable R
  | H : no_excess _ _ = Ok _ |- _ => apply excess_ok in H; let O := fresh "O" in destruct H as (O & H); untable O
  | H : argcheck _ _ _ = Ok _ |- _ => apply check_ok in H; let C := fresh "C" in destruct H as (C & H)
  end.

Lemma cylinder_ok t l : gen_cylinder lib t = Ok l <->
  exists n d z R, n_or_dl lib t n d /\ to_i64 lib n = Some z /\ pos lib t "R" R /\ only t ["N"; "dl"; "R"] /\
    make lib (cylinder_pieces lib z d R) = Ok l.
Proof.
  unfold gen_cylinder, positive, pos. split.
  - intros H. fwd. exists n, d, z, v. auto 10.
  - intros (n & d & z & R & N & Z & P & O & M). apply (n_dl_ok lib G). exists n, d, z. split; [exact N|]. split; [exact Z|].
    apply req_ok. exists R. untable_goal. split; [exact P|]. apply excess_ok. untable_goal. auto.
Qed.

(** The other direction, one parameter after the other. *)
Ltac bwd :=
  match goal with
  | |- bind (get_n_dl _ _) _ = Ok _ => apply (n_dl_ok lib G); do 3 eexists; split; [eassumption|]; split; [eassumption|]
  | |- bind (get_param _ _ _ _ None _) _ = Ok _ => apply req_ok; eexists; untable_goal; split; [eassumption|]
  | |- bind (get_param _ _ _ _ (Some _) _) _ = Ok _ => apply opt_ok; eexists; untable_goal; split; [eassumption|]
  | |- no_excess _ _ = Ok _ => apply excess_ok; untable_goal; split; [eassumption|]
  | |- argcheck _ _ _ = Ok _ => apply check_ok; split; [eassumption|]
  end.

Lemma semicyl_ok t l : gen_semicyl lib t = Ok l <->
  exists n d z R, n_or_dl lib t n d /\ to_i64 lib n = Some z /\ pos lib t "R" R /\ only t ["N"; "dl"; "R"] /\
    make lib (semicyl_pieces lib z d R) = Ok l.
Proof.
  unfold gen_semicyl, positive, pos. split.
  - intros H. fwd. exists n, d, z, v. auto 10.
  - intros (n & d & z & R & N & Z & P & O & M). repeat bwd. exact M.
Qed.

Lemma parallelogram_ok t l : gen_parallelogram lib t = Ok l <->
  exists n d z L H a, n_or_dl lib t n d /\ to_i64 lib n = Some z /\ pos lib t "L" L /\ pos lib t "H" H /\
    in_range_or (nofZ 0) t "d" dmin (nofZ 180 * (nofZ 1 - eps)) a /\ only t ["N"; "dl"; "L"; "H"; "d"] /\
    make lib (parallelogram_pieces lib z d L H a) = Ok l.
Proof.
  unfold gen_parallelogram, positive, pos. split.
  - intros H. fwd. exists n, d, z, v, v0, v1. auto 10.
  - intros (n & d & z & L & H & a & N & Z & PL & PH & A & O & M). repeat bwd. exact M.
Qed.

Lemma savonius_ok t l : gen_savonius lib t = Ok l <->
  exists n d z R h, n_or_dl lib t n d /\ to_i64 lib n = Some z /\ pos lib t "R" R /\ pos lib t "h" h /\
    (h <? R) = true /\ only t ["N"; "dl"; "R"; "h"] /\ make lib (savonius_pieces lib z d R h) = Ok l.
Proof.
  unfold gen_savonius, positive, pos. split.
  - intros H. fwd. exists n, d, z, v, v0. auto 10.
  - intros (n & d & z & R & h & N & Z & PR & Ph & C & O & M). repeat bwd. exact M.
Qed.

Lemma box_ok t l : gen_box lib t = Ok l <->
  exists dln dls L H D h d, pos lib t "dln" dln /\ pos lib t "dls" dls /\ pos lib t "L" L /\ pos lib t "H" H /\
    in_range t "D" dmin (L * (nofZ 1 - eps)) D /\ pos lib t "h" h /\
    in_range t "d" dmin ((L - D) * (nofZ 1 - eps)) d /\
    only t ["dln"; "dls"; "L"; "H"; "D"; "h"; "d"] /\ make lib (box_pieces lib dln dls L H D h d) = Ok l.
Proof using.
  unfold gen_box, positive, pos. split.
  - intros H. fwd. exists v, v0, v1, v2, v3, v4, v5. auto 10.
  - intros (dln & dls & L & H & D & h & d & P1 & P2 & P3 & P4 & P5 & P6 & P7 & O & M). repeat bwd. exact M.
Qed.

Lemma gpj_ok t l : gen_gpj lib t = Ok l <->
  exists dln dls R0 d X0 X1 X2 X3 L H, pos lib t "dln" dln /\ pos lib t "dls" dls /\ pos lib t "R0" R0 /\
    in_range t "d" (nofZ 0) (nofZ 90 * (nofZ 1 - eps)) d /\ in_range t "X0" (- inf) inf X0 /\
    in_range t "X1" X0 inf X1 /\ in_range t "X2" X1 inf X2 /\ in_range t "X3" X2 inf X3 /\
    in_range t "L" ((X3 - X0 + R0) * (nofZ 1 + eps)) inf L /\
    in_range t "H" (nofZ 2 * gpj_y3 lib R0 d X2 X3 * (nofZ 1 + eps)) inf H /\
    only t ["dln"; "dls"; "R0"; "d"; "X0"; "X1"; "X2"; "X3"; "L"; "H"] /\
    make lib (gpj_pieces lib dln dls R0 d X0 X1 X2 X3 L H) = Ok l.
Proof using.
  unfold gen_gpj, positive, pos. split.
  - intros H. fwd. exists v, v0, v1, v2, v3, v4, v5, v6, v7, v8. auto 20.
  - intros (dln & dls & R0 & d & X0 & X1 & X2 & X3 & L & H & P1 & P2 & P3 & P4 & P5 & P6 & P7 & P8 & P9 & P10 & O & M).
    repeat bwd. exact M.
Qed.

Lemma plate_ok t l : gen_plate lib t = Ok l <->
  exists n d z R1 R2 L start stop gap, n_or_dl lib t n d /\ to_i64 lib n = Some z /\
    in_range t "R1" (nofZ 0) inf R1 /\ in_range t "R2" (nofZ 0) inf R2 /\ ((nofZ 0 <? R1) || (nofZ 0 <? R2) = true)%bool /\
    pos lib t "L" L /\ in_range_or (nofZ 0) t "start" (nofZ 0) (nofZ 1 - eps) start /\
    in_range_or (nofZ 1) t "stop" dmin (nofZ 1) stop /\ in_range_or (nofZ 0) t "gap" dmin inf gap /\
    only t ["N"; "dl"; "R1"; "R2"; "L"; "start"; "stop"; "gap"] /\
    make lib (plate_pieces lib z d R1 R2 L start stop gap) = Ok l.
Proof.
  unfold gen_plate, positive, pos. split.
  - intros H. fwd. exists n, d, z, v, v0, v1, v2, v3, v4. auto 20.
  - intros (n & d & z & R1 & R2 & L & start & stop & gap & N & Z & P1 & P2 & C & P3 & P4 & P5 & P6 & O & M).
    repeat bwd. exact M.
Qed.

Lemma ellipse_ok fuel t l : gen_ellipse lib fuel t = Ok l <->
  exists n d z Rx Ry, n_or_dl lib t n d /\ to_i64 lib n = Some z /\ pos lib t "Rx" Rx /\ in_range t "Ry" dmin Rx Ry /\
    only t ["N"; "dl"; "Rx"; "Ry"] /\ let dl := ell_dl lib z d Rx Ry in let a0 := lasin lib (dl / (nofZ 2 * Ry)) in
    (dl <? Ry / (nofZ 19 / nofZ 10)) = true /\ l = option_map (ell_corners lib Rx Ry) (semiell lib fuel dl Rx Ry (lpi lib - a0) a0).
Proof.
  unfold gen_ellipse, positive, pos. split.
  - intros H. fwd. exists n, d, z, v, v0. repeat (split; [assumption|]). cbv zeta.
    injection H as <-. reflexivity.
  - intros (n & d & z & Rx & Ry & N & Z & P1 & P2 & O & C & ->). repeat bwd. reflexivity.
Qed.

End Success.

(** * Doubles and reals *)

Local Open Scope R_scope.

Lemma f64_pow_R e : (-1074 <= e < 1024)%Z -> B2R (f64_pow e) = bpow radix2 e /\ is_finite (f64_pow e) = true.
Proof.
  intros H. unfold f64_pow.
  pose proof (binary_normalize_correct 53 1024 Hprec64 Hmax64 mode_NE 1 e false) as C.
  assert (F : F2R (Float radix2 1 e) = bpow radix2 e) by (unfold F2R; cbn [Fnum Fexp]; ring).
  cbv zeta in C. rewrite F in C. change (round radix2 (SpecFloat.fexp 53 1024) (round_mode mode_NE) (bpow radix2 e)) with (rnd (bpow radix2 e)) in C. assert (Rd : rnd (bpow radix2 e) = bpow radix2 e).
  { unfold rnd. apply Generic_fmt.round_generic; [apply (valid_rnd_round_mode mode_NE)|]. apply generic_format_bpow. unfold SpecFloat.fexp, SpecFloat.emin. lia. }
  rewrite Rd in C. rewrite Rlt_bool_true in C.
  - tauto.
  - rewrite Rabs_pos_eq by apply bpow_ge_0. apply bpow_lt. lia.
Qed.

Lemma good_F64 c s t a b : good (F64lib c s t a b).
Proof.
  constructor.
  - cbn [F64lib to_i64 nfinite nltb nofZ F64]. intros v n F L E. unfold f64_to_i64 in E. rewrite F in E.
    destruct ((-2 ^ 63 <=? Btrunc v)%Z && (Btrunc v <? 2 ^ 63)%Z); [|discriminate]. injection E as <-.
    rewrite f64_trunc_R. destruct (f64_ofZ_R 1 ltac:(lia)) as [V F1]. pose proof (Bltb_correct 53 1024 v (f64_ofZ 1) F F1) as X.
    rewrite L in X. symmetry in X. assert (1 <= B2R v) by (revert X; case Rlt_bool_spec; [discriminate|intros Y _; rewrite V in Y; exact Y]).
    rewrite Ztrunc_floor by lra. assert (1 <= Zfloor (B2R v))%Z by (apply Zfloor_lub; exact H). lia.
  - reflexivity.
  - cbn [F64lib dblmin nfinite nltb nofZ F64]. intros v F L. destruct (f64_pow_R (-1022) ltac:(lia)) as [V F1].
    rewrite (Bltb_correct 53 1024 v _ F F1), V in L. destruct (f64_ofZ_R 0 ltac:(lia)) as [V0 F0].
    rewrite (Bltb_correct 53 1024 _ v F0 F), V0. apply Rlt_bool_true.
    assert (bpow radix2 (-1022) <= B2R v) by (revert L; case Rlt_bool_spec; [discriminate|auto]).
    pose proof (bpow_gt_0 radix2 (-1022)). lra.
  - reflexivity.
Qed.

Lemma good_R : good Rlib.
Proof.
  constructor.
  - cbn [Rlib to_i64 nfinite nltb nofZ RNum]. intros v n _ L E. apply Rltb_false in L. unfold R_to_i64 in E.
    destruct (Rle_dec 0 v); [|lra]. destruct (_ && _); [|discriminate]. injection E as <-.
    assert (1 <= Zfloor v)%Z by (apply Zfloor_lub; exact L). change (R_floor v) with (Zfloor v). lia.
  - cbn [Rlib to_i64 nofZ RNum]. unfold R_to_i64. destruct (Rle_dec 0 0) as [_|X]; [|lra].
    change (R_floor 0) with (Zfloor (IZR 0)). rewrite Zfloor_IZR. reflexivity.
  - cbn [Rlib dblmin nltb nofZ RNum]. intros v _ L. apply Rltb_false in L. apply Rltb_true.
    pose proof (bpow_gt_0 radix2 (-1022)). lra.
  - apply Rltb_false. apply Rle_refl.
Qed.
