From Coq Require Import ZArith Bool List Lia Arith Reals Lra Psatz.
From Flocq Require Import Core.Core IEEE754.BinarySingleNaN Plus_error.
From Verif.Base Require Import Num F64 F32.
From Verif.Isoline Require Import Model Spec Proofs.
Import ListNotations.
Local Open Scope Z_scope.

(** [below C z]: the level is above the corner. *)
Definition below (C z : f32) : bool := Bltb z C.

Lemma inrange_xor (a b C : f32) :
  is_finite a = true -> is_finite b = true -> is_finite C = true ->
  Beqb a C = false -> Beqb b C = false ->
  inrange a b C = xorb (below C a) (below C b).
Proof.
  intros Ha Hb HC Na Nb. unfold inrange, below.
  assert (Na' : B2R a <> B2R C) by (intros E; apply eqb32 in E; congruence).
  assert (Nb' : B2R b <> B2R C) by (intros E; apply eqb32 in E; congruence).
  pose proof (leb32 a C Ha HC). pose proof (leb32 C a HC Ha).
  pose proof (ltb32 a C Ha HC). pose proof (ltb32 b C Hb HC). pose proof (ltb32 C b HC Hb).
  destruct (Bleb a C) eqn:E1, (Bleb C a) eqn:E2, (Bltb a C) eqn:E3, (Bltb b C) eqn:E4, (Bltb C b) eqn:E5;
    simpl; try reflexivity; exfalso;
    repeat match goal with
    | H : true = true <-> _ |- _ => apply proj1 in H; specialize (H eq_refl)
    | H : false = true <-> ?p |- _ => assert (~ p) by (intros K; apply H in K; discriminate); clear H
    end; lra.
Qed.

Lemma inrange_sym (a b C : f32) :
  is_finite a = true -> is_finite b = true -> is_finite C = true ->
  Beqb a C = false -> Beqb b C = false ->
  inrange a b C = inrange b a C.
Proof. intros. rewrite !inrange_xor by assumption. apply xorb_comm. Qed.

(** * Number of crossings of a cell *)

Definition b2n (b : bool) : nat := if b then 1%nat else 0%nat.

Lemma crossings_length x y C z :
  length (crossings x y C z) =
  (b2n (inrange (z0 z) (z1 z) C) + b2n (inrange (z1 z) (z2 z) C)
   + b2n (inrange (z2 z) (z3 z) C) + b2n (inrange (z3 z) (z4 z) C))%nat.
Proof.
  unfold crossings, crossing_left, crossing_top, crossing_right, crossing_bottom.
  rewrite !app_length.
  destruct (inrange (z0 z) (z1 z) C), (inrange (z1 z) (z2 z) C),
           (inrange (z2 z) (z3 z) C), (inrange (z3 z) (z4 z) C); reflexivity.
Qed.

Definition regular (C : f32) (v : f32) : Prop :=
  is_finite v = true /\ is_finite C = true /\ Beqb v C = false.

Lemma even_crossings x y C z :
  regular C (z0 z) -> regular C (z1 z) -> regular C (z2 z) -> regular C (z3 z) -> z4 z = z0 z ->
  let n := length (crossings x y C z) in n = 0%nat \/ n = 2%nat \/ n = 4%nat.
Proof.
  intros (F0 & FC & N0) (F1 & _ & N1) (F2 & _ & N2) (F3 & _ & N3) E.
  cbv zeta. rewrite crossings_length, E.
  rewrite !inrange_xor by assumption.
  destruct (below C (z0 z)), (below C (z1 z)), (below C (z2 z)), (below C (z3 z)); simpl; auto.
Qed.

(** * Coordinates *)

Lemma plus_one_Z i : 0 <= i < 2 ^ 24 -> plus_one (f32_ofZ i) = f32_ofZ (i + 1).
Proof.
  intros Hi. destruct (f32_ofZ_R i) as (E & F); [lia|].
  destruct (f32_to_f64_Z (f32_ofZ i) i) as (E1 & F1); try assumption; [lia|].
  destruct (f64_ofZ_R 1) as (E2 & F2); [lia|].
  destruct (f64_add_R (f32_to_f64 (f32_ofZ i)) (f64_ofZ 1) 30) as (E3 & F3); try assumption; try lia.
  { rewrite E1, E2, <- plus_IZR. apply Rlt_le. apply (lt_bpow_Z (i + 1) 30 24); lia. }
  rewrite E1, E2, <- plus_IZR, rnd_Z in E3 by lia.
  destruct (f64_to_f32_Z _ (i + 1) ltac:(lia) F3 E3) as (E4 & F4).
  destruct (f32_ofZ_R (i + 1)) as (E5 & F5); [lia|].
  unfold plus_one.
  assert (NZ : IZR (i + 1) <> 0%R) by (apply IZR_neq; lia).
  apply B2R_inj; [| |rewrite E5; exact E4].
  - destruct (f64_to_f32 _) eqn:EE; try discriminate; try reflexivity.
    simpl in E4. congruence.
  - destruct (f32_ofZ (i + 1)); try discriminate; try reflexivity. simpl in E5. congruence.
Qed.

(** * Shared edges *)

(** the vertical edge between cells (i,j) and (i+1,j), with any gaps *)
Lemma shared_vertical at_ gaps i j y C :
  0 <= i < 2 ^ 24 ->
  let a := corners at_ gaps i j in
  let b := corners at_ gaps (i + 1) j in
  z2 a = z1 b /\ z3 a = z0 b /\
  (regular C (z0 b) -> regular C (z1 b) ->
   crossing_right (f32_ofZ i) y C a = crossing_left (f32_ofZ (i + 1)) y C b).
Proof.
  intros Hi a b.
  assert (E1 : z2 a = z1 b) by reflexivity.
  assert (E2 : z3 a = z0 b).
  { unfold a, b, corners, z3, z0, shift. clear.
    generalize (at_ (i + 1) j). induction gaps as [|g gs IH]; intros v; [reflexivity|].
    simpl. replace (i <? gxi g) with (i + 1 <=? gxi g).
    - apply IH.
    - apply eq_true_iff_eq. rewrite Z.leb_le, Z.ltb_lt. lia. }
  split; [assumption|]. split; [assumption|].
  intros (Fz & FC & N0) (F1 & _ & N1).
  unfold crossing_right, crossing_left. rewrite E1, E2, plus_one_Z by assumption.
  rewrite (inrange_sym (z1 b) (z0 b)) by assumption. reflexivity.
Qed.

(** the horizontal edge between cells (i,j) and (i,j+1), when no gap of row j+1
    lies at or to the right of the cell *)
Lemma shared_horizontal at_ gaps i j x C :
  0 <= j < 2 ^ 24 ->
  (forall g, In g gaps -> gyj g = j + 1 -> gxi g < i) ->
  let a := corners at_ gaps i j in
  let b := corners at_ gaps i (j + 1) in
  z1 a = z4 b /\ z2 a = z3 b /\
  (regular C (z1 a) -> regular C (z2 a) ->
   crossing_top x (f32_ofZ j) C a = crossing_bottom x (f32_ofZ (j + 1)) C b).
Proof.
  intros Hj Hg a b.
  assert (SH : forall v, shift (fun g => (gyj g =? j + 1) && (i <? gxi g)) gaps v = v).
  { unfold shift. clear a b. induction gaps as [|g gs IH]; intros v; [reflexivity|].
    simpl. replace ((gyj g =? j + 1) && (i <? gxi g)) with false.
    - apply IH. intros h Hh. apply Hg. right; assumption.
    - symmetry. apply andb_false_iff. destruct (Z.eqb_spec (gyj g) (j + 1)) as [E|E]; [|auto].
      right. apply Z.ltb_ge. specialize (Hg g (or_introl eq_refl) E). lia. }
  assert (E1 : z1 a = z4 b) by (unfold a, b, corners, z1, z4; rewrite SH; reflexivity).
  assert (E2 : z2 a = z3 b) by (unfold a, b, corners, z2, z3; rewrite SH; reflexivity).
  split; [assumption|]. split; [assumption|].
  intros (F1 & FC & N1) (F2 & _ & N2).
  unfold crossing_top, crossing_bottom. rewrite <- E1, <- E2, plus_one_Z by assumption.
  rewrite (inrange_sym (z2 a) (z1 a)) by assumption. reflexivity.
Qed.

(** * Crossing points are not NaN for moderate values *)


Lemma sub32 (a b : f32) : moderate a -> moderate b ->
  is_finite (f32_sub a b) = true /\ B2R (f32_sub a b) = rnd32 (B2R a - B2R b).
Proof.
  intros (Fa & Ba) (Fb & Bb). unfold f32_sub.
  pose proof (Bminus_correct 24 128 Hprec32 Hmax32 mode_NE a b Fa Fb) as K.
  change (round_mode mode_NE) with ZnearestE in K. fold (rnd32 (B2R a - B2R b)) in K.
  rewrite Rlt_bool_true in K.
  - destruct K as (K1 & K2 & _). auto.
  - apply Rle_lt_trans with (bpow radix2 127); [|apply bpow_lt; lia].
    rewrite rnd32_flt. apply abs_round_le_generic; auto with typeclass_instances.
    + apply generic_format_bpow. unfold FLT_exp; lia.
    + replace (B2R a - B2R b)%R with (B2R a + - B2R b)%R by ring.
      eapply Rle_trans; [apply Rabs_triang|]. rewrite Rabs_Ropp.
      change 127 with (126 + 1). rewrite bpow_plus. change (bpow radix2 1) with 2%R. lra.
Qed.

Lemma sub32_nz (a b : f32) : moderate a -> moderate b -> B2R a <> B2R b ->
  B2R (f32_sub a b) <> 0%R.
Proof.
  intros Ha Hb N. destruct (sub32 a b Ha Hb) as (_ & E). rewrite E, rnd32_flt.
  replace (B2R a - B2R b)%R with (B2R a + - B2R b)%R by ring.
  apply round_plus_neq_0; auto with typeclass_instances.
  - apply (generic_format_B2R 24 128 a).
  - apply generic_format_opp. apply (generic_format_B2R 24 128 b).
  - lra.
Qed.

Lemma div32_not_nan (a b : f32) : is_finite a = true -> is_finite b = true -> B2R b <> 0%R ->
  is_nan (f32_div a b) = false.
Proof.
  intros Fa Fb Nb. unfold f32_div.
  pose proof (Bdiv_correct 24 128 Hprec32 Hmax32 mode_NE a b Nb) as K.
  destruct (Rlt_bool _ _).
  - destruct K as (_ & K & _). rewrite Fa in K.
    destruct (Bdiv mode_NE a b); try reflexivity; discriminate.
  - destruct (Bdiv mode_NE a b); try reflexivity. discriminate.
Qed.

Lemma add32_not_nan (a b : f32) : is_finite a = true -> is_nan b = false ->
  is_nan (f32_add a b) = false.
Proof.
  intros Fa Nb. unfold f32_add. destruct (is_finite b) eqn:Fb.
  - pose proof (Bplus_correct 24 128 Hprec32 Hmax32 mode_NE a b Fa Fb) as K.
    destruct (Rlt_bool _ _).
    + destruct K as (_ & K & _). destruct (Bplus mode_NE a b); try reflexivity; discriminate.
    + destruct K as (K & _). destruct (Bplus mode_NE a b); try reflexivity. discriminate.
  - destruct b as [s|s| |s m e H]; try discriminate.
    destruct a as [s'|s'| |s' m' e' H']; try discriminate; reflexivity.
Qed.

Definition solid (p : point) : Prop := is_nan (fst p) = false /\ is_nan (snd p) = false.

Lemma param_not_nan (a b C : f32) : moderate a -> moderate b -> moderate C ->
  B2R a <> B2R b ->
  is_nan (f32_div (f32_sub C a) (f32_sub b a)) = false.
Proof.
  intros Ha Hb HC N. apply div32_not_nan.
  - apply sub32; assumption.
  - apply sub32; assumption.
  - apply sub32_nz; try assumption. congruence.
Qed.

Lemma inrange_ne (a b C : f32) :
  is_finite a = true -> is_finite b = true -> is_finite C = true ->
  inrange a b C = true -> B2R a <> B2R b.
Proof.
  intros Fa Fb FC H. unfold inrange in H. apply orb_true_iff in H as [H|H];
    apply andb_true_iff in H as (H1 & H2).
  - apply leb32 in H1; try assumption. apply ltb32 in H2; try assumption. lra.
  - apply leb32 in H1; try assumption. apply ltb32 in H2; try assumption. lra.
Qed.

Lemma finite_not_nan (x : f32) : is_finite x = true -> is_nan x = false.
Proof. destruct x; try reflexivity; discriminate. Qed.

Lemma crossings_solid i j C z :
  0 <= i < 2^24 -> 0 <= j < 2^24 ->
  moderate C -> moderate (z0 z) -> moderate (z1 z) -> moderate (z2 z) -> moderate (z3 z) -> z4 z = z0 z ->
  Forall solid (crossings (f32_ofZ i) (f32_ofZ j) C z).
Proof.
  intros Hi Hj HC M0 M1 M2 M3 E4.
  destruct (f32_ofZ_R i) as (_ & Fi); [lia|]. destruct (f32_ofZ_R j) as (_ & Fj); [lia|].
  destruct (f32_ofZ_R (i + 1)) as (_ & Fi1); [lia|]. destruct (f32_ofZ_R (j + 1)) as (_ & Fj1); [lia|].
  unfold crossings. rewrite !Forall_app.
  unfold crossing_left, crossing_top, crossing_right, crossing_bottom. rewrite E4, !plus_one_Z by assumption.
  repeat split.
  - destruct (inrange (z0 z) (z1 z) C) eqn:R; [|constructor]. constructor; [|constructor].
    split; simpl; [apply finite_not_nan; assumption|].
    apply add32_not_nan; [assumption|]. apply param_not_nan; try assumption.
    eapply inrange_ne; [| | |exact R]; [apply M0|apply M1|apply HC].
  - destruct (inrange (z1 z) (z2 z) C) eqn:R; [|constructor]. constructor; [|constructor].
    split; simpl; [|apply finite_not_nan; assumption].
    apply add32_not_nan; [assumption|]. apply param_not_nan; try assumption.
    eapply inrange_ne; [| | |exact R]; [apply M1|apply M2|apply HC].
  - destruct (inrange (z2 z) (z3 z) C) eqn:R; [|constructor]. constructor; [|constructor].
    split; simpl; [apply finite_not_nan; assumption|].
    apply add32_not_nan; [assumption|]. apply param_not_nan; try assumption.
    apply not_eq_sym. eapply inrange_ne; [| | |exact R]; [apply M2|apply M3|apply HC].
  - destruct (inrange (z3 z) (z0 z) C) eqn:R; [|constructor]. constructor; [|constructor].
    split; simpl; [|apply finite_not_nan; assumption].
    apply add32_not_nan; [assumption|]. apply param_not_nan; try assumption.
    apply not_eq_sym. eapply inrange_ne; [| | |exact R]; [apply M3|apply M0|apply HC].
Qed.

(** * [point_eq] is equality of places, on points without NaN *)

Lemma Beqb_plain (x y : f32) : Beqb x y = true -> plain x = plain y.
Proof.
  destruct x as [s|[|]| |s m e H], y as [s'|[|]| |s' m' e' H']; simpl; try discriminate; try reflexivity;
    unfold Beqb, SpecFloat.SFeqb; simpl; try discriminate;
    try (destruct s; discriminate); try (destruct s'; discriminate).
  destruct s, s'; try discriminate.
  - destruct (Z.compare_spec e e') as [->| |]; try discriminate.
    change (Pos.compare_cont Eq m m') with (Pos.compare m m').
    destruct (Pos.compare_spec m m') as [->| |]; try discriminate. reflexivity.
  - destruct (Z.compare_spec e e') as [->| |]; try discriminate.
    change (Pos.compare_cont Eq m m') with (Pos.compare m m').
    destruct (Pos.compare_spec m m') as [->| |]; try discriminate. reflexivity.
Qed.

Lemma plain_Beqb (x y : f32) : is_nan x = false -> plain x = plain y -> Beqb x y = true.
Proof.
  intros N E.
  destruct x as [s|[|]| |s m e H], y as [s'|[|]| |s' m' e' H']; simpl in *; try discriminate; try reflexivity.
  injection E as -> -> ->.
  unfold Beqb, SpecFloat.SFeqb; simpl. rewrite Z.compare_refl.
  change (Pos.compare_cont Eq m' m') with (Pos.compare m' m').
  rewrite Pos.compare_refl. destruct s'; reflexivity.
Qed.

Lemma point_eq_place p q : point_eq p q = true -> place p = place q.
Proof.
  unfold point_eq, place. intros H. apply andb_true_iff in H as (H1 & H2).
  apply Beqb_plain in H1. apply Beqb_plain in H2. congruence.
Qed.

Lemma plain_nan (x y : f32) : plain x = plain y -> is_nan x = is_nan y.
Proof.
  destruct x as [s|[|]| |s m e H], y as [s'|[|]| |s' m' e' H']; simpl; intros E; try discriminate; reflexivity.
Qed.

Lemma place_point_eq p q : solid p -> place p = place q -> point_eq p q = true.
Proof.
  intros (N1 & N2) E. unfold place in E.
  assert (E1 : plain (fst p) = plain (fst q)) by congruence.
  assert (E2 : plain (snd p) = plain (snd q)) by congruence.
  unfold point_eq. apply andb_true_iff. split; apply plain_Beqb; try (symmetry; assumption).
  - rewrite <- (plain_nan _ _ E1). assumption.
  - rewrite <- (plain_nan _ _ E2). assumption.
Qed.

Lemma point_eq_sym p q : point_eq p q = true -> point_eq q p = true.
Proof.
  intros H. pose proof (point_eq_place _ _ H) as E.
  apply place_point_eq; [|symmetry; assumption].
  unfold point_eq in H. apply andb_true_iff in H as (H1 & H2).
  split.
  - destruct (fst q); try reflexivity. destruct (fst p); discriminate.
  - destruct (snd q); try reflexivity. destruct (snd p); discriminate.
Qed.

(** * Parity of line ends *)
Section Parity.
Context {P : Type}.
Variable peq : P -> P -> bool.
Variable par : P -> bool.
Hypothesis peq_par : forall a b, peq a b = true -> par a = par b.

Definition opar (o : option P) : bool := match o with Some p => par p | None => false end.
Definition endpar (l : list P) : bool := xorb (opar (front l)) (opar (back l)).
Definition endspar (ls : list (list P)) : bool := fold_right (fun l acc => xorb (endpar l) acc) false ls.
Definition segpar (s : P * P) : bool := xorb (par (fst s)) (par (snd s)).
Definition segspar (ss : list (P * P)) : bool := fold_right (fun s acc => xorb (segpar s) acc) false ss.

Lemma endspar_app a b : endspar (a ++ b) = xorb (endspar a) (endspar b).
Proof. induction a as [|l a IH]; simpl; [destruct (endspar b); reflexivity|]. rewrite IH, xorb_assoc. reflexivity. Qed.

Lemma endspar_mid a d b : endspar (a ++ d :: b) = xorb (endpar d) (endspar (a ++ b)).
Proof.
  rewrite !endspar_app. simpl. destruct (endspar a), (endpar d), (endspar b); reflexivity.
Qed.

Lemma endpar_join_front (side : bool) dst l f p :
  dst <> [] -> front l = Some f -> peq f p = true -> (if side then front dst else back dst) = Some p ->
  endpar (join_front side dst l) = xorb (endpar dst) (endpar l).
Proof.
  intros Nd Hf E Hp. apply peq_par in E. pose proof (front_ne l f Hf) as Nl.
  assert (Nr : rev l <> []) by (intros K; apply Nl; rewrite <- (rev_involutive l), K; reflexivity).
  unfold join_front, endpar. destruct side.
  - rewrite front_app_ne, back_app_ne, front_rev by assumption. rewrite Hp, Hf. simpl. rewrite E.
    destruct (par p), (opar (back l)), (opar (back dst)); reflexivity.
  - rewrite front_app_ne, back_app_ne by assumption. rewrite Hp, Hf. simpl. rewrite E.
    destruct (par p), (opar (back l)), (opar (front dst)); reflexivity.
Qed.

Lemma endpar_join_back (side : bool) dst l f b p :
  dst <> [] -> front l = Some f -> back l = Some b -> peq b p = true ->
  (if side then front dst else back dst) = Some p ->
  endpar (join_back side dst l) = xorb (endpar dst) (endpar l).
Proof.
  intros Nd Hf Hb E Hp. apply peq_par in E. pose proof (front_ne l f Hf) as Nl.
  assert (Nr : rev l <> []) by (intros K; apply Nl; rewrite <- (rev_involutive l), K; reflexivity).
  unfold join_back, endpar. destruct side.
  - rewrite front_app_ne, back_app_ne by assumption. rewrite Hp, Hb. simpl. rewrite E.
    destruct (par p), (opar (front l)), (opar (back dst)); reflexivity.
  - rewrite front_app_ne, back_app_ne, back_rev by assumption. rewrite Hp, Hb. simpl. rewrite E.
    destruct (par p), (opar (front l)), (opar (front dst)); reflexivity.
Qed.

Lemma merge_into_par p (side : bool) dst ls d o :
  dst <> [] -> Forall long ls -> (if side then front dst else back dst) = Some p ->
  merge_into peq p side dst ls = Joined d o ->
  xorb (endpar d) (endspar o) = xorb (endpar dst) (endspar ls).
Proof.
  intros Nd Hl Hp Hm. pose proof (merge_into_shape peq p side dst ls Hl) as S. rewrite Hm in S.
  destruct S as (a & l & b & -> & -> & f & k & Hf & Hk & Hd).
  rewrite endspar_mid.
  assert (E : endpar d = xorb (endpar dst) (endpar l)).
  { destruct Hd as [(H & ->)|(H & ->)].
    - eapply endpar_join_front; eassumption.
    - eapply endpar_join_back; eassumption. }
  rewrite E, xorb_assoc. reflexivity.
Qed.

Lemma merge_lines_par before dst after side r :
  Forall long before -> long dst -> Forall long after ->
  merge_lines peq before dst after side = Some r ->
  endspar r = xorb (endpar dst) (endspar (before ++ after)).
Proof.
  intros Hb Hd Ha Hm. assert (Nd : dst <> []) by (destruct dst; [unfold long in Hd; simpl in Hd; lia|congruence]).
  unfold merge_lines in Hm.
  destruct (if side then front dst else back dst) as [p|] eqn:Hp; [|discriminate].
  destruct (merge_into peq p side dst before) as [| |d o] eqn:E1; [discriminate| |].
  - destruct (merge_into peq p side dst after) as [| |d o] eqn:E2; [discriminate| |]; injection Hm as <-.
    + apply endspar_mid.
    + rewrite endspar_mid, !endspar_app.
      pose proof (merge_into_par p side dst after d o Nd Ha Hp E2) as K.
      destruct (endspar before), (endpar d), (endspar o), (endpar dst), (endspar after); simpl in *; congruence.
  - injection Hm as <-. rewrite endspar_mid, !endspar_app.
    pose proof (merge_into_par p side dst before d o Nd Hb Hp E1) as K.
    destruct (endspar before), (endpar d), (endspar o), (endpar dst), (endspar after); simpl in *; congruence.
Qed.

Lemma commit_from_par p1 p2 all ls : forall before r,
  Forall long before -> Forall long ls -> all = before ++ ls ->
  commit_from peq before ls all p1 p2 = Some r ->
  endspar r = xorb (segpar (p1, p2)) (endspar all).
Proof.
  induction ls as [|l ls IH]; intros before r Hb Hls Hall Hc.
  - simpl in Hc. injection Hc as <-. subst all. reflexivity.
  - inversion Hls as [|? ? Hl Hls']; subst. cbn [commit_from] in Hc.
    destruct (long_front l Hl) as (f & Hf). destruct (long_back l Hl) as (b & Hbk).
    rewrite Hf, Hbk in Hc.
    assert (Ne : l <> []) by (eapply front_ne; eassumption).
    assert (Lc : forall p, long (p :: l)) by (unfold long in *; simpl; lia).
    assert (La : forall p, long (l ++ [p])) by (unfold long in *; intros; rewrite app_length; simpl; lia).
    assert (Ec : forall p, endpar (p :: l) = xorb (par p) (par b)).
    { intros p. unfold endpar. change (p :: l) with ([p] ++ l).
      rewrite (back_app_ne [p] l Ne), Hbk. reflexivity. }
    assert (Ea : forall p, endpar (l ++ [p]) = xorb (par f) (par p)).
    { intros p. unfold endpar. rewrite front_app_ne, back_app by assumption. rewrite Hf. reflexivity. }
    assert (El : endpar l = xorb (par f) (par b)) by (unfold endpar; rewrite Hf, Hbk; reflexivity).
    rewrite endspar_mid, El. unfold segpar; cbn [fst snd].
    destruct (peq f p1) eqn:E1; [|destruct (peq f p2) eqn:E2; [|destruct (peq b p1) eqn:E3; [|destruct (peq b p2) eqn:E4]]].
    + rewrite (merge_lines_par _ _ _ _ _ Hb (Lc _) Hls' Hc), Ec, (peq_par _ _ E1).
      destruct (par p1), (par p2), (par b), (endspar (before ++ ls)); reflexivity.
    + rewrite (merge_lines_par _ _ _ _ _ Hb (Lc _) Hls' Hc), Ec, (peq_par _ _ E2).
      destruct (par p1), (par p2), (par b), (endspar (before ++ ls)); reflexivity.
    + rewrite (merge_lines_par _ _ _ _ _ Hb (La _) Hls' Hc), Ea, (peq_par _ _ E3).
      destruct (par p1), (par p2), (par f), (endspar (before ++ ls)); reflexivity.
    + rewrite (merge_lines_par _ _ _ _ _ Hb (La _) Hls' Hc), Ea, (peq_par _ _ E4).
      destruct (par p1), (par p2), (par f), (endspar (before ++ ls)); reflexivity.
    + rewrite (IH (before ++ [l]) r); [|apply Forall_app; auto|assumption|rewrite <- app_assoc; reflexivity|assumption].
      rewrite endspar_mid, El. reflexivity.
Qed.

Lemma commit_all_par segs : forall ls r,
  Forall long ls -> commit_all peq ls segs = Some r ->
  endspar r = xorb (segspar segs) (endspar ls).
Proof.
  induction segs as [|(p1, p2) segs IH]; intros ls r Hl H; cbn [commit_all] in H.
  - injection H as <-. simpl. destruct (endspar ls); reflexivity.
  - unfold commit_segment in H.
    destruct (commit_from peq [] ls ls p1 p2) as [ls'|] eqn:E; [|discriminate].
    rewrite (IH ls' r); [| |assumption].
    + rewrite (commit_from_par p1 p2 ls ls [] ls' (Forall_nil _) Hl eq_refl E).
      cbn [segspar fold_right]. fold (segspar segs).
      destruct (segspar segs), (segpar (p1, p2)), (endspar ls); reflexivity.
    + destruct (commit_from_spec peq (fun _ : P => tt) (fun a b : unit => left (match a, b with tt, tt => eq_refl end))
                 (fun _ _ _ => eq_refl) p1 p2 ls ls [] (Forall_nil _) Hl eq_refl) as (r' & R1 & R2 & _).
      congruence.
Qed.

End Parity.
