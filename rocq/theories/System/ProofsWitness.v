(** Small systems with known solutions. *)

From Coq Require Import ZArith Bool List Lia Permutation Reals Lra.
From Verif.Base Require Import Num.
From Verif.Matrix Require Import Model Proofs.
From Verif.Body Require Import Model Spec.
From Verif.Flow Require Import Model.
From Verif.System Require Import Model Spec Proofs ProofsCollision ProofsWrite ProofsPhysics ProofsSolve ProofsReuse ProofsXi ProofsLaws.
Import ListNotations.
Local Open Scope R_scope.

Definition v3 (a b c : R) : vec3 RNum := @mkVec3 RNum (P a b) c.

(** A body of one corner at [h + d], held at [h], with prescribed speed [o] and
    spring constants [k]. *)
Definition speck (h d o k : vec3 RNum) (rt : option nat) (ku : bool) : sbody RNum :=
  let c := P (px (r3 h) + px (r3 d)) (py (r3 h) + py (r3 d)) in
  @mkSBody RNum
    (@mkFBody RNum
      (@mkBody RNum [@mkAtt RNum c false (P 0 0) c 0] h d o o false 0 0 c 0 0 c c [])
      [] k (v3 0 0 0) (v3 0 0 0) o rt Neglect (v3 0 0 0) 0)
    2 (v3 1 1 1) 0 0 0 ku (v3 0 0 0) (v3 0 0 0).

Lemma rigid_neg k : k < 0 -> isrigid (K:=RNum) k = true.
Proof. intros H. unfold isrigid. change (@nleb RNum) with Rleb. change (@nofZ RNum) with IZR. unfold Rleb. destruct (Rle_dec 0 k); [lra|reflexivity]. Qed.
Lemma rigid_pos k : 0 <= k -> isrigid (K:=RNum) k = false.
Proof. intros H. unfold isrigid. change (@nleb RNum) with Rleb. change (@nofZ RNum) with IZR. unfold Rleb. destruct (Rle_dec 0 k); [reflexivity|lra]. Qed.

(** One body. *)
Definition one (o : vec3 RNum) (ku : bool) (dt' gf gi : R) : sspace RNum :=
  @mkSSpace RNum [speck (v3 0 0 0) (v3 0 0 0) o (v3 (-1) (-1) (-1)) None ku] true dt' (P 0 0) (P 0 0) gi gf.

Lemma one_plan o ku dt' gf gi : plan (shapes_of (one o ku dt' gf gi)) PNull = Some
  ([mkEntry 0 (if ku then Zero else InfSteady) 0 0; mkEntry 1 (Speed CX) 0 0; mkEntry 2 (Speed CY) 0 0; mkEntry 3 (Speed CO) 0 0;
    mkEntry 4 (Hydro CX) 0 0; mkEntry 5 (Hydro CY) 0 0; mkEntry 6 (Hydro CO) 0 0;
    mkEntry 7 (Newton CX) 0 0; mkEntry 8 (Newton CY) 0 0; mkEntry 9 (Newton CO) 0 0], PNull).
Proof.
  unfold plan, shapes_of, one. cbn [sbodies map late]. unfold shape_of. cbn [plan_from].
  unfold plan_body. cbn [nseg special kutta rigid g_of fb geo speck alist length Nat.leb special_ kutta_ seq].
  cbn [plan_segs Nat.eqb negb]. unfold plan_spring.
  cbn [Flow.Model.kspring get v3 r3 o3 P x y].
  rewrite !rigid_neg by lra. destruct ku; reflexivity.
Qed.

(** Its circulation is [-gf-gi] unless it has the Kutta condition. *)
Definition one_v (o : vec3 RNum) (ku : bool) (gf gi : R) (u : unk) : R :=
  match u with
  | UG _ _ => if ku then 0 else - gf - gi
  | UV _ c => get c o
  | _ => 0
  end.

(** A turning body and one that slides on it along x, its holder at (1,0), itself at (2,0). *)
Definition two (dt' : R) : sspace RNum :=
  @mkSSpace RNum [speck (v3 0 0 0) (v3 0 0 0) (v3 0 0 1) (v3 (-1) (-1) (-1)) None true;
                  speck (v3 1 0 0) (v3 1 0 0) (v3 0 0 0) (v3 0 (-1) (-1)) (Some 0%nat) true] true dt' (P 0 0) (P 0 0) 0 0.

Ltac one_row :=
  match goal with
  | E : eqn_of _ _ _ _ _ _ _ _ _ _ = Some ?q |- _ =>
      unfold eqn_of in E; cbn [ebody ekind eseg nth_error sbodies one two] in E;
      pose proof (f_equal (fun z => match z with Some w => w | None => q end) E) as E'; cbv beta iota in E'; clear E; subst q
  end.

Lemma one_solution o ku dt' gf gi : solution (one o ku dt' gf gi) PNull (one_v o ku gf gi).
Proof.
  apply (holds_solution (fun _ _ => 0) 0 0 (one o ku dt' gf gi) (fun _ => P 0 0) (fun _ => 0) PNull _ PNull _ (one_plan o ku dt' gf gi)).
  - intros b j [<-|[]]. discriminate.
  - intros e q He E. simpl in He.
    destruct He as [<-|[<-|[<-|[<-|[<-|[<-|[<-|[<-|[<-|[<-|[]]]]]]]]]]].
    + destruct ku; one_row.
      * unfold zero_eq. cbn [coefs rhs map fst]. split; [repeat constructor; simpl; tauto|]. rewrite total_cons. cbn [fst snd one_v].
        unfold total; simpl. lra.
      * unfold inf_eq, bodies_i, indexed, ones. cbn. split; [repeat constructor; simpl; intuition discriminate|]. unfold total; simpl. unr. lra.
    + one_row. cbn. split; [repeat constructor; simpl; tauto|]. unfold total; simpl. lra.
    + one_row. cbn. split; [repeat constructor; simpl; tauto|]. unfold total; simpl. lra.
    + one_row. cbn. split; [repeat constructor; simpl; tauto|]. unfold total; simpl. lra.
    + one_row. unfold hydro_eq. cbn. split; [repeat constructor; simpl; intuition discriminate|]. unfold total; simpl. unr. lra.
    + one_row. unfold hydro_eq. cbn. split; [repeat constructor; simpl; intuition discriminate|]. unfold total; simpl. unr. lra.
    + one_row. unfold hydro_eq. cbn. split; [repeat constructor; simpl; intuition discriminate|]. unfold total; simpl. unr. lra.
    + one_row. unfold newton_eq. cbn. split; [repeat constructor; simpl; intuition discriminate|]. unfold total; simpl. unr. lra.
    + one_row. unfold newton_eq. cbn. split; [repeat constructor; simpl; intuition discriminate|]. unfold total; simpl. unr. lra.
    + one_row. unfold newton_eq. cbn. split; [repeat constructor; simpl; intuition discriminate|]. unfold total; simpl. unr. lra.
Qed.

Lemma two_plan dt' : plan (shapes_of (two dt')) PNull = Some
  ([mkEntry 0 Zero 0 0; mkEntry 1 (Speed CX) 0 0; mkEntry 2 (Speed CY) 0 0; mkEntry 3 (Speed CO) 0 0;
    mkEntry 4 (Hydro CX) 0 0; mkEntry 5 (Hydro CY) 0 0; mkEntry 6 (Hydro CO) 0 0;
    mkEntry 7 (Newton CX) 0 0; mkEntry 8 (Newton CY) 0 0; mkEntry 9 (Newton CO) 0 0;
    mkEntry 10 Zero 1 0; mkEntry 11 (Hooke CX false) 1 0; mkEntry 12 (Speed CY) 1 0; mkEntry 13 (Speed CO) 1 0;
    mkEntry 14 (Hydro CX) 1 0; mkEntry 15 (Hydro CY) 1 0; mkEntry 16 (Hydro CO) 1 0;
    mkEntry 17 (Newton CX) 1 0; mkEntry 18 (Newton CY) 1 0; mkEntry 19 (Newton CO) 1 0], PNull).
Proof.
  unfold plan, shapes_of, two. cbn [sbodies map late]. unfold shape_of. cbn [plan_from].
  unfold plan_body. cbn [nseg special kutta rigid g_of fb geo speck alist length Nat.leb special_ kutta_ seq].
  cbn [plan_segs Nat.eqb negb]. unfold plan_spring.
  cbn [Flow.Model.kspring get v3 r3 o3 P x y].
  rewrite (rigid_pos 0) by lra. rewrite !rigid_neg by lra. reflexivity.
Qed.

Definition two_v (u : unk) : R :=
  match u with
  | UV 0 CO => 1
  | UV 1 CY => 2
  | UV 1 CO => 1
  | _ => 0
  end.

Lemma two_solution dt' : solution (two dt') PNull two_v.
Proof.
  apply (holds_solution (fun _ _ => 0) 0 0 (two dt') (fun _ => P 0 0) (fun _ => 0) PNull _ PNull _ (two_plan dt')).
  - intros b j [<-|[<-|[]]]; [discriminate|]. intros [= <-]. simpl. lia.
  - intros e q He E. simpl in He.
    repeat (destruct He as [<-|He];
      [one_row; unfold zero_eq, speed_eq, hooke_eq, hydro_eq, newton_eq; cbn;
       split; [repeat constructor; simpl; intuition discriminate|unfold total; simpl; unr; lra]|]).
    destruct He.
Qed.

(** ** A slow drift *)

Definition slow : R := / 20000000000.

Definition drifted_geo (inf dt' : R) : body RNum :=
  move (K:=RNum) inf cos sin (v3 (0 * dt' - 0) (slow * dt' - 0) (0 * dt')) (v3 (0 * dt' - 0) (slow * dt' - 0) (0 * dt'))
    (set_speed (v3 0 slow 0) (g_of (speck (v3 0 0 0) (v3 0 0 0) (v3 0 slow 0) (v3 (-1) (-1) (-1)) None true))).
Definition drifted_body (inf dt' : R) : sbody RNum :=
  let b := speck (v3 0 0 0) (v3 0 0 0) (v3 0 slow 0) (v3 (-1) (-1) (-1)) None true in
  @mkSBody RNum (set_geo (drifted_geo inf dt') (fb b)) (density b) (damping b) (bounce b) (torque b) (special_ b) (kutta_ b) (force_holder b) (friction_prev b).
Definition drifted (inf dt' : R) : sspace RNum :=
  @mkSSpace RNum [drifted_body inf dt'] true dt' (P 0 0) (P 0 0) 0 0.

Lemma drifted_list inf dt' : exists d m e, alist (drifted_geo inf dt') = [@mkAtt RNum (P 0 (slow * dt')) false d m e].
Proof.
  unfold drifted_geo, move, refresh, fill_properties. cbn [set_alist alist set_speed g_of fb geo speck map update_segments nexts combine app].
  destruct (fill_cofm _) as [c m]. cbn [alist]. unfold segment. cbn [fst snd corner slip dl r eps1].
  eexists _, _, _. f_equal. f_equal. unfold move_corner. apply vec_eq; unfold get_axis, vadd, vsub, vscale, rotl; cbn [holder dpos v3 r3 o3 P x y set_speed]; unr; cbn [v3 r3 o3 x y]; rewrite ?Rmult_0_l, ?cos_0, ?sin_0; lra.
Qed.

Lemma drifted_next inf dt' : next_step inf (one (v3 0 slow 0) true dt' 0 0) (one_v (v3 0 slow 0) true 0 0) (drifted inf dt').
Proof.
  exists 0%nat. eexists. split; [|split; [|split; [|split; reflexivity]]].
  - unfold move_bodies, solved_bodies. cbn. reflexivity.
  - cbn. f_equal.
  - cbn. constructor; [|constructor]. repeat split.
Qed.

Lemma drifted_plan inf dt' : plan (shapes_of (drifted inf dt')) PNull = plan (shapes_of (one (v3 0 slow 0) true dt' 0 0)) PNull.
Proof.
  unfold plan, shapes_of, drifted, one. cbn [sbodies map late]. unfold shape_of.
  destruct (drifted_list inf dt') as (d & m & e & E).
  unfold drifted_body at 1. cbn [g_of fb geo set_geo]. unfold g_of. cbn [fb geo set_geo]. rewrite E. reflexivity.
Qed.

Lemma slow_zero inf dt' : can_use_inverse (K:=RNum) (/ 10000000000) (sbodies (one (v3 0 slow 0) true dt' 0 0)) = true /\
  can_use_inverse (K:=RNum) (/ 10000000000) (sbodies (drifted inf dt')) = true.
Proof.
  assert (Z : is_zero (K:=RNum) (/ 10000000000) (v3 0 slow 0) = true).
  { unfold is_zero. change (@nltb RNum) with Rltb. apply Rltb_true. change (@nabs RNum) with Rabs. cbn [v3 r3 o3 P x y]. unr.
    rewrite !Rabs_R0, Rabs_right; unfold slow; lra. }
  unfold can_use_inverse. cbn [sbodies one drifted forallb drifted_body fb own set_geo speck Flow.Model.kspring]. rewrite Z.
  cbn [get v3 r3 o3 P x y]. rewrite !rigid_neg by lra. split; reflexivity.
Qed.

Lemma drift_not_filled at2 tp ip inf dt' addr sl M : 0 < dt' ->
  registered addr [1%nat] sl ->
  filled at2 tp ip (one (v3 0 slow 0) true dt' 0 0) addr sl M -> ~ filled at2 tp ip (drifted inf dt') addr sl M.
Proof.
  intros Hdt Reg F F'.
  pose proof (one_plan (v3 0 slow 0) true dt' 0 0) as Hp.
  pose proof (drifted_plan inf dt') as Hp'. rewrite Hp in Hp'.
  match type of Hp with _ = Some (?es, _) => set (es0 := es) in * end.
  assert (HL : roots_listed (one (v3 0 slow 0) true dt' 0 0)) by (intros b j [<-|[]]; discriminate).
  assert (HL' : roots_listed (drifted inf dt')) by (intros b j [<-|[]]; discriminate).
  destruct (drifted_list inf dt') as (d & m & ee & EL).
  assert (Es' : sizes_of (drifted inf dt') = [1%nat]).
  { unfold sizes_of. cbn [sbodies drifted map]. unfold drifted_body, g_of. cbn [fb geo set_geo]. rewrite EL. reflexivity. }
  destruct (fill_in_spec (K:=RNum) ln at2 tp ip (/4) (/1000) (one (v3 0 slow 0) true dt' 0 0) (fun _ => P 0 0) (fun _ => 0) addr PNull es0 PNull es0 false sl M
     Hp (Permutation_refl _) Reg HL) as (M1 & E1 & _ & C1 & _).
  destruct (fill_in_spec (K:=RNum) ln at2 tp ip (/4) (/1000) (drifted inf dt') (fun _ => P 0 0) (fun _ => 0) addr PNull es0 PNull es0 false sl M
     Hp' (Permutation_refl _) ltac:(rewrite Es'; exact Reg) HL') as (M2 & E2 & _ & C2 & _).
  assert (K1 : cell M 40 = cell M1 40) by (apply (F _ _ _ _ _ _ _ Hp (Permutation_refl _) E1); cbn; lia).
  assert (K2 : cell M 40 = cell M2 40) by (apply (F' _ _ _ _ _ _ _ Hp' (Permutation_refl _) E2); rewrite Es'; cbn; lia).
  set (e4 := mkEntry 4 (Hydro CX) 0 0).
  assert (I4 : In e4 es0) by (right; right; right; right; left; reflexivity).
  assert (U : known [1%nat] (UG 0 0)) by (exists 1%nat; split; [reflexivity|lia]).
  pose proof (C1 e4 _ (UG 0 0) I4 eq_refl U) as X1.
  pose proof (C2 e4 _ (UG 0 0) I4 eq_refl ltac:(rewrite Es'; exact U)) as X2.
  cbn [andb] in X1, X2. rewrite Es' in X2.
  change (erow e4 * system_size [1%nat] + col [1%nat] (UG 0 0))%nat with 40%nat in X2.
  change (erow e4 * system_size (sizes_of (one (v3 0 slow 0) true dt' 0 0)) + col (sizes_of (one (v3 0 slow 0) true dt' 0 0)) (UG 0 0))%nat with 40%nat in X1.
  assert (H1 : cell M1 40 = / dt' * - 0).
  { rewrite X1. cbn. unr. cbn [x y]. lra. }
  assert (H2 : cell M2 40 = / dt' * - (slow * dt')).
  { rewrite X2. unfold hydro_eq. unfold g_of. cbn [coefs drifted_body fb geo set_geo]. rewrite EL. cbn. unr. cbn [x y]. lra. }
  assert (/ dt' * dt' = 1) by (field; lra). rewrite K1, H1 in K2. rewrite H2 in K2. unfold slow in K2. nra.
Qed.

(** ** A body with a mass *)

(** Area 1, density 2, pushed from rest to the speed (1,0). *)
Definition heavy : sspace RNum :=
  let c := P 0 0 in
  @mkSSpace RNum [@mkSBody RNum
    (@mkFBody RNum
      (@mkBody RNum [@mkAtt RNum c false (P 0 0) c 0] (v3 0 0 0) (v3 0 0 0) (v3 0 0 0) (v3 0 0 0) false 0 1 c 0 0 c c [])
      [] (v3 (-1) (-1) (-1)) (v3 0 0 0) (v3 0 0 0) (v3 1 0 0) None Neglect (v3 0 0 0) 0)
    2 (v3 1 1 1) 0 0 0 true (v3 0 0 0) (v3 0 0 0)] true 1 (P 0 0) (P 0 0) 0 0.

Definition heavy_v (u : unk) : R :=
  match u with
  | UV _ CX => 1
  | UH _ CX => 1
  | UF _ CX => -1
  | _ => 0
  end.

Lemma heavy_plan : plan (shapes_of heavy) PNull = Some
  ([mkEntry 0 Zero 0 0; mkEntry 1 (Speed CX) 0 0; mkEntry 2 (Speed CY) 0 0; mkEntry 3 (Speed CO) 0 0;
    mkEntry 4 (Hydro CX) 0 0; mkEntry 5 (Hydro CY) 0 0; mkEntry 6 (Hydro CO) 0 0;
    mkEntry 7 (Newton CX) 0 0; mkEntry 8 (Newton CY) 0 0; mkEntry 9 (Newton CO) 0 0], PNull).
Proof.
  unfold plan, shapes_of, heavy. cbn [sbodies map late]. unfold shape_of. cbn [plan_from].
  unfold plan_body. cbn [nseg special kutta rigid g_of fb geo speck alist length Nat.leb special_ kutta_ seq].
  cbn [plan_segs Nat.eqb negb]. unfold plan_spring.
  cbn [Flow.Model.kspring get v3 r3 o3 P x y].
  rewrite !rigid_neg by lra. reflexivity.
Qed.

Lemma heavy_solution : solution heavy PNull heavy_v.
Proof.
  apply (holds_solution (fun _ _ => 0) 0 0 heavy (fun _ => P 0 0) (fun _ => 0) PNull _ PNull _ heavy_plan).
  - intros b j [<-|[]]. discriminate.
  - intros e q He E. simpl in He.
    repeat (destruct He as [<-|He];
      [unfold eqn_of in E; cbn [ebody ekind eseg nth_error sbodies heavy] in E;
       pose proof (f_equal (fun z => match z with Some w => w | None => q end) E) as E'; cbv beta iota in E'; clear E; subst q;
       unfold zero_eq, speed_eq, hydro_eq, newton_eq, moi_axis; cbn;
       split; [repeat constructor; simpl; intuition discriminate|unfold total; simpl; unr; cbn; unr; field_simplify; lra]|]).
    destruct He.
Qed.

(** A plate in a cross flow with the Kutta condition at its left end: two
    segments, from (0,0) to (1,0) and back. *)
Definition cross_flow : R := / 2 * ln 16 + / 2.
Definition sail : sspace RNum :=
  @mkSSpace RNum [@mkSBody RNum
    (@mkFBody RNum
      (@mkBody RNum [@mkAtt RNum (P 0 0) false (P 1 0) (P (1/2) 0) 0; @mkAtt RNum (P 1 0) false (P (-1) 0) (P (1/2) 0) 0]
         (v3 0 0 0) (v3 0 0 0) (v3 0 0 0) (v3 0 0 0) false 2 0 (P 0 0) 0 0 (P 0 0) (P 1 0) [])
      [] (v3 (-1) (-1) (-1)) (v3 0 0 0) (v3 0 0 0) (v3 0 0 0) None Neglect (v3 0 0 0) 0)
    2 (v3 1 1 1) 0 0 0 true (v3 0 0 0) (v3 0 0 0)] true 1 (P 0 0) (P 0 cross_flow) 0 0.

Definition sail_v (d : pt) (u : unk) : R :=
  match u with
  | UG _ 1 => 1
  | UH _ CX | UF _ CX => - py d
  | UH _ CY | UF _ CY => 1 + px d
  | UH _ CO | UF _ CO => / 2
  | _ => 0
  end.

Lemma sail_plan d : plan (shapes_of (moved d sail)) PNull = Some
  ([mkEntry 0 Zero 0 0; mkEntry 1 Slip 0 1; mkEntry 2 (Speed CX) 0 0; mkEntry 3 (Speed CY) 0 0; mkEntry 4 (Speed CO) 0 0;
    mkEntry 5 (Hydro CX) 0 0; mkEntry 6 (Hydro CY) 0 0; mkEntry 7 (Hydro CO) 0 0;
    mkEntry 8 (Newton CX) 0 0; mkEntry 9 (Newton CY) 0 0; mkEntry 10 (Newton CO) 0 0], PNull).
Proof.
  unfold plan, shapes_of, moved, sail. cbn [sbodies map late]. unfold shape_of. cbn [plan_from].
  unfold plan_body. cbn [nseg special kutta rigid g_of fb geo moved_body moved_fb moved_geo alist map length Nat.leb special_ kutta_ seq].
  cbn [plan_segs Nat.eqb negb]. unfold plan_spring.
  cbn [Flow.Model.kspring moved_body moved_fb fb get v3 r3 o3 P x y].
  rewrite !rigid_neg by lra. reflexivity.
Qed.

Lemma sail_flux d : xi_g (K:=RNum) ln (by_ d (P 1 0)) (moved_att d (@mkAtt RNum (P 1 0) false (P (-1) 0) (P (1/2) 0) 0)) (/ 4) = cross_flow.
Proof.
  rewrite xi_g_stream; [|unfold centred, moved_att, by_, px, py, P; cbn [r corner dl x y]; apply (f_equal2 (@mkVec RNum)); lra|lra].
  unfold seg_end, dist2, moved_att, by_, px, py, P. cbn [corner dl x y].
  rewrite stream_out by lra. rewrite stream_in by lra. unfold cross_flow.
  replace ((1 + x d - (1 + x d + -1)) * (1 + x d - (1 + x d + -1)) + (0 + y d - (0 + y d + 0)) * (0 + y d - (0 + y d + 0))) with 1 by ring.
  replace (1 / (/ 4 * / 4)) with 16 by field.
  replace ((1 + x d - (1 + x d)) * (1 + x d - (1 + x d)) + (0 + y d - (0 + y d)) * (0 + y d - (0 + y d))) with 0 by ring.
  eqR. field.
Qed.

Lemma sail_slip d : lin (sail_v d) (coefs (slip_eq (K:=RNum) ln (fun _ _ => 0) 1 1 (/4) (/1000) (moved d sail) (fun _ => P 0 0) (fun _ => 0) 0 1
   (moved_att d (@mkAtt RNum (P 1 0) false (P (-1) 0) (P (1/2) 0) 0)))) = cross_flow.
Proof.
  rewrite slip_coefs. unfold bodies_i, moved, sail, indexed. cbn [sbodies map length seq combine flat_map fst snd app].
  unfold slip_terms. cbn [moved_body g_of fb moved_fb geo moved_geo alist map indexed length seq combine app].
  unfold indexed. cbn [length seq combine map app Nat.eqb moved_att corner dl]. rewrite !lin_cons. change (lin (sail_v d) []) with 0. cbn [sail_v].
  fold (moved_att d (@mkAtt RNum (P 1 0) false (P (-1) 0) (P (1/2) 0) 0)).
  assert (Q : nmul (n:=RNum) (vabs (P (-1) 0)) (/ 4) = / 4).
  { unfold vabs, abs2, dot, P. cbn [x y]. change (@nsqrt RNum) with sqrt. change (@nadd RNum) with Rplus. change (@nmul RNum) with Rmult.
    replace (-1 * -1 + 0 * 0) with (1 * 1) by lra. rewrite sqrt_square by lra. lra. }
  rewrite Q. pose proof (sail_flux d) as F.
  match goal with |- context [xi_g ln (by_ d (P 1 0)) ?s (/ 4)] => change (xi_g (K:=RNum) ln (by_ d (P 1 0)) s (/ 4) = cross_flow) in F end.
  rewrite F. eqR. lra.
Qed.

Lemma sail_solution d : solution_with (fun _ _ => 0) 1 1 (fun _ => P 0 0) (fun _ => 0) (moved d sail) PNull (sail_v d).
Proof.
  apply (holds_with (fun _ _ => 0) 1 1 (moved d sail) (fun _ => P 0 0) (fun _ => 0) PNull _ PNull _ (sail_plan d)).
  - intros b j [<-|[]]. discriminate.
  - intros e q He E. simpl in He.
    destruct He as [<-|[<-|He]].
    + unfold eqn_of in E. cbn [ebody ekind eseg nth_error sbodies moved sail map] in E.
      pose proof (f_equal (fun z => match z with Some w => w | None => q end) E) as E'; cbv beta iota in E'; clear E; subst q.
      unfold zero_eq. cbn [coefs rhs map fst]. split; [repeat constructor; simpl; tauto|]. unfold total; simpl. lra.
    + unfold eqn_of in E. cbn [ebody ekind eseg nth_error sbodies moved sail map moved_body g_of fb moved_fb geo moved_geo alist option_map] in E.
      pose proof (f_equal (fun z => match z with Some w => w | None => q end) E) as E'; cbv beta iota in E'; clear E; subst q.
      split; [apply (slip_nodup (fun _ _ => 0) 1 1 (fun _ => P 0 0) (fun _ => 0) (moved d sail))|].
      transitivity cross_flow; [exact (sail_slip d)|].
      unfold slip_eq. cbn [rhs moved sail inf_speed moved_att dl r]. unfold dot, rotl. unr. cbn [x y]. unr.
      match goal with |- @eq _ ?a ?b => change (@eq R a b) end. lra.
    + repeat (destruct He as [<-|He];
      [unfold eqn_of in E; cbn [ebody ekind eseg nth_error sbodies moved sail map] in E;
       pose proof (f_equal (fun z => match z with Some w => w | None => q end) E) as E'; cbv beta iota in E'; clear E; subst q;
       unfold zero_eq, speed_eq, hydro_eq, newton_eq, moi_axis; cbn;
       split; [repeat constructor; simpl; intuition discriminate|unfold total; simpl; unr; cbn; unr; field_simplify; lra]|]).
    destruct He.
Qed.

(** A body without mass two units away from its holder on a spring of strength 3. *)
Definition sprung : sspace RNum :=
  @mkSSpace RNum [speck (v3 0 0 0) (v3 2 0 0) (v3 0 0 0) (v3 3 (-1) (-1)) None true] true 1 (P 0 0) (P 0 0) 0 0.
Definition sprung_v (u : unk) : R := match u with UV _ CX => -6 | _ => 0 end.

Lemma sprung_plan : plan (shapes_of sprung) PNull = Some
  ([mkEntry 0 Zero 0 0; mkEntry 1 (Hooke CX false) 0 0; mkEntry 2 (Speed CY) 0 0; mkEntry 3 (Speed CO) 0 0;
    mkEntry 4 (Hydro CX) 0 0; mkEntry 5 (Hydro CY) 0 0; mkEntry 6 (Hydro CO) 0 0;
    mkEntry 7 (Newton CX) 0 0; mkEntry 8 (Newton CY) 0 0; mkEntry 9 (Newton CO) 0 0], PNull).
Proof.
  unfold plan, shapes_of, sprung. cbn [sbodies map late]. unfold shape_of. cbn [plan_from].
  unfold plan_body. cbn [nseg special kutta rigid g_of fb geo speck alist length Nat.leb special_ kutta_ seq].
  cbn [plan_segs Nat.eqb negb]. unfold plan_spring.
  cbn [Flow.Model.kspring get v3 r3 o3 P x y].
  rewrite rigid_pos by lra. rewrite !rigid_neg by lra. reflexivity.
Qed.

Lemma sprung_solution : solution sprung PNull sprung_v.
Proof.
  apply (holds_solution (fun _ _ => 0) 0 0 sprung (fun _ => P 0 0) (fun _ => 0) PNull _ PNull _ sprung_plan).
  - intros b j [<-|[]]. discriminate.
  - intros e q He E. simpl in He.
    repeat (destruct He as [<-|He];
      [unfold eqn_of in E; cbn [ebody ekind eseg nth_error sbodies sprung] in E;
       pose proof (f_equal (fun z => match z with Some w => w | None => q end) E) as E'; cbv beta iota in E'; clear E; subst q;
       unfold zero_eq, speed_eq, hooke_eq, hydro_eq, newton_eq, moi_axis; cbn;
       split; [repeat constructor; simpl; intuition discriminate|unfold total; simpl; unr; cbn; unr; field_simplify; lra]|]).
    destruct He.
Qed.
