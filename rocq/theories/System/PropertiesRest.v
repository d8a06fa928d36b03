(** C129: what is at rest stays at rest. *)

From Coq Require Import ZArith Bool List Lia Reals Lra Permutation.
From Verif.Base Require Import Num.
From Verif.Matrix Require Import Model.
From Verif.Body Require Import Model Spec.
From Verif.Flow Require Import Model Spec.
From Verif.System Require Import Model Spec Proofs ProofsWrite ProofsPhysics ProofsLaws ProofsWitness SpecKelvin SpecRest ProofsRest.
From Verif.Vortex Require Import ProofsKernel.
Import ListNotations.
Local Open Scope R_scope.

(** Without a cause, no circulation, no speed and no force solve the system, with or
    without a collision pending. *)
Theorem C129_system : forall at2 tp ip (S : sspace RNum) p es q, rest S -> plan (shapes_of S) p = Some (es, q) -> roots_listed S ->
  solution_with at2 tp ip (fun _ => P 0 0) (fun _ => 0) S p (fun _ => 0).
Proof. intros. eapply rest_zero; eassumption. Qed.
Print Assumptions C129_system.

(** Over any number of steps no vortex appears and every body stays in its place with
    its holder, as long as the systems have one solution. *)
Theorem C129_stays : forall inf dbl_max eps gap at2 tp ip S F fr S' F' fr', 0 < eps ->
  quiet S F fr -> rsteps inf dbl_max eps gap at2 tp ip S F fr S' F' fr' ->
  rest S' /\ vort F' = [] /\ map place (bodies F') = map place (bodies F).
Proof.
  intros inf dbl_max eps gap at2 tp ip S F fr S' F' fr' Pe Q St. destruct (quiet_steps inf dbl_max eps gap at2 tp ip Pe _ _ _ _ _ _ St Q) as ((Rt & _ & V & _) & Pl). auto.
Qed.
Print Assumptions C129_stays.

(** In the step itself speeds and circulations are zero. *)
Theorem C129_step : forall inf dbl_max eps gap at2 tp ip S F fr S' F' fr', 0 < eps ->
  quiet S F fr -> rstep inf dbl_max eps gap at2 tp ip S F fr S' F' fr' ->
  Forall (fun b : fbody RNum => speed_slae (geo b) = nil3) (bodies F') /\
  Forall (fun b : fbody RNum => Forall (fun s : seg RNum => sg s = 0) (segs b)) (bodies F').
Proof. intros inf dbl_max eps gap at2 tp ip S F fr S' F' fr' Pe Q St. exact (proj2 (proj2 (quiet_step inf dbl_max eps gap at2 tp ip Pe _ _ _ _ _ _ Q St))). Qed.
Print Assumptions C129_step.

(** The causes left out are all there are: if bodies that did not move stay without
    motion and force, then no speed is prescribed, none of them is heavier or
    lighter than the fluid it displaces, and the springs are relaxed. *)
Theorem C129_causes : forall at2 tp ip sk ff (S : sspace RNum) i b, late S = true -> Forall still (sbodies S) ->
  solution_with at2 tp ip sk ff S PNull (fun _ => 0) -> nth_error (sbodies S) i = Some b ->
  (forall c, isrigid (K:=RNum) (get c (Flow.Model.kspring (fb b))) = true -> get c (own (fb b)) = 0) /\
  (density b - 1) * area (g_of b) * px (gravity S) = 0 /\ (density b - 1) * area (g_of b) * py (gravity S) = 0 /\
  (forall c, isrigid (K:=RNum) (get c (Flow.Model.kspring (fb b))) = false ->
    get c (Flow.Model.kspring (fb b)) * get c (dpos (g_of b)) + match c with CO => torque b | _ => 0 end = 0).
Proof.
  intros at2 tp ip sk ff S i b Lt St Sol Hb. destruct (zero_rows at2 tp ip sk ff S PNull Sol) as (es & q & Hp & Z).
  assert (T : still b) by (rewrite Forall_forall in St; apply St; eapply nth_error_In; exact Hb). destruct T as [Ts Td Tg Tf Th].
  assert (Hs : nth_error (shapes_of S) i = Some (shape_of (late S) b)) by (unfold shapes_of; rewrite nth_error_map, Hb; reflexivity).
  assert (N : forall c, rhs (newton_eq (K:=RNum) S c i b) = 0).
  { intros c. assert (Hh : has es (0 + i) (Newton c)) by (eapply plan_has_forces; [exact Hp|]; apply nth_error_Some; congruence).
    destruct Hh as (e & He & Ei & Ek). cbn [Nat.add] in Ei. apply (Z e _ He). unfold eqn_of. rewrite Ei, Hb, Ek. reflexivity. }
  split; [|split; [|split]].
  - intros c Hr. destruct (plan_has_speed _ _ _ _ i _ c Hp Hs) as (e & He & Ei & Ek); [cbn [shape_of rigid]; rewrite Hr; reflexivity|].
    pose proof (Z e (speed_eq (K:=RNum) S c i b) He) as X. apply X. unfold eqn_of. rewrite Ei, Hb, Ek. reflexivity.
  - specialize (N CX). unfold newton_eq in N. rewrite Ts in N. unfold nil3, P, sqr, px in *. cbn [rhs r3 o3 x y] in N. unr. lra.
  - specialize (N CY). unfold newton_eq in N. rewrite Ts in N. unfold nil3, P, sqr, py in *. cbn [rhs r3 o3 x y] in N. unr. lra.
  - intros c Hr. destruct (spring_plain _ _ _ i _ c Hp Hs) as (e & He & Ei & Ek); [cbn [shape_of rigid]; rewrite Hr, Lt; reflexivity|].
    pose proof (Z e (hooke_eq (K:=RNum) c false i b) He) as X. unfold eqn_of in X. rewrite Ei, Hb, Ek in X. specialize (X eq_refl). unfold hooke_eq in X. cbn [rhs] in X.
    destruct c; unr; change (Num.T RNum) with R in *; lra.
Qed.
Print Assumptions C129_causes.

(** ** A body on springs, of the density of the fluid, under gravity *)

Definition buoy : sbody RNum :=
  let c := P 1 0 in
  @mkSBody RNum
    (@mkFBody RNum
      (@mkBody RNum [@mkAtt RNum c false (P 0 0) c 0] (v3 1 0 0) (v3 0 0 0) (v3 0 0 0) (v3 0 0 0) false 0 0 c 0 0 c c [])
      [@mkSeg RNum 0 0 0 0 None] (v3 1 1 1) (v3 0 0 0) (v3 0 0 0) (v3 0 0 0) None Neglect (v3 0 0 0) 0)
    1 (v3 1 1 1) 0 0 0 true (v3 0 0 0) (v3 0 0 0).
Definition pond : sspace RNum := @mkSSpace RNum [buoy] true 1 (P 0 (-9)) (P 0 0) 0 0.
Definition water : space RNum := mkSpace [fb buoy] [] [] [].

Lemma pond_quiet : quiet pond water [nil3].
Proof.
  split; [|repeat split; repeat constructor]. constructor; cbn; try reflexivity; try lra.
  - constructor; [|constructor]. constructor; cbn; [reflexivity|right; reflexivity|]. intros [] _; cbn; unr; lra.
  - constructor; [|constructor]. constructor; reflexivity.
Qed.

Lemma pond_plan : plan (shapes_of pond) PNull = Some
  ([mkEntry 0 Zero 0 0; mkEntry 1 (Hooke CX false) 0 0; mkEntry 2 (Hooke CY false) 0 0; mkEntry 3 (Hooke CO false) 0 0;
    mkEntry 4 (Hydro CX) 0 0; mkEntry 5 (Hydro CY) 0 0; mkEntry 6 (Hydro CO) 0 0;
    mkEntry 7 (Newton CX) 0 0; mkEntry 8 (Newton CY) 0 0; mkEntry 9 (Newton CO) 0 0], PNull).
Proof.
  unfold plan, shapes_of, pond. cbn [sbodies map late]. unfold shape_of. cbn [plan_from].
  unfold plan_body. cbn [nseg special kutta rigid g_of fb geo buoy alist length Nat.leb special_ kutta_ seq].
  cbn [plan_segs Nat.eqb negb]. unfold plan_spring. cbn [Flow.Model.kspring get v3 r3 o3 P x y].
  assert (S1 : isrigid (K:=RNum) 1 = false). { unfold isrigid. change (@nleb RNum) with Rleb. unfold Rleb. cbn [nofZ nfinite RNum]. destruct (Rle_dec 0 1); [reflexivity|lra]. }
  rewrite S1. reflexivity.
Qed.

Lemma pond_one : one_solution (fun _ _ => 0) 1 1 pond PNull.
Proof.
  assert (X : forall v, solution_with (fun _ _ => 0) 1 1 (fun _ => P 0 0) (fun _ => 0) pond PNull v -> forall u, known (sizes_of pond) u -> v u = 0).
  { intros v (addr & es & q & order & sl & M & M' & Hp & HP & HR & HL & HF & Hsol) u Hu. rewrite pond_plan in Hp. injection Hp as <- <-.
    pose proof (fun e qn He Eq ND => row_holds (fun _ _ => 0) 1 1 pond (fun _ => P 0 0) (fun _ => 0) addr PNull _ PNull order sl M M' v e qn pond_plan HP HR HL HF Hsol He Eq ND) as Row. clear HP HR HL HF Hsol.
    assert (G0 : v (UG 0 0) = 0).
    { pose proof (Row (mkEntry 0 Zero 0 0) _ ltac:(simpl; tauto) eq_refl ltac:(cbn; repeat constructor; simpl; tauto)) as X. unfold zero_eq, total in X. cbn in X. unr. lra. }
    assert (HX : forall c, v (UH 0 c) = 0 /\ v (UF 0 c) = v (UH 0 c) /\ v (UV 0 c) = v (UF 0 c)).
    { intros c. assert (I1 : In (match c with CX => mkEntry 4 (Hydro CX) 0 0 | CY => mkEntry 5 (Hydro CY) 0 0 | CO => mkEntry 6 (Hydro CO) 0 0 end) [mkEntry 0 Zero 0 0; mkEntry 1 (Hooke CX false) 0 0; mkEntry 2 (Hooke CY false) 0 0; mkEntry 3 (Hooke CO false) 0 0;
    mkEntry 4 (Hydro CX) 0 0; mkEntry 5 (Hydro CY) 0 0; mkEntry 6 (Hydro CO) 0 0;
    mkEntry 7 (Newton CX) 0 0; mkEntry 8 (Newton CY) 0 0; mkEntry 9 (Newton CO) 0 0]) by (destruct c; simpl; tauto).
      assert (I2 : In (match c with CX => mkEntry 7 (Newton CX) 0 0 | CY => mkEntry 8 (Newton CY) 0 0 | CO => mkEntry 9 (Newton CO) 0 0 end) [mkEntry 0 Zero 0 0; mkEntry 1 (Hooke CX false) 0 0; mkEntry 2 (Hooke CY false) 0 0; mkEntry 3 (Hooke CO false) 0 0;
    mkEntry 4 (Hydro CX) 0 0; mkEntry 5 (Hydro CY) 0 0; mkEntry 6 (Hydro CO) 0 0;
    mkEntry 7 (Newton CX) 0 0; mkEntry 8 (Newton CY) 0 0; mkEntry 9 (Newton CO) 0 0]) by (destruct c; simpl; tauto).
      assert (I3 : In (match c with CX => mkEntry 1 (Hooke CX false) 0 0 | CY => mkEntry 2 (Hooke CY false) 0 0 | CO => mkEntry 3 (Hooke CO false) 0 0 end) [mkEntry 0 Zero 0 0; mkEntry 1 (Hooke CX false) 0 0; mkEntry 2 (Hooke CY false) 0 0; mkEntry 3 (Hooke CO false) 0 0;
    mkEntry 4 (Hydro CX) 0 0; mkEntry 5 (Hydro CY) 0 0; mkEntry 6 (Hydro CO) 0 0;
    mkEntry 7 (Newton CX) 0 0; mkEntry 8 (Newton CY) 0 0; mkEntry 9 (Newton CO) 0 0]) by (destruct c; simpl; tauto).
      pose proof (Row _ (hydro_eq (K:=RNum) pond c 0 buoy) I1 ltac:(destruct c; reflexivity) ltac:(destruct c; cbn; repeat constructor; simpl; intuition discriminate)) as X1.
      pose proof (Row _ (newton_eq (K:=RNum) pond c 0 buoy) I2 ltac:(destruct c; reflexivity) ltac:(destruct c; cbn; repeat constructor; simpl; intuition discriminate)) as X2.
      pose proof (Row _ (hooke_eq (K:=RNum) c false 0 buoy) I3 ltac:(destruct c; reflexivity) ltac:(destruct c; cbn; repeat constructor; simpl; intuition discriminate)) as X3.
      clear Row I1 I2 I3. unfold hydro_eq, newton_eq, hooke_eq, children, bodies_i, indexed, total in *. destruct c; cbn in X1, X2, X3; unfold moi_axis, get_axis, abs2, dot, vsub, vadd, sqr in *; cbn in X1, X2, X3; unr; rewrite ?G0 in *; lra. }
    destruct u as [i k|i c|i c|i c]; cbn [known] in Hu.
    - destruct Hu as (n & E & L). destruct i as [|i]; [|destruct i; discriminate]. injection E as <-. destruct k as [|k]; [exact G0|cbn in L; lia].
    - assert (i = 0)%nat by (cbn in Hu; lia). subst i. destruct (HX c) as (A & B & C). lra.
    - assert (i = 0)%nat by (cbn in Hu; lia). subst i. apply HX.
    - assert (i = 0)%nat by (cbn in Hu; lia). subst i. destruct (HX c) as (A & B & C). lra. }
  intros v w Sv Sw u Hu. rewrite (X v Sv u Hu), (X w Sw u Hu). reflexivity.
Qed.

(** It makes a step, and stays where it is. *)
Example C129_ex : exists S' F', rstep 1 1 1 0 (fun _ _ => 0) 1 1 pond water [nil3] S' F' [nil3] /\ rest S' /\ map place (bodies F') = [([P 1 0], v3 1 0 0, v3 0 0 0)].
Proof.
  assert (X : exists S' F', rstep 1 1 1 0 (fun _ _ => 0) 1 1 pond water [nil3] S' F' [nil3]).
  { set (v := fun _ : unk => 0).
    set (b1 := written_body v (0%nat, fb buoy)).
    set (F1 := @mkSpace RNum [b1] [] [] []).
    assert (B4 : exists b4, bodies (zero_forces (vortex_shed (K:=RNum) 1 0 F1)) = [b4] /\ root b4 = None /\ own b4 = nil3) by (eexists; split; [reflexivity|split; reflexivity]).
    destruct B4 as (b4 & B4 & Rb & Ob).
    set (F4 := @mkSpace RNum [b4] [] [] []).
    assert (M : exists b5 cdt ptr, move_and_clean (K:=RNum) 1 1 cos sin 1 0 1 F4 = Some (@mkSpace RNum [b5] [] [] [], cdt, ptr, 0%nat) /\ own b5 = nil3).
    { unfold move_and_clean. match goal with |- context [@detect RNum ?a ?b ?c ?d] => destruct (@detect RNum a b c d) as [cdt ptr] end. unfold F4. cbn [bodies vort heat streak map filter].
      unfold move_bodies. cbn [all_some]. unfold move_body at 1, deltas. cbn [chain_error]. rewrite Rb. cbn [option_map clean_vort clean_heat clean_streak map].
      eexists _, cdt, ptr. split; [reflexivity|]. unfold bury. destruct (fold_left _ _ _) as [[s f] d]. exact Ob. }
    destruct M as (b5 & cdt & ptr & M & O5).
    exists (@mkSSpace RNum [@mkSBody RNum b5 1 (v3 1 1 1) 0 0 0 true nil3 nil3] true 1 (P 0 (-9)) (P 0 0) 0 0), (@mkSpace RNum [b5] [] [] []).
    constructor; try reflexivity.
    - split; reflexivity.
    - exists PNull, v, F1, F1, F4, (@mkSpace RNum [b5] [] [] []), 0%nat, 1, cdt, ptr, 0%nat.
      split; [exact pond_one|]. split; [apply (C129_system (fun _ _ => 0) 1 1 pond PNull _ _ (proj1 pond_quiet) pond_plan); intros b j [<-|[]]; discriminate|].
      split; [reflexivity|]. split; [constructor|]. split; [reflexivity|]. split; [symmetry; exact B4|].
      split; [cbn [vort vortex_shed F1 bodies flat_map app]; rewrite (none_shed 1 0); [reflexivity|lra|repeat constructor]|].
      split; [exact M|]. split; [constructor; [exists (own b5); destruct b5; reflexivity|constructor]|]. split; [reflexivity|]. split; [reflexivity|]. intros _. repeat constructor.
    - split; reflexivity.
    - repeat constructor.
    - repeat split.
    - repeat constructor. exact O5. }
  destruct X as (S' & F' & X). exists S', F'. split; [exact X|].
  destruct (C129_stays 1 1 1 0 (fun _ _ => 0) 1 1 pond water [nil3] S' F' [nil3] ltac:(lra) pond_quiet) as (Rt & _ & Pl); [eapply RMore; [exact X|apply RNone]|].
  split; [exact Rt|]. rewrite Pl. reflexivity.
Qed.
