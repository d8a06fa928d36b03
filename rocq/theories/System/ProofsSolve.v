(** Circulations and speeds of an exact solution, and what they do to the motion. *)

From Coq Require Import ZArith Bool List Lia Permutation Reals Lra.
From Verif.Base Require Import Num.
From Verif.Matrix Require Import Model Proofs.
From Verif.Body Require Import Model Spec.
From Verif.Flow Require Import Model.
From Verif.System Require Import Model Spec Proofs ProofsCollision ProofsWrite ProofsPhysics.
Import ListNotations.
Local Open Scope R_scope.

Ltac unr :=
  change (@nadd RNum) with Rplus in *; change (@nsub RNum) with Rminus in *; change (@nmul RNum) with Rmult in *;
  change (@ndiv RNum) with Rdiv in *; change (@nopp RNum) with Ropp in *; change (@nofZ RNum) with IZR in *;
  unfold px, py, P in *; cbn [x y r3 o3] in *; unfold Rdiv in *.

(** ** The equation of the special segment *)

Lemma plan_segs_special (sp : nat) (ku : bool) (b : nat) : forall (segs : list nat) (row : nat) (once : bool), In sp segs -> NoDup segs ->
  exists r, In (mkEntry r (if ku then Zero else if once then Steady else InfSteady) b sp) (fst (plan_segs sp ku b segs row once)).
Proof.
  induction segs as [|i t IH]; intros row once HI ND; [destruct HI|]. apply NoDup_cons_iff in ND. destruct ND as [Ni ND]. simpl.
  destruct (Nat.eqb_spec i sp) as [->|N]; simpl.
  - destruct ku.
    + destruct (plan_segs sp true b t (S row) once). exists row. left. reflexivity.
    + destruct (plan_segs sp false b t (S row) true). exists row. left. reflexivity.
  - destruct HI as [|HI]; [congruence|]. destruct (IH (S row) once HI ND) as (r & H).
    destruct (plan_segs sp ku b t (S row) once). exists r. right. exact H.
Qed.

Lemma plan_segs_once (sp : nat) (ku : bool) (b : nat) : forall segs row once, NoDup segs -> In sp segs -> snd (plan_segs sp ku b segs row once) = once || negb ku.
Proof.
  intros segs row once ND H. pose proof (plan_segs_inf sp ku b segs row once ND H) as X.
  destruct (plan_segs sp ku b segs row once) as [l o]. apply X.
Qed.

Lemma plan_special l : forall b row once p es q, plan_from b l row once p = Some (es, q) ->
  forall i s, nth_error l i = Some s ->
  exists r, In (mkEntry r (if kutta s then Zero else if once || existsb (fun s => negb (kutta s)) (firstn i l) then Steady else InfSteady) (b + i) (special s)) es.
Proof.
  induction l as [|s t IH]; intros b row once p es q; simpl; [intros _ i s Hi; destruct i; discriminate Hi|].
  destruct (plan_body b s row once p) as [[[es1 o1] p1]|] eqn:E1; [|discriminate].
  destruct (plan_from (S b) t (row + nseg s + 9) o1 p1) as [[es2 p2]|] eqn:E2; [|discriminate].
  intros H i s' Hi. assert (es = es1 ++ es2) as -> by congruence. clear H.
  unfold plan_body in E1. destruct (Nat.leb_spec (nseg s) (special s)) as [L|L]; [discriminate E1|].
  assert (Hin : In (special s) (seq 0 (nseg s))) by (apply in_seq; lia).
  pose proof (plan_segs_special (special s) (kutta s) b (seq 0 (nseg s)) row once Hin (seq_NoDup _ _)) as HS.
  pose proof (plan_segs_once (special s) (kutta s) b (seq 0 (nseg s)) row once (seq_NoDup _ _) Hin) as HO.
  destruct (plan_segs (special s) (kutta s) b (seq 0 (nseg s)) row once) as [l0 o0]. cbn [fst snd] in HS, HO.
  destruct (plan_spring (rigid s CX) b CX p) as [kx q1].
  destruct (plan_spring (rigid s CY) b CY q1) as [ky q2].
  destruct (plan_spring (rigid s CO) b CO q2) as [ko q3].
  pose proof (f_equal (fun z => match z with Some (a, _, _) => a | None => [] end) E1) as Ees.
  pose proof (f_equal (fun z => match z with Some (_, o, _) => o | None => true end) E1) as Eo. cbv beta iota in Ees, Eo.
  clear E1. destruct i as [|i]; simpl in Hi.
  - injection Hi as ->. destruct HS as (r & HS). exists r. rewrite Nat.add_0_r. cbn [firstn existsb]. rewrite orb_false_r.
    apply in_app_iff. left. rewrite <- Ees. apply in_app_iff. left. exact HS.
  - destruct (IH _ _ _ _ _ _ E2 i s' Hi) as (r & HH). exists r. apply in_app_iff. right.
    replace (b + S i)%nat with (S b + i)%nat by lia. cbn [firstn existsb]. rewrite <- Eo, HO in HH.
    rewrite <- orb_assoc in HH. exact HH.
Qed.

(** ** Circulations *)

Section Circ.
Variables (S : sspace RNum) (p : ptr) (v : unk -> R).
Hypothesis Sol : solution S p v.

Lemma sol_entry : exists atan2f two_pi inv_2pi sinks free_flux es q,
  plan (shapes_of S) p = Some (es, q) /\
  forall e qn, In e es ->
    eqn_of (K:=RNum) ln atan2f two_pi inv_2pi (/4) (/1000) S sinks free_flux e = Some qn ->
    NoDup (map fst (coefs qn)) -> lin v (coefs qn) = rhs qn.
Proof.
  destruct Sol as (at2 & tp & ip & sk & ff & addr & es & q & order & sl & M & M' & Hp & HP & HR & HL & HF & Hs).
  exists at2, tp, ip, sk, ff, es, q. split; [exact Hp|].
  intros e qn He Eq ND. unfold lin. exact (row_holds at2 tp ip S sk ff addr p es q order sl M M' v e qn Hp HP HR HL HF Hs He Eq ND).
Qed.

Lemma ones_lin i (b : sbody RNum) : lin v (ones i b) = body_circulation v (i, b).
Proof.
  unfold ones, body_circulation. rewrite lin_app, lin_cons. unfold lin. rewrite total_map. cbn [fst snd].
  change (total (fun t : unk * R => snd t * v (fst t)) []) with 0.
  rewrite (total_ext _ (fun k => v (UG i k))) by (intros; unr; lra). unr. lra.
Qed.

Lemma ones_nodup i b : NoDup (map fst (ones (K:=RNum) i b)).
Proof.
  replace (map fst (ones i b)) with (rev (UV i CO :: rev (map (UG i) (seq 0 (length (alist (g_of b))))))).
  - apply NoDup_rev. constructor.
    + rewrite <- in_rev, in_map_iff. intros (k & E & _). discriminate E.
    + apply NoDup_rev. apply FinFun.Injective_map_NoDup; [intros a c; congruence|apply seq_NoDup].
  - unfold ones. rewrite map_app, map_map. cbn [rev]. rewrite rev_involutive. reflexivity.
Qed.

Lemma inf_nodup : NoDup (map fst (coefs (inf_eq (K:=RNum) S))).
Proof.
  unfold inf_eq. cbn [coefs].
  assert (X : NoDup (map fst (bodies_i S))).
  { unfold bodies_i, indexed. rewrite map_fst_indexed. apply seq_NoDup. }
  revert X. generalize (bodies_i S). induction l as [|[j b] t IH]; [constructor|]. cbn [map fst snd flat_map]. rewrite map_app.
  intros X. apply NoDup_cons_iff in X. destruct X as [Nj X]. specialize (IH X).
  assert (Hb : forall j b u, In u (map fst (ones (K:=RNum) j b)) -> ubody u = j).
  { intros j' b' u. unfold ones. rewrite map_app, in_app_iff, map_map, in_map_iff. cbn [fst snd].
    intros [(k & <- & _)|[<-|[]]]; reflexivity. }
  pose proof (ones_nodup j b) as Ho. revert Ho. generalize (Hb j b). generalize (map fst (ones j b)).
  induction l as [|u w IHw]; intros Hu Ho; [exact IH|]. simpl. apply NoDup_cons_iff in Ho. destruct Ho as [Nu Ho]. constructor.
  - rewrite in_app_iff. intros [H|H]; [contradiction|]. apply in_map_iff in H. destruct H as ([u' a] & E & H). cbn [fst] in E. subst u'.
    apply in_flat_map in H. destruct H as ([j' b'] & Hj & H). cbn [fst snd] in H. apply (in_map fst) in H. cbn [fst] in H. apply Hb in H.
    rewrite (Hu u (or_introl eq_refl)) in H. subst j'. apply Nj. apply (in_map fst) in Hj. exact Hj.
  - apply IHw; [intros; apply Hu; right; assumption|exact Ho].
Qed.

Lemma inf_lin : lin v (coefs (inf_eq (K:=RNum) S)) = total (body_circulation v) (indexed (sbodies S)).
Proof.
  unfold inf_eq. cbn [coefs]. unfold lin. rewrite total_flat_map. apply total_ext. intros [j b] _. cbn [fst snd]. apply ones_lin.
Qed.

(** First the special segments ... *)
Lemma special_rows i b : nth_error (sbodies S) i = Some b ->
  if kutta_ b then v (UG i (special_ b)) = 0
  else if existsb (fun c => negb (kutta_ c)) (firstn i (sbodies S))
       then body_circulation v (i, b) = g_dead (fb b) + 2 * area (g_of b) * o3 (speed_slae_prev (g_of b))
       else total (body_circulation v) (indexed (sbodies S)) = - gfree S - inf_g S.
Proof.
  intros Hb. destruct sol_entry as (at2 & tp & ip & sk & ff & es & q & Hp & H).
  assert (Hs : nth_error (shapes_of S) i = Some (shape_of (late S) b)) by (unfold shapes_of; rewrite nth_error_map, Hb; reflexivity).
  destruct (plan_special _ _ _ _ _ _ _ Hp i _ Hs) as (r & Hr). cbn [shape_of kutta special nseg] in Hr.
  rewrite orb_false_l, Nat.add_0_l in Hr.
  assert (Ex : existsb (fun s => negb (kutta s)) (firstn i (shapes_of S)) = existsb (fun c => negb (kutta_ c)) (firstn i (sbodies S))).
  { unfold shapes_of. rewrite firstn_map. generalize (firstn i (sbodies S)). induction l as [|c t IH]; [reflexivity|]. simpl. rewrite IH. reflexivity. }
  rewrite Ex in Hr. clear Ex Hs.
  destruct (kutta_ b).
  - specialize (H _ (zero_eq i (special_ b)) Hr). unfold eqn_of in H. cbn [ebody ekind eseg] in H. rewrite Hb in H.
    specialize (H eq_refl). unfold zero_eq in H. cbn [coefs rhs map fst] in H. rewrite lin_cons in H. change (lin v []) with 0 in H.
    unr. assert (X : 1 * v (UG i (special_ b)) + 0 = 0) by (apply H; repeat constructor; simpl; tauto). lra.
  - destruct (existsb (fun c => negb (kutta_ c)) (firstn i (sbodies S))).
    + specialize (H _ (steady_eq i b) Hr). unfold eqn_of in H. cbn [ebody ekind eseg] in H. rewrite Hb in H.
      specialize (H eq_refl (ones_nodup i b)). unfold steady_eq in H. cbn [coefs rhs] in H. rewrite ones_lin in H. rewrite H. reflexivity.
    + specialize (H _ (inf_eq S) Hr). unfold eqn_of in H. cbn [ebody ekind eseg] in H. rewrite Hb in H.
      specialize (H eq_refl inf_nodup). rewrite inf_lin in H. rewrite H. reflexivity.
Qed.

Lemma circulation_at_infinity : (exists b, In b (sbodies S) /\ kutta_ b = false) ->
  total (body_circulation v) (indexed (sbodies S)) = - gfree S - inf_g S.
Proof.
  intros (b & Hb & Hk).
  assert (X : exists i b, nth_error (sbodies S) i = Some b /\ kutta_ b = false /\ existsb (fun c => negb (kutta_ c)) (firstn i (sbodies S)) = false).
  { revert Hb. generalize (sbodies S). induction l as [|c t IH]; intros Hb; [destruct Hb|].
    destruct (kutta_ c) eqn:E.
    - destruct Hb as [->|Hb]; [congruence|]. destruct (IH Hb) as (i & b' & A & B & C). exists (Datatypes.S i), b'. split; [exact A|]. split; [exact B|]. simpl. rewrite E. exact C.
    - exists 0%nat, c. auto. }
  destruct X as (i & b' & A & B & C). pose proof (special_rows i b' A) as H. rewrite B, C in H. exact H.
Qed.

(** ** Speeds of rigid components *)

Lemma speed_rows i b c : nth_error (sbodies S) i = Some b -> (root (fb b) <> Some i) ->
  isrigid (get c (Flow.Model.kspring (fb b))) = true \/ late S = false ->
  match root (fb b) with
  | None => v (UV i c) = get c (own (fb b))
  | Some j => exists rt, nth_error (sbodies S) j = Some rt /\
      match c with
      | CX => v (UV i CX) = px (r3 (own (fb b))) + v (UV j CX) - (py (r3 (holder (g_of b))) - py (get_axis (g_of rt))) * v (UV j CO)
      | CY => v (UV i CY) = py (r3 (own (fb b))) + v (UV j CY) + (px (get_axis (g_of b)) - px (get_axis (g_of rt))) * v (UV j CO)
      | CO => v (UV i CO) = o3 (own (fb b)) + v (UV j CO)
      end
  end.
Proof.
  intros Hb NR Hr. destruct sol_entry as (at2 & tp & ip & sk & ff & es & q & Hp & H).
  assert (Hh : has es i (Speed c)).
  { apply (plan_has_speed (shapes_of S) p es q i (shape_of (late S) b) c Hp).
    - unfold shapes_of. rewrite nth_error_map, Hb. reflexivity.
    - cbn [shape_of rigid]. destruct Hr as [->| ->]; [reflexivity|apply orb_true_r]. }
  destruct Hh as (e & He & Hi & Hk). specialize (H e (speed_eq S c i b) He). unfold eqn_of in H. rewrite Hi, Hb, Hk in H. specialize (H eq_refl).
  unfold speed_eq in H. cbn [coefs rhs] in H. rewrite lin_cons in H.
  destruct (root (fb b)) as [j|] eqn:Ej.
  - assert (j < length (sbodies S))%nat as Lj.
    { apply (sol_roots S p v Sol b j); [eapply nth_error_In; eauto|exact Ej]. }
    destruct (nth_error (sbodies S) j) as [rt|] eqn:Ert; [|apply nth_error_None in Ert; lia].
    exists rt. split; [reflexivity|]. assert (Nij : i <> j) by congruence.
    destruct c; rewrite !lin_cons in H; change (lin v []) with 0 in H; cbn [map fst get] in H; unfold vsub in H; unr;
      match type of H with NoDup ?l -> _ => assert (ND : NoDup l) by (repeat constructor; simpl; intuition congruence) end;
      specialize (H ND); lra.
  - change (lin v []) with 0 in H. cbn [map fst] in H. unr. assert (ND : NoDup [UV i c]) by (repeat constructor; simpl; tauto).
    specialize (H ND). lra.
Qed.
End Circ.

(** ** Motion with the speeds of the solution *)

Lemma forall2_all_some {A B} (f : A -> option B) l l' : all_some f l = Some l' -> Forall2 (fun a b => f a = Some b) l l'.
Proof.
  revert l'. induction l as [|a t IH]; intros l'; simpl; [intros [= <-]; constructor|].
  destruct (f a) eqn:E; [|discriminate]. destruct (all_some f t) eqn:Et; [|discriminate].
  intros [= <-]. constructor; auto.
Qed.

Lemma forall2_nth {A B} (R : A -> B -> Prop) l l' : Forall2 R l l' -> forall i a, nth_error l i = Some a ->
  exists b, nth_error l' i = Some b /\ R a b.
Proof.
  induction 1 as [|a b l l' H _ IH]; intros i c Hi; [destruct i; discriminate Hi|].
  destruct i as [|i]; simpl in *; [injection Hi as <-; eauto|apply IH; exact Hi].
Qed.

Section Motion.
Variables (S : sspace RNum) (v : unk -> R).

Lemma solved_nth i b : nth_error (sbodies S) i = Some b ->
  nth_error (solved_bodies S v) i = Some (set_geo (set_speed (speed_in v i) (g_of b)) (fb b)).
Proof.
  intros H. unfold solved_bodies. rewrite nth_error_map.
  assert (X : nth_error (indexed (sbodies S)) i = Some (i, b)).
  { unfold indexed. revert H. assert (Y : forall (l : list (sbody RNum)) k i, nth_error l i = Some b ->
        nth_error (combine (seq k (length l)) l) i = Some ((k + i)%nat, b)).
    { induction l as [|c t IH]; intros k j Hj; [destruct j; discriminate Hj|].
      destruct j as [|j]; simpl in *; [injection Hj as ->; rewrite Nat.add_0_r; reflexivity|].
      rewrite IH by exact Hj. f_equal. f_equal. lia. }
    intros H. apply (Y _ 0%nat _ H). }
  rewrite X. reflexivity.
Qed.

Lemma set_speed_axis s (b : body RNum) : get_axis (set_speed s b) = get_axis b.
Proof. reflexivity. Qed.

(** Displacements relative to the holder. *)
Lemma move_dpos inf dh db (g : body RNum) :
  px (r3 (dpos (move (K:=RNum) inf cos sin dh db g))) = px (r3 (dpos g)) + (px (r3 db) - px (r3 dh)) /\
  py (r3 (dpos (move (K:=RNum) inf cos sin dh db g))) = py (r3 (dpos g)) + (py (r3 db) - py (r3 dh)) /\
  o3 (dpos (move (K:=RNum) inf cos sin dh db g)) = o3 (dpos g) + (o3 db - o3 dh).
Proof.
  unfold move, refresh, fill_properties. cbn [alist set_alist].
  destruct (update_segments _) as [|a t]; [repeat split; reflexivity|].
  destruct (fill_cofm _) as [c m]. repeat split; reflexivity.
Qed.
End Motion.

Section Rigid.
Variables (S : sspace RNum) (p : ptr) (v : unk -> R).
Hypothesis Sol : solution S p v.
Variables (inf dt' : R) (fuel : nat) (bs' : list (fbody RNum)).
Hypothesis Move : move_bodies (K:=RNum) inf cos sin fuel dt' (solved_bodies S v) = Some bs'.

Lemma moved_dpos i b : nth_error (sbodies S) i = Some b -> root (fb b) <> Some i ->
  exists b', nth_error bs' i = Some b' /\
    (isrigid (get CX (Flow.Model.kspring (fb b))) = true \/ late S = false -> px (r3 (dpos (geo b'))) = px (r3 (dpos (g_of b)))) /\
    (isrigid (get CO (Flow.Model.kspring (fb b))) = true \/ late S = false -> o3 (dpos (geo b')) = o3 (dpos (g_of b))) /\
    (isrigid (get CY (Flow.Model.kspring (fb b))) = true \/ late S = false ->
       py (r3 (dpos (geo b'))) = py (r3 (dpos (g_of b))) +
         match root (fb b) with None => 0 | Some j => dt' * v (UV j CO) * px (r3 (dpos (g_of b))) end).
Proof.
  intros Hb NR. apply forall2_all_some in Move.
  destruct (forall2_nth _ _ _ Move i _ (solved_nth S v i b Hb)) as (b' & Hb' & HM). exists b'. split; [exact Hb'|].
  unfold move_body in HM. destruct (deltas _ _ _ _ _ _) as [[dh db]|] eqn:ED; [|discriminate HM].
  simpl in HM. assert (Eg : geo b' = move (K:=RNum) inf cos sin dh db (set_speed (speed_in v i) (g_of b))) by (injection HM as <-; reflexivity). clear HM.
  destruct (move_dpos inf dh db (set_speed (speed_in v i) (g_of b))) as (MX & MY & MO). rewrite <- Eg in MX, MY, MO.
  cbn [set_speed dpos] in MX, MY, MO.
  unfold deltas in ED. cbn [set_geo geo root own] in ED.
  destruct (chain_error _ _ _ _ _ _) as [er|]; [|destruct (root (fb b)) as [j|]; [destruct (nth_error _ j)|]; discriminate ED].
  pose proof (speed_rows S p v Sol i b CX Hb NR) as HX.
  pose proof (speed_rows S p v Sol i b CY Hb NR) as HY.
  pose proof (speed_rows S p v Sol i b CO Hb NR) as HO.
  destruct (root (fb b)) as [j|] eqn:Ej.
  - destruct (nth_error (solved_bodies S v) j) as [rt'|] eqn:Ert; [|discriminate ED].
    assert (Lj : (j < length (sbodies S))%nat).
    { apply (sol_roots S p v Sol b j); [eapply nth_error_In; eauto|exact Ej]. }
    destruct (nth_error (sbodies S) j) as [rt|] eqn:Er; [|apply nth_error_None in Er; lia].
    rewrite (solved_nth S v j rt Er) in Ert. injection Ert as <-. cbn [set_geo geo set_speed speed_slae] in ED.
    injection ED as <- <-. unfold g_of in *. cbn [geo set_geo] in *.
    change (get_axis (set_speed (speed_in v j) (geo (fb rt)))) with (get_axis (geo (fb rt))) in *.
    change (holder (set_speed (speed_in v i) (geo (fb b)))) with (holder (geo (fb b))) in *.
    unfold vsub, vscale, vadd, speed_in, rotl in *. unr.
    split; [|split]; intros Hr.
    + destruct (HX Hr) as (rt1 & E1 & H1). assert (rt1 = rt) by congruence. subst rt1. rewrite MX. rewrite H1. lra.
    + destruct (HO Hr) as (rt1 & E1 & H1). rewrite MO, H1. lra.
    + destruct (HY Hr) as (rt1 & E1 & H1). assert (rt1 = rt) by congruence. subst rt1. rewrite MY. rewrite H1. unfold get_axis, vadd. unr. lra.
  - injection ED as <- <-. unfold vsub, vscale, speed_in in *. unr. cbn [get] in *.
    split; [|split]; intros Hr.
    + rewrite MX, (HX Hr). lra.
    + rewrite MO, (HO Hr). lra.
    + rewrite MY, (HY Hr). lra.
Qed.
End Rigid.
