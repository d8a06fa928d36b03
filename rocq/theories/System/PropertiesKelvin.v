(** C116: circulation of the flow and the bodies over whole steps. *)

From Coq Require Import ZArith Bool List Lia Permutation Reals Lra.
From Verif.Base Require Import Num.
From Verif.Matrix Require Import Model Proofs.
From Verif.Body Require Import Model Spec ProofsBody.
From Verif.Flow Require Import Model Spec ProofsReal ProofsBalance.
From Verif.System Require Import Model Spec Proofs ProofsCollision ProofsWrite ProofsPhysics ProofsSolve ProofsReuse ProofsXi ProofsLaws ProofsWitness SpecKelvin ProofsKelvin.
Import ListNotations.
Local Open Scope R_scope.

(** When shedding is over, the circulation of the flow, of the segments that keep
    theirs and of the rotation of the bodies is what it has been since the
    start, [- inf_g], provided a body is without Kutta condition. *)
Theorem C116_total inf dbl_max eps gap S F F3 F4 F5 cdt S' F' :
  kstep inf dbl_max eps gap S F F3 F4 F5 cdt S' F' -> Forall wf (bodies F) ->
  (exists b, In b (sbodies S) /\ kutta_ b = false) ->
  circ (vort F3) + total (held eps) (bodies F3) + total rotation (bodies F3) = - inf_g S.
Proof. intros st W. exact (total_after_shedding inf dbl_max eps gap _ _ _ _ _ _ _ _ st W). Qed.
Print Assumptions C116_total.

(** At the end of the step only the circulation of the weak vortices is lost. *)
Theorem C116_after inf dbl_max eps gap S F F3 F4 F5 cdt S' F' :
  kstep inf dbl_max eps gap S F F3 F4 F5 cdt S' F' ->
  Forall wf (bodies F) -> Forall area_right (bodies F) ->
  (exists b, In b (sbodies S) /\ kutta_ b = false) ->
  circ (vort F') + total load (bodies F') = - inf_g S - circ (weak eps (vort F4)).
Proof. intros st W A. exact (total_after_step inf dbl_max eps gap _ _ _ _ _ _ _ _ st W A). Qed.
Print Assumptions C116_after.

(** Over any number of steps a body without Kutta condition that is not the first
    such body gives to the flow what it carried at the start without what it
    carries at the end; its area is the same. *)
Theorem C116_body inf dbl_max eps gap i S F g S' F' b :
  ksteps inf dbl_max eps gap i S F g S' F' ->
  Forall wf (bodies F) -> Forall area_right (bodies F) ->
  follows i (map kutta_ (sbodies S)) = true -> nth_error (bodies F) i = Some b ->
  exists b', nth_error (bodies F') i = Some b' /\ area (geo b') = area (geo b) /\
    g = g_dead b + 2 * area (geo b) * o3 (speed_slae_prev (geo b))
      - (g_dead b' + 2 * area (geo b) * o3 (speed_slae_prev (geo b'))).
Proof.
  intros Ks W A K N. destruct (many_steps inf dbl_max eps gap i S F g S' F' Ks W A K b N) as (b' & N' & Ar & G).
  exists b'. repeat split; auto. unfold load, rotation_prev in G. rewrite Ar in G. exact G.
Qed.
Print Assumptions C116_body.

(** Without Kutta conditions the first body gives in a step also what the weak
    vortices of the step before had, so that the total is restored. *)
Theorem C116_first inf dbl_max eps gap S F F3 F4 F5 cdt S1 F1 G3 G4 G5 cdt' S2 F2 b1 :
  kstep inf dbl_max eps gap S F F3 F4 F5 cdt S1 F1 -> kstep inf dbl_max eps gap S1 F1 G3 G4 G5 cdt' S2 F2 ->
  Forall wf (bodies F) -> Forall area_right (bodies F) -> (forall c, In c (sbodies S) -> kutta_ c = false) ->
  nth_error (bodies F1) 0 = Some b1 ->
  exists b2, nth_error (bodies F2) 0 = Some b2 /\
    given dbl_max eps G3 G4 G5 cdt' 0 = load b1 - load b2 + circ (weak eps (vort F4)).
Proof. apply first_body. Qed.
Print Assumptions C116_first.

(** ** Two fixed bodies of one corner, the second has absorbed a vortex *)

Definition grain (h g : R) (ku : bool) : sbody RNum :=
  let c := P h 0 in
  @mkSBody RNum
    (@mkFBody RNum
      (@mkBody RNum [@mkAtt RNum c false (P 0 0) c 0] (v3 h 0 0) (v3 0 0 0) (v3 0 0 0) (v3 0 0 0) false 0 0 c 0 0 c c [])
      [@mkSeg RNum 0 0 0 0 None] (v3 (-1) (-1) (-1)) (v3 0 0 0) (v3 0 0 0) (v3 0 0 0) None Neglect (v3 0 0 0) g)
    2 (v3 1 1 1) 0 0 0 ku (v3 0 0 0) (v3 0 0 0).
Definition grains (ku : bool) (gi : R) : sspace RNum :=
  @mkSSpace RNum [grain 0 0 ku; grain 5 3 ku] true 1 (P 0 0) (P 0 0) gi 0.

Lemma grains_plan ku gi : plan (shapes_of (grains ku gi)) PNull = Some
  ([mkEntry 0 (if ku then Zero else InfSteady) 0 0; mkEntry 1 (Speed CX) 0 0; mkEntry 2 (Speed CY) 0 0; mkEntry 3 (Speed CO) 0 0;
    mkEntry 4 (Hydro CX) 0 0; mkEntry 5 (Hydro CY) 0 0; mkEntry 6 (Hydro CO) 0 0;
    mkEntry 7 (Newton CX) 0 0; mkEntry 8 (Newton CY) 0 0; mkEntry 9 (Newton CO) 0 0;
    mkEntry 10 (if ku then Zero else Steady) 1 0; mkEntry 11 (Speed CX) 1 0; mkEntry 12 (Speed CY) 1 0; mkEntry 13 (Speed CO) 1 0;
    mkEntry 14 (Hydro CX) 1 0; mkEntry 15 (Hydro CY) 1 0; mkEntry 16 (Hydro CO) 1 0;
    mkEntry 17 (Newton CX) 1 0; mkEntry 18 (Newton CY) 1 0; mkEntry 19 (Newton CO) 1 0], PNull).
Proof.
  unfold plan, shapes_of, grains. cbn [sbodies map late]. unfold shape_of. cbn [plan_from].
  unfold plan_body. cbn [nseg special kutta rigid g_of fb geo grain alist length Nat.leb special_ kutta_ seq].
  cbn [plan_segs Nat.eqb negb]. unfold plan_spring.
  cbn [Flow.Model.kspring get v3 r3 o3 P x y].
  rewrite !rigid_neg by lra. destruct ku; reflexivity.
Qed.

Definition grains_v (ku : bool) (gi : R) (u : unk) : R :=
  match u with
  | UG 0 _ => if ku then 0 else - 3 - gi
  | UG _ _ => if ku then 0 else 3
  | UH 1 CY | UF 1 CY => if ku then 0 else 15
  | _ => 0
  end.

Lemma grains_solution ku gi : solution (grains ku gi) PNull (grains_v ku gi).
Proof.
  apply (holds_solution (fun _ _ => 0) 0 0 (grains ku gi) (fun _ => P 0 0) (fun _ => 0) PNull _ PNull _ (grains_plan ku gi)).
  - intros b j [<-|[<-|[]]]; discriminate.
  - intros e q He E. destruct ku; simpl in He.
    all: repeat (destruct He as [<-|He]; [|]); [..|destruct He].
    all: (unfold eqn_of in E; cbn [ebody ekind eseg nth_error sbodies grains] in E;
       pose proof (f_equal (fun z => match z with Some w => w | None => q end) E) as E'; cbv beta iota in E'; clear E; subst q;
       unfold zero_eq, speed_eq, hooke_eq, hydro_eq, newton_eq, steady_eq, inf_eq, bodies_i, indexed, ones; cbn;
       split; [repeat constructor; simpl; intuition discriminate|unfold total; simpl; unr; lra]).
Qed.

(** Nothing is near a point to the right. *)
Definition near_left (g : body RNum) : Prop := exists a, alist g = [a] /\ px (r a) <= 5.
Lemma right_free g p : near_left g -> 100 <= px p -> is_point_invalid (K:=RNum) 10 g p = Some None.
Proof.
  intros (a & E & L) H. unfold is_point_invalid, in_contour. rewrite E.
  assert (Q : nearest (K:=RNum) p 0 [a] None 10 = None).
  { cbn [nearest]. change (@nltb RNum) with Rltb. unfold Rltb. destruct (Rlt_dec _ _) as [l|]; [|reflexivity]. exfalso. revert l.
    unfold abs2, vsub, dot, px, py in *. cbn [x y nadd nmul nsub RNum] in *. change (Num.T RNum) with R in *.
    intros l. set (d := x (r a) - x p) in *. set (e := y (r a) - y p) in *. change (Num.T RNum) with R in *.
    assert (D : 95 <= - d) by (unfold d; lra). assert (0 <= e * e) by nra. assert (95 * 95 <= d * d) by nra. lra. }
  rewrite Q. cbn [map]. destruct (negb _ && _); [reflexivity|]. destruct (parity _ _ _); reflexivity.
Qed.
Lemma right_hit bs p : Forall (fun b => near_left (geo b)) bs -> 100 <= px p -> forall i, first_hit (K:=RNum) 10 i bs p = Some None.
Proof. intros F H. induction F as [|b t N F IH]; intros i; cbn [first_hit]; [reflexivity|]. rewrite right_free by assumption. apply IH. Qed.
Lemma right_clean bs l : Forall (fun b => near_left (geo b)) bs -> (forall o, In o l -> 100 <= px (pos o)) ->
  clean_vort (K:=RNum) 10 bs l = Some (bs, l, 0%nat).
Proof.
  intros F. induction l as [|o l IH]; intros H; cbn [clean_vort]; [reflexivity|].
  rewrite right_hit by (try assumption; apply H; left; reflexivity). rewrite IH by (intros; apply H; right; assumption). reflexivity.
Qed.
Lemma right_inside bs p : Forall (fun b => near_left (geo b)) bs -> 100 <= px p -> forall i, inside 10 i bs p = None.
Proof. intros F H. induction F as [|b t N F IH]; intros i; cbn [inside]; [reflexivity|]. rewrite right_free by assumption. apply IH. Qed.

Lemma bury_near eps b : near_left (geo b) -> near_left (geo (bury (K:=RNum) eps b)).
Proof. unfold bury. destruct (fold_left _ _ _) as [[s f] d]. exact (fun H => H). Qed.

Section Grains.
Variable ku : bool.
Variable gi : R.
Let v := grains_v ku gi.
Definition gr_F : space RNum := mkSpace (map (fun b => fb b) (sbodies (grains ku gi))) [] [] [].
Definition gr_F1 : space RNum := mkSpace (map (written_body v) (indexed (bodies gr_F))) [] [] [].
Definition gr_F3 : space RNum := vortex_shed (K:=RNum) 1 (1/10000) gr_F1.
(** The flow carries everything to the right. *)
Definition gr_F4 : space RNum :=
  mkSpace (bodies (zero_forces gr_F3)) (map (fun o : obj RNum => @mkObj RNum (pos o) (og o) (P 100 0)) (vort gr_F3)) [] [].
Definition gr_moved : list (fbody RNum) :=
  map (fun b : fbody RNum => set_geo (move (K:=RNum) 7 cos sin (v3 (0 * 1 - 0) (0 * 1 - 0) (0 * 1)) (v3 (0 * 1 - 0) (0 * 1 - 0) (0 * 1)) (geo b)) b) (bodies gr_F4).
Definition gr_F5 : space RNum :=
  mkSpace (map (bury (K:=RNum) 1) gr_moved) (map (stop (K:=RNum)) (filter (fun o : obj RNum => negb (small (K:=RNum) 1 (og o))) (map (move_obj (K:=RNum) 1) (vort gr_F4)))) [] [].
Definition put (c : sbody RNum) (b : fbody RNum) : sbody RNum :=
  @mkSBody RNum b (density c) (damping c) (bounce c) (torque c) (special_ c) (kutta_ c) (force_holder c) (friction_prev c).
Definition gr_S' : sspace RNum :=
  @mkSSpace RNum (map (fun e => put (fst e) (snd e)) (combine (sbodies (grains ku gi)) (bodies gr_F5))) true 1 (P 0 0) (P 0 0) gi (circ (vort gr_F5)).

Lemma gr_right o : In o (vort gr_F4) -> 0 <= px (pos o).
Proof.
  intros I. cbn [gr_F4 vort] in I. apply in_map_iff in I as (o' & <- & I). cbn [pos].
  cbn [gr_F3 vortex_shed vort gr_F1 app bodies] in I. apply in_flat_map in I as (b & Ib & I). apply in_flat_map in I as ((a, s) & Ia & I).
  unfold shed1 in I. destruct (_ && _); [|destruct I]. destruct I as [<-|[]]. cbn [pos].
  cbn in Ib. destruct Ib as [<-|[<-|[]]]; cbn in Ia; destruct Ia as [Ia|[]]; apply (f_equal fst) in Ia; cbn [fst] in Ia; subst a;
    unfold vadd, vscale, rotl, px; cbn; unr; lra.
Qed.
Lemma refresh_list inf (b : body RNum) : alist (refresh (K:=RNum) inf b) = update_segments (K:=RNum) (alist b).
Proof. unfold refresh, fill_properties. cbn [set_alist alist]. destruct (update_segments _); [reflexivity|]. destruct (fill_cofm _). reflexivity. Qed.
Lemma gr_near : Forall (fun b => near_left (geo b)) gr_moved.
Proof.
  apply Forall_cons; [|apply Forall_cons; [|apply Forall_nil]]; (eexists; split;
    [cbn [set_geo geo]; unfold move; rewrite refresh_list; reflexivity|]);
    unfold px; cbn; rewrite ?Rmult_0_l, ?cos_0, ?sin_0; unr; lra.
Qed.

Lemma gr_move : move_and_clean (K:=RNum) 7 10 cos sin 1 1 1 gr_F4 = Some (gr_F5, 1, None, 0%nat).
Proof.
  unfold move_and_clean.
  assert (D : detect (K:=RNum) 1 0 (bodies gr_F4) (@pair (Num.T RNum) (option (nat * comp)) 1 None) = @pair (Num.T RNum) (option (nat * comp)) 1 None).
  { assert (H : forall b c, In b (bodies gr_F4) -> hit_time (K:=RNum) 1 b c = None).
    { intros b c [<-|[<-|[]]]; unfold hit_time; rewrite rigid_neg by (destruct c; cbn; lra); reflexivity. }
    revert H. generalize (bodies gr_F4). intros l. generalize 0%nat. induction l as [|b l IH]; intros n H; [reflexivity|].
    cbn [detect fold_left]. unfold check. rewrite !H by (left; reflexivity). apply IH. intros; apply H; right; assumption. }
  rewrite D. cbv zeta.
  assert (M : move_bodies (K:=RNum) 7 cos sin 1 1 (bodies gr_F4) = Some gr_moved) by reflexivity.
  rewrite M.
  assert (Fr : forall o, In o (filter (fun o : obj RNum => negb (small (K:=RNum) 1 (og o))) (map (move_obj (K:=RNum) 1) (vort gr_F4))) -> 100 <= px (pos o)).
  { intros o I. apply filter_In in I as (I & _). apply in_map_iff in I as (o' & <- & I). pose proof (gr_right o' I) as X.
    cbn [gr_F4 vort] in I. apply in_map_iff in I as (o2 & <- & I). unfold px in *. cbn in *. unr. lra. }
  rewrite (right_clean _ _ gr_near Fr). cbn [gr_F4 heat streak map filter clean_heat clean_streak]. reflexivity.
Qed.

Lemma gr_step : kstep 7 10 1 (1/10000) (grains ku gi) gr_F gr_F3 gr_F4 gr_F5 1 gr_S' gr_F5.
Proof.
  constructor.
  - split; reflexivity.
  - exists PNull, v, gr_F1, gr_F1. split; [apply grains_solution|]. split; [reflexivity|]. split; [constructor|]. split; reflexivity.
  - split; [|split; reflexivity]. cbn [gr_F4 vort zero_forces]. unfold circ. rewrite total_map. reflexivity.
  - exists 1%nat, 1, None, 0%nat. exact gr_move.
  - split; [|reflexivity]. induction (bodies gr_F5) as [|b l IH]; constructor; auto. exists (own b). destruct b. reflexivity.
  - split; [reflexivity|reflexivity].
  - split; [|reflexivity]. assert (B : forall b : fbody RNum, root (bury (K:=RNum) 1 b) = root b /\ Flow.Model.kspring (bury (K:=RNum) 1 b) = Flow.Model.kspring b)
      by (intros b; unfold bury; destruct (fold_left _ _ _) as [[s f] d]; split; reflexivity).
    apply Forall2_cons; [|apply Forall2_cons; [|apply Forall2_nil]];
      (split; [cbn [put fb]; exact (proj1 (B _))|]; split; [cbn [put fb]; exact (proj2 (B _))|]; repeat split).
Qed.

Lemma gr_wf : Forall wf (bodies gr_F) /\ Forall area_right (bodies gr_F).
Proof.
  split; cbn; repeat constructor; unfold area_right, shoelace; cbn; unr; lra.
Qed.

Lemma gr_taken i : taken 10 1 gr_F4 gr_F5 1 i = 0.
Proof.
  unfold taken. assert (X : forall f (l : list (obj RNum)), (forall o, In o l -> f o = 0) -> total f l = 0).
  { intros f l. induction l as [|a t IH]; intros H; [reflexivity|]. change (f a + total f t = 0).
    rewrite H by (left; reflexivity). rewrite IH by (intros; apply H; right; assumption). lra. }
  apply X. intros o I. destruct (Rlt_dec _ _); [reflexivity|].
  rewrite right_inside; [reflexivity| |].
  - cbn [gr_F5 bodies]. pose proof gr_near as Z. induction Z; constructor; auto. apply bury_near. assumption.
  - pose proof (gr_right o I) as Z. cbn [gr_F4 vort] in I. apply in_map_iff in I as (o2 & <- & I). unfold px in *. cbn in *. unr. lra.
Qed.
End Grains.

Lemma abs_zero : Rabs 0 < 1. Proof. rewrite Rabs_R0. lra. Qed.

(** What the second body had absorbed goes back to the flow; the first one sheds
    the rest. *)
Example C116_ex : let ku := false in let gi := 2 in
  kstep 7 10 1 (1/10000) (grains ku gi) (gr_F ku gi) (gr_F3 ku gi) (gr_F4 ku gi) (gr_F5 ku gi) 1 (gr_S' ku gi) (gr_F5 ku gi) /\
  Forall wf (bodies (gr_F ku gi)) /\ Forall area_right (bodies (gr_F ku gi)) /\
  follows 1 (map kutta_ (sbodies (grains ku gi))) = true /\
  (exists b, In b (sbodies (grains ku gi)) /\ kutta_ b = false) /\
  map (fun b : fbody RNum => g_dead b) (bodies (gr_F ku gi)) = [0; 3] /\
  given 10 1 (gr_F3 ku gi) (gr_F4 ku gi) (gr_F5 ku gi) 1 0 = - 5 /\
  given 10 1 (gr_F3 ku gi) (gr_F4 ku gi) (gr_F5 ku gi) 1 1 = 3.
Proof.
  intros ku gi. split; [apply gr_step|]. split; [apply gr_wf|]. split; [apply gr_wf|]. split; [reflexivity|].
  split; [eexists; split; [left; reflexivity|reflexivity]|]. split; [reflexivity|].
  unfold given. rewrite !gr_taken. cbn [nth_error gr_F3 vortex_shed bodies gr_F1 map gr_F grains sbodies indexed length seq combine].
  unfold shed, keeps. cbn. unfold total; simpl. subst gi.
  split; destruct (Rlt_dec _ _) as [l|l]; cbn; try lra; exfalso; revert l; [rewrite Rabs_left by lra|rewrite Rabs_pos_eq by lra]; lra.
Qed.

(** ** Two steps of a body of one corner

    Two vortices are merged to a weak one, which is dropped; the body gets its
    circulation in the next step. *)
Definition stone_geo : body RNum :=
  @mkBody RNum [@mkAtt RNum (P 0 0) false (P 0 0) (P 0 0) (3 / sqrt 0)] (v3 0 0 0) (v3 0 0 0) (v3 0 0 0) (v3 0 0 0) false 0 0 (P 0 0) 0 0 (P 0 0) (P 0 0) [].
Definition stone : sbody RNum :=
  @mkSBody RNum
    (@mkFBody RNum stone_geo [@mkSeg RNum 0 0 0 0 None] (v3 (-1) (-1) (-1)) (v3 0 0 0) (v3 0 0 0) (v3 0 0 0) None Neglect (v3 0 0 0) 0)
    2 (v3 1 1 1) 0 0 0 false (v3 0 0 0) (v3 0 0 0).
Definition stones (gf : R) : sspace RNum := @mkSSpace RNum [stone] true 1 (P 0 0) (P 0 0) (- (1/2)) gf.

Lemma stones_plan gf : plan (shapes_of (stones gf)) PNull = Some
  ([mkEntry 0 InfSteady 0 0; mkEntry 1 (Speed CX) 0 0; mkEntry 2 (Speed CY) 0 0; mkEntry 3 (Speed CO) 0 0;
    mkEntry 4 (Hydro CX) 0 0; mkEntry 5 (Hydro CY) 0 0; mkEntry 6 (Hydro CO) 0 0;
    mkEntry 7 (Newton CX) 0 0; mkEntry 8 (Newton CY) 0 0; mkEntry 9 (Newton CO) 0 0], PNull).
Proof.
  unfold plan, shapes_of, stones. cbn [sbodies map late]. unfold shape_of. cbn [plan_from].
  unfold plan_body. cbn [nseg special kutta rigid g_of fb geo stone stone_geo alist length Nat.leb special_ kutta_ seq].
  cbn [plan_segs Nat.eqb negb]. unfold plan_spring.
  cbn [Flow.Model.kspring get v3 r3 o3 P x y].
  rewrite !rigid_neg by lra. reflexivity.
Qed.
Definition stones_v (gf : R) (u : unk) : R := match u with UG _ _ => 1/2 - gf | _ => 0 end.
Lemma stones_solution gf : solution (stones gf) PNull (stones_v gf).
Proof.
  apply (holds_solution (fun _ _ => 0) 0 0 (stones gf) (fun _ => P 0 0) (fun _ => 0) PNull _ PNull _ (stones_plan gf)).
  - intros b j [<-|[]]; discriminate.
  - intros e q He E. simpl in He.
    all: repeat (destruct He as [<-|He]; [|]); [..|destruct He].
    all: (unfold eqn_of in E; cbn [ebody ekind eseg nth_error sbodies stones] in E;
       pose proof (f_equal (fun z => match z with Some w => w | None => q end) E) as E'; cbv beta iota in E'; clear E; subst q;
       unfold zero_eq, speed_eq, hooke_eq, hydro_eq, newton_eq, steady_eq, inf_eq, bodies_i, indexed, ones; cbn;
       split; [repeat constructor; simpl; intuition discriminate|unfold total; simpl; unr; lra]).
Qed.

Section Stones.
Variable gf : R.
Variables vl vl4 : list (obj RNum).
Let v := stones_v gf.
Hypothesis total_vl : circ vl = gf.
Hypothesis small_sg : Rabs (1/2 - gf) < 1.
Hypothesis same4 : circ vl4 = gf.
Hypothesis weak4 : Forall (fun o : obj RNum => Rabs (og o) < 1) vl4.
Definition s_F : space RNum := mkSpace [fb stone] vl [] [].
Definition s_F1 : space RNum := mkSpace [written_body v (0%nat, fb stone)] vl [] [].
Definition s_F3 : space RNum := vortex_shed (K:=RNum) 1 (1/10000) s_F1.
Definition s_F4 : space RNum := mkSpace (bodies (zero_forces s_F3)) vl4 [] [].
Definition s_moved : list (fbody RNum) :=
  map (fun b : fbody RNum => set_geo (move (K:=RNum) 7 cos sin (v3 (0 * 1 - 0) (0 * 1 - 0) (0 * 1)) (v3 (0 * 1 - 0) (0 * 1 - 0) (0 * 1)) (geo b)) b) (bodies s_F4).
Definition s_F5 : space RNum := mkSpace (map (bury (K:=RNum) 1) s_moved) [] [] [].

Lemma s_move : move_and_clean (K:=RNum) 7 10 cos sin 1 1 1 s_F4 = Some (s_F5, 1, None, 0%nat).
Proof.
  unfold move_and_clean.
  assert (D : detect (K:=RNum) 1 0 (bodies s_F4) (@pair (Num.T RNum) (option (nat * comp)) 1 None) = @pair (Num.T RNum) (option (nat * comp)) 1 None).
  { cbn [s_F4 bodies zero_forces s_F3 vortex_shed s_F1 map detect fold_left]. unfold check.
    assert (H : forall b c, In b (bodies s_F4) -> hit_time (K:=RNum) 1 b c = None).
    { intros b c [<-|[]]; unfold hit_time; rewrite rigid_neg by (destruct c; cbn; lra); reflexivity. }
    rewrite !H by (left; reflexivity). reflexivity. }
  rewrite D. cbv zeta.
  assert (M : move_bodies (K:=RNum) 7 cos sin 1 1 (bodies s_F4) = Some s_moved) by reflexivity.
  rewrite M.
  assert (N : filter (fun o : obj RNum => negb (small (K:=RNum) 1 (og o))) (map (move_obj (K:=RNum) 1) (vort s_F4)) = []).
  { cbn [s_F4 vort]. clear - weak4. induction weak4 as [|o l H F IH]; [reflexivity|]. cbn [map filter og move_obj].
    unfold small at 1. change (@nltb RNum) with Rltb. unfold Rltb. cbn [nabs RNum]. destruct (Rlt_dec _ _); [exact (IH F)|contradiction]. }
  rewrite N. cbn [clean_vort]. cbn [s_F4 heat streak map filter clean_heat clean_streak]. reflexivity.
Qed.

Lemma s_shed : vort s_F3 = vl.
Proof.
  cbn [s_F3 vortex_shed s_F1 vort bodies flat_map]. unfold shed1. cbn. change (@nleb RNum) with Rleb. unfold Rleb.
  destruct (Rle_dec _ _) as [l|]; [exfalso|]; cbn; [|rewrite !app_nil_r; reflexivity].
  revert l small_sg. unfold v, stones_v. intros. lra.
Qed.

Lemma s_step (S' : sspace RNum) : agrees S' s_F5 -> Forall2 kept [stone] (sbodies S') -> inf_g S' = - (1/2) ->
  kstep 7 10 1 (1/10000) (stones gf) s_F s_F3 s_F4 s_F5 1 S' s_F5.
Proof.
  intros Ag Kp I. constructor.
  - split; [reflexivity|]. symmetry. exact total_vl.
  - exists PNull, v, s_F1, s_F1. split; [apply stones_solution|]. split; [reflexivity|]. split; [apply Permutation_refl|]. split; reflexivity.
  - split; [|split; reflexivity]. cbn [s_F4 vort zero_forces]. rewrite s_shed, same4, total_vl. reflexivity.
  - exists 1%nat, 1, None, 0%nat. exact s_move.
  - split; [|reflexivity]. induction (bodies s_F5) as [|b l IH]; constructor; auto. exists (own b). destruct b. reflexivity.
  - exact Ag.
  - split; [exact Kp|exact I].
Qed.
End Stones.

Lemma stone_moved : move (K:=RNum) 7 cos sin (v3 (0 * 1 - 0) (0 * 1 - 0) (0 * 1)) (v3 (0 * 1 - 0) (0 * 1 - 0) (0 * 1)) stone_geo = stone_geo.
Proof.
  assert (Z : v3 (0 * 1 - 0) (0 * 1 - 0) (0 * 1) = v3 0 0 0) by (unfold v3, P; repeat f_equal; ring). rewrite Z. clear Z.
  unfold move, stone_geo. cbn [alist map corner slip dl r eps1 holder dpos speed_slae speed_slae_prev slip_ slen area cofm moi disc_r2 rect_bl rect_tr heat_layer r3 o3 v3].
  match goal with |- context [move_corner ?a ?b ?c ?d ?e] => assert (C : move_corner (K:=RNum) a b c d e = P 0 0) end.
  { unfold move_corner, get_axis, vadd, vsub, vscale, rotl, P. cbn. rewrite cos_0, sin_0. f_equal; unr; ring. }
  rewrite C. clear C.
  match goal with |- refresh 7 (mkBody _ ?h ?d _ _ _ _ _ _ _ _ _ _ _) = _ => assert (H : h = v3 0 0 0) by (unfold v3, P, vadd; cbn; repeat f_equal; unr; ring);
    assert (D : d = v3 0 0 0) by (unfold v3, P, vadd, vsub; cbn; repeat f_equal; unr; ring) end.
  rewrite H, D. clear H D.
  unfold refresh. cbn [alist]. unfold update_segments. cbn [nexts combine app map].
  match goal with |- context [segment ?a] => assert (S : segment (K:=RNum) a = @mkAtt RNum (P 0 0) false (P 0 0) (P 0 0) (3 / sqrt 0)) end.
  { unfold segment, vsub, vadd, vscale, vabs, abs2, dot, P. cbn. unr. repeat f_equal; ring. }
  rewrite S. clear S. unfold set_alist. cbn [holder dpos speed_slae speed_slae_prev slip_ slen area cofm moi disc_r2 rect_bl rect_tr heat_layer].
  set (l := [_]). unfold fill_properties. cbn [alist holder dpos speed_slae speed_slae_prev heat_layer].
  assert (Ar : fill_area (K:=RNum) l = 0) by (unfold fill_area, sum, l; cbn; unr; ring).
  assert (Sl : fill_slen (K:=RNum) l = 0).
  { unfold fill_slen, sum, l. cbn. unfold vabs. cbn. replace (0 * 0 + 0 * 0) with 0 by ring. rewrite sqrt_0. unr. ring. }
  assert (Cf : fill_cofm (K:=RNum) l = (P 0 0, 0)).
  { unfold fill_cofm. rewrite Ar, Sl. change (@neqb RNum) with Reqb. unfold Reqb. cbn [nofZ RNum]. destruct (Req_EM_T 0 0) as [_|n]; [|exfalso; apply n; reflexivity].
    apply (f_equal2 pair); [|reflexivity]. apply pt_eq; unfold sum, l, px, py; cbn; unr; ring. }
  rewrite Cf, Ar, Sl.
  assert (Di : fill_disc (K:=RNum) (P 0 0) l = 0).
  { unfold fill_disc, l. cbn [fold_left corner]. unfold abs2, vsub, dot, P. cbn. change (@nltb RNum) with Rltb. unfold Rltb. destruct (Rlt_dec _ _); unr; ring. }
  assert (Rb : forall f : vec RNum -> R, f (P 0 0) = 0 -> fill_bl (K:=RNum) 7 f l = 0 /\ fill_tr (K:=RNum) 7 f l = 0).
  { intros f H. unfold fill_bl, fill_tr, l. cbn [fold_left corner]. rewrite H. change (@nltb RNum) with Rltb. unfold Rltb. cbn [nopp RNum].
    split; destruct (Rlt_dec _ _); auto; lra. }
  rewrite Di, !(proj1 (Rb _ eq_refl)), !(proj2 (Rb _ eq_refl)). reflexivity.
Qed.
Lemma stone_stays vl vl4 : bodies (s_F5 (1/2) vl vl4) = [fb stone].
Proof.
  cbn [s_F5 bodies s_moved s_F4 zero_forces s_F3 vortex_shed s_F1 map].
  match goal with |- [bury 1 (set_geo (move 7 cos sin _ _ ?m) _)] = _ => change m with stone_geo end. rewrite stone_moved.
  f_equal. unfold bury. cbn. unfold bury1, small. change (@nltb RNum) with Rltb. unfold Rltb. cbn [nabs RNum].
  replace (1 / 2 - 1 / 2) with 0 by lra. destruct (Rlt_dec _ _) as [_|n]; [|exfalso; exact (n abs_zero)].
  cbn. unfold take_g, zero_seg, set_dead, set_geo, vadd3, vadd, vscale, rotl, vzero. cbn. unfold v3, P. unr.
  repeat f_equal; ring.
Qed.

Definition s_put (vl vl4 : list (obj RNum)) : sspace RNum :=
  @mkSSpace RNum (map (put stone) (bodies (s_F5 0 vl vl4))) true 1 (P 0 0) (P 0 0) (- (1/2)) 0.

(** The merged vortex had 1/2. *)
Example C116_first_ex : let ob g := @mkObj RNum (P 3 0) g (P 0 0) in let vl := [ob 3; ob (- (5/2))] in let vl4 := [ob (1/2)] in
  let S := stones (1/2) in let S1 := stones 0 in
  let F := s_F vl in let F1 := s_F [] in
  kstep 7 10 1 (1/10000) S F (s_F3 (1/2) vl) (s_F4 (1/2) vl vl4) (s_F5 (1/2) vl vl4) 1 S1 F1 /\
  kstep 7 10 1 (1/10000) S1 F1 (s_F3 0 []) (s_F4 0 [] []) (s_F5 0 [] []) 1 (s_put [] []) (s_F5 0 [] []) /\
  Forall wf (bodies F) /\ Forall area_right (bodies F) /\ (forall c, In c (sbodies S) -> kutta_ c = false) /\
  circ (weak 1 (vort (s_F4 (1/2) vl vl4))) = 1/2.
Proof.
  intros ob vl vl4 S S1 F F1.
  assert (Ew : Rabs (1/2) < 1) by (rewrite Rabs_pos_eq by lra; lra).
  assert (E5 : s_F5 (1/2) vl vl4 = F1).
  { unfold F1, s_F. transitivity (mkSpace (bodies (s_F5 (1/2) vl vl4)) [] [] [] : space RNum); [reflexivity|]. rewrite stone_stays. reflexivity. }
  split.
  { pose proof (s_step (1/2) vl vl4) as X. rewrite E5 in X. rewrite E5. apply X.
    - unfold circ, vl, total. simpl. lra.
    - replace (1/2 - 1/2) with 0 by lra. exact abs_zero.
    - unfold circ, vl4, total. simpl. lra.
    - repeat constructor. exact Ew.
    - split; [reflexivity|]. reflexivity.
    - apply Forall2_cons; [repeat split|apply Forall2_nil].
    - reflexivity. }
  split.
  { apply (s_step 0 [] []); try reflexivity.
    - rewrite Rminus_0_r. exact Ew.
    - constructor.
    - split; reflexivity.
    - assert (B : forall b : fbody RNum, root (bury (K:=RNum) 1 b) = root b /\ Flow.Model.kspring (bury (K:=RNum) 1 b) = Flow.Model.kspring b)
        by (intros b; unfold bury; destruct (fold_left _ _ _) as [[s f] d]; split; reflexivity).
      apply Forall2_cons; [|apply Forall2_nil].
      split; [cbn [put fb]; exact (proj1 (B _))|]; split; [cbn [put fb]; exact (proj2 (B _))|]; repeat split. }
  split; [repeat constructor|]. split; [repeat constructor; unfold area_right, shoelace; cbn; unr; lra|].
  split; [intros c [<-|[]]; reflexivity|].
  unfold circ, weak. cbn [s_F4 vort vl4 filter og ob]. destruct (Rlt_dec _ _); [|contradiction]. unfold total. simpl. lra.
Qed.

(** With Kutta conditions only, the circulation is not that at infinity, and
    what a body has absorbed is lost. *)
Theorem C116_kutta_refuted :
  (~ forall inf dbl_max eps gap S F F3 F4 F5 cdt S' F',
     kstep inf dbl_max eps gap S F F3 F4 F5 cdt S' F' -> Forall wf (bodies F) -> Forall area_right (bodies F) -> sbodies S <> [] ->
     circ (vort F3) + total (held eps) (bodies F3) + total rotation (bodies F3) = - inf_g S) /\
  (~ forall inf dbl_max eps gap i S F g S' F' b,
     ksteps inf dbl_max eps gap i S F g S' F' -> Forall wf (bodies F) -> Forall area_right (bodies F) ->
     nth_error (bodies F) i = Some b ->
     exists b', nth_error (bodies F') i = Some b' /\ g = load b - load b').
Proof.
  assert (K : keeps 1 (@mkAtt RNum (P 0 0) false (P 0 0) (P 0 0) 0, @mkSeg RNum 0 0 0 0 None) = true).
  { unfold keeps. cbn [fst snd slip sg orb]. destruct (Rlt_dec _ _) as [|n]; [reflexivity|exfalso; exact (n abs_zero)]. }
  assert (Nv : vort (gr_F3 true 2) = []).
  { cbn [gr_F3 vortex_shed vort gr_F1 app bodies map gr_F grains sbodies indexed length seq combine flat_map]. unfold shed1. cbn.
    change (@nleb RNum) with Rleb. unfold Rleb. rewrite Rabs_R0. destruct (Rle_dec 1 0); [lra|]. reflexivity. }
  split; intros C.
  - specialize (C _ _ _ _ _ _ _ _ _ _ _ _ (gr_step true 2) (proj1 (gr_wf true 2)) (proj2 (gr_wf true 2))).
    assert (X : sbodies (grains true 2) <> []) by discriminate. specialize (C X). clear X. rewrite Nv in C.
    cbn [nth_error gr_F3 vortex_shed bodies gr_F1 map gr_F grains sbodies indexed length seq combine inf_g] in C.
    unfold held, keeps, rotation, circ in C. cbn in C. unfold total in C; simpl in C. unr.
    destruct (Rlt_dec _ _) as [|n] in C; [|exact (n abs_zero)]. cbn in C. lra.
  - assert (Ks : ksteps 7 10 1 (1/10000) 1 (grains true 2) (gr_F true 2)
      (given 10 1 (gr_F3 true 2) (gr_F4 true 2) (gr_F5 true 2) 1 1 + 0) (gr_S' true 2) (gr_F5 true 2))
      by (eapply KMore; [apply gr_step|constructor]).
    destruct (C _ _ _ _ _ _ _ _ _ _ _ Ks (proj1 (gr_wf true 2)) (proj2 (gr_wf true 2)) eq_refl) as (b' & N' & E).
    destruct (one_body 7 10 1 (1/10000) _ _ _ _ _ _ _ _ (gr_step true 2) (proj1 (gr_wf true 2)) (proj2 (gr_wf true 2)) 1 _ eq_refl)
      as (w & p & b3 & b2 & _ & N3 & N2 & _ & _ & _ & _ & _ & _ & L).
    assert (b2 = b') by congruence. subst b2. rewrite L in E. unfold given in E. rewrite gr_taken, N3 in E.
    assert (Q : shed 1 b3 = 0 /\ held 1 b3 = 0 /\ rotation b3 = 0).
    { apply (f_equal (fun z => match z with Some w => w | None => b3 end)) in N3. rewrite <- N3.
      unfold shed, held, rotation, keeps. cbn. unfold total; simpl. destruct (Rlt_dec _ _) as [|n]; [cbn; repeat split; unr; lra|exfalso; exact (n abs_zero)]. }
    destruct Q as (Q1 & Q2 & Q3). rewrite Q1, Q2, Q3 in E.
    assert (Ld : load (fb (grain 5 3 true)) = 3) by (unfold load, rotation_prev; cbn; unr; lra). rewrite Ld in E. lra.
Qed.
Print Assumptions C116_kutta_refuted.
