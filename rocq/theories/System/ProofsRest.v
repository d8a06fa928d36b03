(** What is at rest stays at rest. *)

From Coq Require Import ZArith Bool List Lia Reals Lra Permutation.
From Verif.Base Require Import Num.
From Verif.Matrix Require Import Model.
From Verif.Body Require Import Model Spec ProofsBody.
From Verif.Flow Require Import Model Spec Proofs ProofsReal ProofsBalance.
From Verif.System Require Import Model Spec Proofs ProofsWrite ProofsSolve ProofsLaws ProofsPhysics ProofsCollision SpecKelvin ProofsKelvin SpecRest.
From Verif.Vortex Require Import ProofsKernel.
Import ListNotations.
Local Open Scope R_scope.

(** ** The linear system *)

Lemma total_zero {A} (f : A -> R) l : (forall a, f a = 0) -> total f l = 0.
Proof. intros H. unfold total. induction l as [|a l IH]; simpl; [reflexivity|]. rewrite IH, H. lra. Qed.

Lemma rest_rhs at2 tp ip (S : sspace RNum) e q : rest S ->
  (forall c b, ekind e = Hooke c b -> forall bd, nth_error (sbodies S) (ebody e) = Some bd -> 0 <= get c (Flow.Model.kspring (fb bd))) ->
  eqn_of (K:=RNum) ln at2 tp ip (/4) (/1000) S (fun _ => P 0 0) (fun _ => 0) e = Some q -> rhs q = 0.
Proof.
  intros [Rs Rc Ru Rt] Hk Eq. unfold eqn_of in Eq. destruct (nth_error (sbodies S) (ebody e)) as [b|] eqn:Hb; [|discriminate].
  assert (U : undriven (gravity S) b) by (rewrite Forall_forall in Ru; apply Ru; eapply nth_error_In; exact Hb).
  assert (T : still b) by (rewrite Forall_forall in Rt; apply Rt; eapply nth_error_In; exact Hb).
  destruct U as [Uo Uw Us], T as [Ts Td Tg Tf Th].
  destruct (ekind e) as [| | | |c|c|c k|c|c] eqn:Ek.
  - destruct (nth_error (alist (g_of b)) (eseg e)) as [s|]; [|discriminate]. cbn [option_map] in Eq. injection Eq as <-. unfold slip_eq. cbn [rhs]. rewrite Rs. unfold dot, rotl, P. cbn [x y]. unr. eqR. ring.
  - injection Eq as <-. reflexivity.
  - injection Eq as <-. unfold inf_eq. cbn [rhs]. unr. eqR. lra.
  - injection Eq as <-. unfold steady_eq. cbn [rhs]. rewrite Tg, Ts. unfold nil3. cbn [o3]. unr. eqR. ring.
  - injection Eq as <-. unfold speed_eq. cbn [rhs]. rewrite Uo. destruct c; reflexivity.
  - injection Eq as <-. reflexivity.
  - injection Eq as <-. pose proof (Us c (Hk c k eq_refl b eq_refl)) as X. unfold hooke_eq. cbn [rhs]. rewrite Th. unfold nil3, P.
    destruct c, k; cbn [get r3 o3 x y] in *; unr; eqR; change (Num.T RNum) with R in *; lra.
  - injection Eq as <-. unfold hydro_eq. rewrite Ts, Td, Tf. unfold nil3, P, sqr, dot, vscale, rotl. destruct c; cbn [rhs r3 o3 x y]; change (@ndiv RNum) with Rdiv; unfold Rdiv; unr; eqR; ring.
  - injection Eq as <-. unfold newton_eq. rewrite Ts. unfold nil3, P, sqr, dot, vscale, rotl.
    destruct Uw as [G|D]; [rewrite G|rewrite D]; unfold P; destruct c; cbn [rhs r3 o3 x y]; change (@ndiv RNum) with Rdiv; unfold Rdiv; unr; eqR; ring.
Qed.

(** Springs are for components that are not rigid. *)
Lemma hooke_soft_any l p i c b0 : In (i, Hooke c b0) (fst (walk (springs_from 0 l) p)) -> exists s, nth_error l i = Some s /\ rigid s c = false.
Proof.
  intros H.
  assert (X : forall t p, In (i, Hooke c b0) (fst (walk t p)) -> In (i, c, false) t).
  { clear. induction t as [|[[b d] rg] t IH]; intros p; simpl; [easy|]. unfold plan_spring.
    destruct rg; [|destruct (ptr_eqb p (PSpring b d))].
    - destruct (walk t p) as [ks q] eqn:W. simpl. intros [X|X]; [discriminate X|]. right. apply (IH p). rewrite W. exact X.
    - destruct (walk t (PHolder b d)) as [ks q] eqn:W. simpl. intros [X|X]; [discriminate X|]. right. apply (IH (PHolder b d)). rewrite W. exact X.
    - destruct (walk t PNull) as [ks q] eqn:W. simpl. intros [X|X]; [left; injection X as -> -> _; reflexivity|]. right. apply (IH PNull). rewrite W. exact X. }
  apply X in H. apply springs_in in H. destruct H as (_ & s & E & F). rewrite Nat.sub_0_r in E. exists s. auto.
Qed.

Lemma rest_zero at2 tp ip (S : sspace RNum) p es pq : rest S -> plan (shapes_of S) p = Some (es, pq) -> roots_listed S ->
  solution_with at2 tp ip (fun _ => P 0 0) (fun _ => 0) S p (fun _ => 0).
Proof.
  intros Rt Hp HL. set (sizes := sizes_of S). set (N := system_size sizes).
  set (addr := fun u => Z.of_nat (col sizes u)).
  set (sl := mkSlots [] (map (fun c => (Z.of_nat c, Z.of_nat c)) (seq 0 N))).
  assert (HR : registered addr sizes sl).
  { intros u Hu. unfold get_col, sl, addr. cbn [idx]. rewrite find_self by (pose proof (col_lt _ _ Hu); unfold N; lia). reflexivity. }
  destruct (fill_in_spec (K:=RNum) ln at2 tp ip (/4) (/1000) S (fun _ => P 0 0) (fun _ => 0) addr p es pq es false sl (@mkSystem RNum (fun _ => 0) (fun _ => 0)) Hp (Permutation_refl _) HR HL)
    as (M' & E & R1 & _).
  exists addr, es, pq, es, sl, (@mkSystem RNum (fun _ => 0) (fun _ => 0)), M'.
  split; [exact Hp|]. split; [apply Permutation_refl|]. split; [exact HR|]. split; [exact HL|]. split; [exact E|].
  intros row Hrow. pose proof (plan_rows _ _ _ _ Hp) as Rows. rewrite sizes_shapes in Rows.
  assert (Hin : In row (map erow es)) by (rewrite Rows; apply in_seq; lia).
  apply in_map_iff in Hin. destruct Hin as (e & <- & He).
  destruct (entry_eqn (K:=RNum) ln at2 tp ip (/4) (/1000) S (fun _ => P 0 0) (fun _ => 0) e) as (q & Eq).
  { apply (plan_entries _ _ _ _ _ _ _ [] Hp eq_refl _ He). }
  rewrite (R1 e q He Eq). transitivity 0; [apply total_zero; intros c; unfold values; ring|]. symmetry. apply (rest_rhs at2 tp ip S e q Rt); [|exact Eq].
  intros c k Ek b Hb. destruct (plan_walk _ _ _ _ _ _ _ Hp) as [_ W].
  assert (X : In (ebody e, Hooke c k) (fst (walk (springs_from 0 (shapes_of S)) p))) by (apply (W (ebody e) (Hooke c k) eq_refl); exists e; auto).
  apply hooke_soft_any in X. destruct X as (s & Es & Er). unfold shapes_of in Es. rewrite nth_error_map, Hb in Es. cbn [option_map] in Es. injection Es as <-.
  cbn [shape_of rigid] in Er. apply orb_false_iff in Er. destruct Er as [Er _]. unfold isrigid in Er. apply negb_false_iff, andb_true_iff in Er. destruct Er as [Er _].
  change (@nleb RNum) with Rleb in Er. apply Rleb_true in Er. exact Er.
Qed.

Lemma rest_unique at2 tp ip (S : sspace RNum) p v : rest S -> one_solution at2 tp ip S p ->
  solution_with at2 tp ip (fun _ => P 0 0) (fun _ => 0) S p v -> forall u, known (sizes_of S) u -> v u = 0.
Proof.
  intros Rt One Sol u Hu. pose proof Sol as (addr & es & q & order & sl & M & M' & Hp & _ & _ & HL & _).
  exact (One v (fun _ => 0) Sol (rest_zero at2 tp ip S p es q Rt Hp HL) u Hu).
Qed.

(** ** One step *)

Definition frame (b : fbodyR) := (fshape b, map (fun s : segR => sg s) (segs b), g_dead b, fdt_dead b, own b, root b, Flow.Model.kspring b).

Lemma heat_frame : forall bs l bs' l', heat_bodies (K:=RNum) bs l = Some (bs', l') -> map frame bs' = map frame bs.
Proof.
  induction bs as [|b t IH]; intros l bs' l' E; cbn [heat_bodies] in E; [injection E as <- <-; reflexivity|].
  destruct (heat_segs (K:=RNum) (cond b) (alist (geo b)) (segs b) l) as [[s1 l1]|] eqn:HS; [|discriminate].
  destruct (heat_bodies (K:=RNum) t l1) as [[t2 l2]|] eqn:HT; [|discriminate].
  injection E as <- <-. apply heat_segs_sums in HS. destruct HS as (_ & D & _). cbn [map]. rewrite (IH _ _ _ HT). f_equal.
  unfold frame, fshape. cbn [geo segs set_segs g_dead fdt_dead own root Flow.Model.kspring]. rewrite D. reflexivity.
Qed.
Lemma seg_frame i k f bs : (forall s : segR, sg (f s) = sg s) -> map frame (change_seg (K:=RNum) i k f bs) = map frame bs.
Proof.
  intros E. unfold change_seg. apply change_map. intros b. unfold frame, fshape. cbn [geo segs set_segs g_dead fdt_dead own root Flow.Model.kspring].
  rewrite (change_map f (fun s : segR => sg s) E). reflexivity.
Qed.

Section Step.
Variables inf dbl_max eps gap : R.

Lemma layer_frame : forall bs p bs' h, first_layer (K:=RNum) dbl_max bs p = Some (bs', h) -> map frame bs' = map frame bs.
Proof.
  induction bs as [|b t IH]; intros p bs' h E; cbn [first_layer] in E; [injection E as <- <-; reflexivity|].
  destruct (is_point_in_heat_layer (K:=RNum) dbl_max (geo b) p) as [x q] eqn:Q.
  assert (X : frame (set_geo x b) = frame b).
  { unfold is_point_in_heat_layer in Q. injection Q as <- _. reflexivity. }
  destruct q as [[k|]|]; [injection E as <- <-; cbn [map]; rewrite X; reflexivity| |discriminate].
  destruct (first_layer (K:=RNum) dbl_max t p) as [[t' [[i k]|]]|] eqn:F; [| |discriminate]; injection E as <- <-; cbn [map]; rewrite X, (IH _ _ _ F); reflexivity.
Qed.
Lemma clean_heat_frame : forall l n bs bs' l', clean_heat (K:=RNum) dbl_max n bs l = Some (bs', l') -> map frame bs' = map frame bs.
Proof.
  induction l as [|o t IH]; intros n bs bs' l' E; cbn [clean_heat] in E; [injection E as <- <-; reflexivity|].
  assert (KEEP : forall bs1 n, map frame bs1 = map frame bs ->
     match clean_heat (K:=RNum) dbl_max n bs1 t with Some (bs', l') => Some (bs', o :: l') | None => None end = Some (bs', l') ->
     map frame bs' = map frame bs).
  { intros bs1 m C X. destruct (clean_heat (K:=RNum) dbl_max m bs1 t) as [[bs2 l2]|] eqn:Y; [|discriminate]. injection X as <- _.
    rewrite (IH _ _ _ _ Y). exact C. }
  destruct (first_hit (K:=RNum) dbl_max 0 bs (pos o)) as [[[i k]|]|]; [| |discriminate].
  - rewrite (IH _ _ _ _ E). apply seg_frame. reflexivity.
  - destruct (first_layer (K:=RNum) dbl_max bs (pos o)) as [[bs1 [[i k]|]]|] eqn:L; [| |discriminate]; apply layer_frame in L.
    + destruct (layer_taken (K:=RNum) i k bs1) as [[[m|] []]|]; try discriminate;
        try (eapply KEEP; [|exact E]; [exact L]);
        try (eapply KEEP; [|exact E]; rewrite seg_frame; [exact L|reflexivity]);
        try (rewrite (IH _ _ _ _ E), seg_frame by reflexivity; exact L).
    + eapply KEEP; [exact L|exact E].
Qed.

(** A body of the start and what has become of it. *)
Definition calm (b0 b : fbodyR) : Prop :=
  place b = place b0 /\ Flow.Model.kspring b = Flow.Model.kspring b0 /\ root b = root b0 /\ own b = nil3 /\
  speed_slae (geo b) = nil3 /\ Forall (fun g => g = 0) (map (fun s : segR => sg s) (segs b)) /\ wf b.
Definition calmer (b0 b : fbodyR) : Prop := calm b0 b /\ fdt_dead b = nil3 /\ g_dead b = 0.
Definition calmest (b0 b : fbodyR) : Prop := calmer b0 b /\ speed_slae_prev (geo b) = nil3.

Lemma frame_parts (b b' : fbodyR) : frame b = frame b' -> place b = place b' /\ speed_slae (geo b) = speed_slae (geo b') /\ speed_slae_prev (geo b) = speed_slae_prev (geo b') /\
  map (fun s : segR => sg s) (segs b) = map (fun s : segR => sg s) (segs b') /\ g_dead b = g_dead b' /\ fdt_dead b = fdt_dead b' /\ own b = own b' /\ root b = root b' /\
  Flow.Model.kspring b = Flow.Model.kspring b' /\ (wf b' -> wf b).
Proof.
  unfold frame. intros E. injection E. intros E1 E2 E3 E4 E5 E6 E7.
  intros. assert (A : alist (geo b) = alist (geo b') /\ holder (geo b) = holder (geo b') /\ dpos (geo b) = dpos (geo b') /\ speed_slae (geo b) = speed_slae (geo b') /\ speed_slae_prev (geo b) = speed_slae_prev (geo b')).
  { repeat split; assumption. }
  destruct A as (A1 & A2 & A3 & A4 & A5). unfold place, corners. rewrite A1, A2, A3. repeat split; try assumption.
  unfold wf. rewrite A1. match goal with H : map _ (segs b) = map _ (segs b') |- _ => apply (f_equal (@length _)) in H; rewrite !map_length in H; rewrite H end. auto.
Qed.
Lemma calm_frame b0 b b' : frame b' = frame b -> calm b0 b -> calm b0 b'.
Proof.
  intros E (P1 & P2 & P3 & P4 & P5 & P6 & P7). apply frame_parts in E. destruct E as (F1 & F2 & F3 & F4 & F5 & F6 & F7 & F8 & F9 & F10).
  unfold calm. rewrite F1, F2, F4, F7, F8, F9. repeat split; auto.
Qed.
Lemma calmest_frame b0 b b' : frame b' = frame b -> calmest b0 b -> calmest b0 b'.
Proof.
  intros E ((C & D & G) & Sp). pose proof (calm_frame b0 b b' E C) as C'. apply frame_parts in E. destruct E as (_ & _ & F3 & _ & F5 & F6 & _).
  split; [split; [exact C'|rewrite F5, F6; auto]|rewrite F3; exact Sp].
Qed.
Lemma all2_frame (Q : fbodyR -> fbodyR -> Prop) (H : forall b0 b b', frame b' = frame b -> Q b0 b -> Q b0 b') l bs :
  Forall2 Q l bs -> forall bs', map frame bs' = map frame bs -> Forall2 Q l bs'.
Proof.
  induction 1 as [|b0 b l bs X F IH]; intros [|b' bs'] E; try discriminate; constructor.
  - apply (H b0 b b'); [|exact X]. pose proof (f_equal (hd (frame b)) E) as E1. exact E1.
  - apply IH. exact (f_equal (@tl _) E).
Qed.
Lemma all2_map (Q Q' : fbodyR -> fbodyR -> Prop) f l bs : (forall b0 b, Q b0 b -> Q' b0 (f b)) -> Forall2 Q l bs -> Forall2 Q' l (map f bs).
Proof. intros H. induction 1; constructor; auto. Qed.

(** Nothing is shed. *)
Lemma none_shed : 0 < eps -> forall al (sl : list segR), Forall (fun g => g = 0) (map (fun s : segR => sg s) sl) -> flat_map (shed1 (K:=RNum) eps gap) (combine al sl) = [].
Proof.
  intros Pe. induction al as [|a al IH]; intros [|s sl] F; try reflexivity. inversion F as [|g t G F']; subst. cbn [combine flat_map]. rewrite (IH sl F').
  unfold shed1. rewrite G. change (@nleb RNum) with Rleb. cbn [nabs RNum].
  assert (X : Rleb eps (Rabs 0) = false). { unfold Rleb. rewrite Rabs_R0. destruct (Rle_dec eps 0); [lra|reflexivity]. }
  rewrite X. reflexivity.
Qed.

(** What is kept by the bodies is nothing. *)
Lemma bury_calm b0 b : calmest b0 b -> calmest b0 (bury (K:=RNum) eps b).
Proof.
  intros (((P1 & P2 & P3 & P4 & P5 & P6 & P7) & D & G) & Sp).
  assert (X : forall (L : list (att RNum * segR)) (out : list segR) (f : vec3 RNum) (d : R), Forall (fun e : att RNum * segR => sg (snd e) = 0) L -> f = nil3 -> d = 0 -> Forall (fun s : segR => sg s = 0) out ->
    match fold_left (bury1 (K:=RNum) eps (get_axis (geo b))) L (out, f, d) with (s, f, d) => length s = (length out + length L)%nat /\ f = nil3 /\ d = 0 /\ Forall (fun s : segR => sg s = 0) s end).
  { induction L as [|[a s] L IH]; intros out f d FL Hf Hd Fo; cbn [fold_left length]; [rewrite Nat.add_0_r; auto|]. inversion FL as [|e t G0 FL']; subst. cbn [snd] in G0.
    unfold bury1 at 2. destruct (small (K:=RNum) eps (sg s) || slip a).
    - match goal with |- context [fold_left _ L (?o, ?f, ?d)] => pose proof (IH o f d FL') as Y end. rewrite app_length in Y. cbn [length] in Y. rewrite <- Nat.add_assoc in Y. cbn [Nat.add] in Y. apply Y.
      + rewrite G0. unfold vadd3, nil3, vadd, vscale, rotl, P. cbn [r3 o3 x y]. unr. f_equal; [f_equal|]; eqR; ring.
      + rewrite G0. unr. eqR. ring.
      + apply Forall_app. split; [exact Fo|]. constructor; [exact G0|constructor].
    - match goal with |- context [fold_left _ L (?o, ?f, ?d)] => pose proof (IH o f d FL') as Y end. rewrite app_length in Y. cbn [length] in Y. rewrite <- Nat.add_assoc in Y. cbn [Nat.add] in Y. apply Y; auto.
      apply Forall_app. split; [exact Fo|]. constructor; [exact G0|constructor]. }
  assert (FL : Forall (fun e : att RNum * segR => sg (snd e) = 0) (combine (alist (geo b)) (segs b))).
  { apply Forall_forall. intros [a s] I. apply in_combine_r in I. cbn [snd]. rewrite Forall_forall in P6. apply P6, in_map_iff. exists s. auto. }
  specialize (X (combine (alist (geo b)) (segs b)) [] (fdt_dead b) (g_dead b) FL D G (Forall_nil _)). unfold bury.
  destruct (fold_left _ _ _) as [[s f] d]. destruct X as (L & F & Dd & FS). cbn [length Nat.add] in L. rewrite combine_length, P7, Nat.min_id in L.
  split; [split; [|split; [exact F|exact Dd]]|exact Sp]. unfold calm. cbn [geo segs set_dead Flow.Model.kspring root own]. repeat split; auto.
  apply Forall_forall. intros g I. apply in_map_iff in I. destruct I as (s0 & <- & I). rewrite Forall_forall in FS. exact (FS s0 I).
Qed.

(** Bodies without speed do not move. *)
Lemma chain_zero fuel (bs : list fbodyR) dt : (forall b, In b bs -> speed_slae (geo b) = nil3) -> forall b e, chain_error (K:=RNum) cos sin fuel bs dt b = Some e -> e = P 0 0.
Proof.
  intros H. induction fuel as [|fuel IH]; intros b e E; cbn [chain_error] in E; destruct (root b) as [j|]; try discriminate; try (injection E as <-; reflexivity).
  destruct (nth_error bs j) as [rt|] eqn:N; [|discriminate]. rewrite (H rt (nth_error_In _ _ N)) in E.
  destruct (chain_error (K:=RNum) cos sin fuel bs dt rt) as [e'|] eqn:C; [|discriminate]. cbn [option_map] in E. injection E as <-. rewrite (IH rt e' C).
  unfold nil3. cbn [o3]. change (@nmul RNum) with Rmult. replace (0 * dt) with 0 by (symmetry; apply Rmult_0_l). rewrite cos_0, sin_0.
  unfold vadd, vsub, vscale, rotl, P. cbn [x y]. unr. f_equal; eqR; ring.
Qed.
Lemma deltas_zero fuel (bs : list fbodyR) dt b dh db : (forall b, In b bs -> speed_slae (geo b) = nil3) -> own b = nil3 -> speed_slae (geo b) = nil3 ->
  deltas (K:=RNum) cos sin fuel bs dt b = Some (dh, db) -> dh = nil3 /\ db = nil3.
Proof.
  intros H O Sp E. unfold deltas in E. destruct (chain_error (K:=RNum) cos sin fuel bs dt b) as [e|] eqn:C.
  2:{ destruct (match root b with None => Some (own b) | Some j => _ end); discriminate. }
  apply (chain_zero fuel bs dt H) in C. subst e. rewrite O, Sp in E. destruct (root b) as [j|].
  - destruct (nth_error bs j) as [rt|] eqn:N; [|discriminate]. rewrite (H rt (nth_error_In _ _ N)) in E. injection E as <- <-.
    unfold nil3, vadd, vsub, vscale, rotl, P. cbn [r3 o3 x y]. unr. split; (f_equal; [f_equal|]); eqR; ring.
  - injection E as <- <-. unfold nil3, vadd, vsub, vscale, rotl, P. cbn [r3 o3 x y]. unr. split; (f_equal; [f_equal|]); eqR; ring.
Qed.
Lemma move_zero (b : body RNum) : corners (move (K:=RNum) inf cos sin nil3 nil3 b) = corners b /\ holder (move (K:=RNum) inf cos sin nil3 nil3 b) = holder b /\
  dpos (move (K:=RNum) inf cos sin nil3 nil3 b) = dpos b /\ speed_slae (move (K:=RNum) inf cos sin nil3 nil3 b) = speed_slae b /\ speed_slae_prev (move (K:=RNum) inf cos sin nil3 nil3 b) = speed_slae b.
Proof.
  assert (RF : forall b, holder (refresh (K:=RNum) inf b) = holder b /\ dpos (refresh (K:=RNum) inf b) = dpos b).
  { intros c. unfold refresh, fill_properties. cbn [set_alist alist]. destruct (update_segments _); [split; reflexivity|]. destruct (fill_cofm _). split; reflexivity. }
  split; [|split; [|split; [|split]]].
  - rewrite move_corners. rewrite <- (map_id (corners b)) at 2. apply map_ext. intros [u v]. unfold motion, Verif.Body.Spec.rigid, nil3. cbn [r3 o3]. rewrite cos_0, sin_0. unfold P, px, py. cbn [x y]. f_equal; eqR; ring.
  - unfold move. rewrite (proj1 (RF _)). cbn [holder]. destruct (holder b) as [[u v] w]. unfold nil3, vadd, P. cbn [r3 o3 x y]. unr. f_equal; [f_equal|]; eqR; ring.
  - unfold move. rewrite (proj2 (RF _)). cbn [dpos]. destruct (dpos b) as [[u v] w]. unfold nil3, vadd, vsub, P. cbn [r3 o3 x y]. unr. f_equal; [f_equal|]; eqR; ring.
  - unfold move. rewrite (proj1 (refresh_speed inf _)). reflexivity.
  - unfold move. rewrite (proj2 (refresh_speed inf _)). reflexivity.
Qed.
Lemma move_calm fuel bs dt b0 b b' : (forall b, In b bs -> speed_slae (geo b) = nil3) -> calmer b0 b -> move_body (K:=RNum) inf cos sin fuel bs dt b = Some b' -> calmest b0 b'.
Proof.
  intros H ((P1 & P2 & P3 & P4 & P5 & P6 & P7) & D & G) E. unfold move_body in E. destruct (deltas (K:=RNum) cos sin fuel bs dt b) as [[dh db]|] eqn:Dl; [|discriminate].
  destruct (deltas_zero fuel bs dt b dh db H P4 P5 Dl) as [-> ->]. cbn [option_map fst snd] in E. injection E as <-. destruct (move_zero (geo b)) as (M1 & M2 & M3 & M4 & M5).
  split; [split; [|split; [exact D|exact G]]|cbn [geo set_geo]; rewrite M5; exact P5].
  unfold calm, place. cbn [geo segs set_geo Flow.Model.kspring root own]. rewrite M1, M2, M3, M4. repeat split; auto.
  unfold wf. cbn [geo segs set_geo]. rewrite P7. apply (f_equal (@length _)) in M1. unfold corners in M1. rewrite !map_length in M1. symmetry. exact M1.
Qed.
End Step.

Section Whole.
Variables inf dbl_max eps gap : R.
Variable at2 : R -> R -> R.
Variables tp ip : R.
Hypothesis Pe : 0 < eps.

Lemma written_calm (S : sspace RNum) (F : space RNum) v : rest S -> agrees S F -> Forall wf (bodies F) -> (forall u, known (sizes_of S) u -> v u = 0) ->
  Forall2 calm (bodies F) (map (written_body v) (indexed (bodies F))).
Proof.
  intros Rt [Ab _] W Z.
  assert (X : forall i b, nth_error (bodies F) i = Some b -> calm b (written_body v (i, b))).
  { intros i b N. assert (Wb : wf b) by (rewrite Forall_forall in W; apply W; eapply nth_error_In; exact N).
    pose proof N as N'. rewrite <- Ab, nth_error_map in N'. destruct (nth_error (sbodies S) i) as [sb|] eqn:Ns; [|discriminate]. cbn [option_map] in N'. injection N' as Eb.
    assert (Li : (i < length (sizes_of S))%nat) by (unfold sizes_of; rewrite map_length; apply nth_error_Some; congruence).
    assert (ZV : forall c, v (UV i c) = 0) by (intros c; apply Z; exact Li).
    assert (Sz : nth_error (sizes_of S) i = Some (length (alist (geo b)))).
    { unfold sizes_of. rewrite nth_error_map, Ns. cbn [option_map]. unfold g_of. rewrite Eb. reflexivity. }
    unfold calm, written_body. cbn [geo segs set_segs set_geo Flow.Model.kspring root own].
    split; [reflexivity|]. split; [reflexivity|]. split; [reflexivity|]. split.
    { destruct Rt as [_ _ Ru _]. rewrite Forall_forall in Ru. rewrite <- Eb. apply (Ru sb (nth_error_In _ _ Ns)). }
    split; [cbn [set_speed speed_slae]; unfold speed_in, nil3; rewrite !ZV; reflexivity|]. split.
    - rewrite map_map. apply Forall_forall. intros g I. apply in_map_iff in I. destruct I as ([k s] & <- & I). cbn [fst snd set_sg sg].
      apply Z. exists (length (alist (geo b))). split; [exact Sz|]. apply in_combine_l, in_seq in I. unfold wf in Wb. rewrite <- Wb. apply I.
    - unfold wf in *. cbn [geo segs set_segs set_geo set_speed alist]. rewrite map_length. unfold indexed. rewrite combine_length, seq_length, Nat.min_id. exact Wb. }
  clear - X. unfold indexed. revert X. assert (Y : forall (bs : list fbodyR) n, (forall i b, nth_error bs i = Some b -> calm b (written_body v ((n + i)%nat, b))) ->
    Forall2 calm bs (map (written_body v) (combine (seq n (length bs)) bs))).
  { induction bs as [|b bs IH]; intros n H; [constructor|]. cbn [length seq combine map]. constructor.
    - specialize (H 0%nat b eq_refl). rewrite Nat.add_0_r in H. exact H.
    - apply IH. intros i c N. specialize (H (Datatypes.S i) c N). rewrite Nat.add_succ_r in H. exact H. }
  intros X. apply (Y (bodies F) 0%nat). exact X.
Qed.

Lemma all2_impl2 {A B} (Q Q' : A -> B -> Prop) l l' : (forall a b, Q a b -> Q' a b) -> Forall2 Q l l' -> Forall2 Q' l l'.
Proof. intros H. induction 1; constructor; auto. Qed.
Lemma all2_move (bs0 : list fbodyR) fuel dt l bs bs' : (forall b, In b bs0 -> speed_slae (geo b) = nil3) -> Forall2 calmer l bs ->
  Forall2 (fun b b' => move_body (K:=RNum) inf cos sin fuel bs0 dt b = Some b') bs bs' -> Forall2 calmest l bs'.
Proof.
  intros H F. revert bs'. induction F as [|b0 b l bs C F IH]; intros bs' G; inversion G as [|b1 b' t t' E G']; subst; constructor; [|apply IH; exact G'].
  eapply move_calm; [exact H|exact C|exact E].
Qed.

Lemma quiet_step S F fr S' F' fr' : quiet S F fr -> rstep inf dbl_max eps gap at2 tp ip S F fr S' F' fr' ->
  quiet S' F' fr' /\ map place (bodies F') = map place (bodies F) /\ Forall (fun b => speed_slae (geo b) = nil3) (bodies F') /\
  Forall (fun b => Forall (fun s : segR => sg s = 0) (segs b)) (bodies F').
Proof.
  intros (Rt & Ag & V0 & W & Fr) [_ _ (p & v & F1 & F2 & F4 & F5 & fuel & dt & cdt & ptr & n & One & Sol & B1 & V1 & H & B4 & V4 & M & Re & V5 & Fh & Fr') Fp Ag' Mk (Fl1 & Fl2 & Fl3) Ow].
  pose proof (rest_unique at2 tp ip S p v Rt One Sol) as Z.
  pose proof (written_calm S F v Rt Ag W Z) as C1. rewrite <- B1 in C1. rewrite V0 in V1. apply Permutation_nil in V1.
  unfold heat_shed in H. destruct (heat_bodies (K:=RNum) (bodies F1) (heat F1)) as [[bs2 hl2]|] eqn:HB; [|discriminate]. injection H as <-.
  pose proof (all2_frame calm (fun b0 b b' => calm_frame b0 b b') _ _ C1 _ (heat_frame _ _ _ _ HB)) as C2.
  (* shedding *)
  assert (V3 : vort (vortex_shed (K:=RNum) eps gap (mkSpace bs2 (vort F1) hl2 (streak F1))) = []).
  { cbn [vort vortex_shed bodies]. rewrite V1. cbn [app]. clear - C2 Pe. induction C2 as [|b0 b l bs (_ & _ & _ & _ & _ & P6 & _) FF IH]; [reflexivity|]. cbn [flat_map]. rewrite IH, (none_shed eps gap Pe _ _ P6). reflexivity. }
  rewrite V3 in V4. cbn [length] in V4. apply length_zero_iff_nil in V4.
  assert (C4 : Forall2 calmer (bodies F) (bodies F4)).
  { rewrite B4. cbn [bodies vortex_shed zero_forces]. rewrite map_map. eapply all2_map; [|exact C2]. intros b0 b (P1 & P2 & P3 & P4 & P5 & P6 & P7).
    split; [|split; reflexivity]. unfold calm. cbn [geo segs set_segs set_dead Flow.Model.kspring root own]. rewrite !map_map. cbn [sg zero_seg count_g].
    repeat split; auto. unfold wf in *. cbn [geo segs set_segs set_dead]. rewrite !map_length. exact P7. }
  (* motion *)
  unfold move_and_clean in M. destruct (detect (K:=RNum) _ _ _ _) as [c q]. cbv zeta in M. rewrite V4 in M. cbn [map filter clean_vort] in M.
  destruct (move_bodies (K:=RNum) inf cos sin fuel c (bodies F4)) as [bs|] eqn:MB; [|discriminate].
  apply all_some_spec in MB.
  assert (Sp4 : forall b, In b (bodies F4) -> speed_slae (geo b) = nil3).
  { intros b I. clear - C4 I. induction C4 as [|b0 b1 l bs ((_ & _ & _ & _ & P5 & _) & _) FF IH]; [destruct I|destruct I as [<-|I]; auto]. }
  pose proof (all2_move (bodies F4) fuel c _ _ _ Sp4 C4 MB) as C5.
  match type of M with context [clean_heat (K:=RNum) dbl_max 0 bs ?l] => destruct (clean_heat (K:=RNum) dbl_max 0 bs l) as [[bs6 hl]|] eqn:CH; [|discriminate] end.
  pose proof (all2_frame calmest (fun b0 b b' => calmest_frame b0 b b') _ _ C5 _ (clean_heat_frame dbl_max _ _ _ _ _ CH)) as C6.
  match type of M with context [clean_streak (K:=RNum) dbl_max bs6 ?l] => destruct (clean_streak (K:=RNum) dbl_max bs6 l) as [sl|]; [|discriminate] end.
  injection M as <- _ _ _. cbn [bodies vort] in Re, V5.
  assert (C7 : Forall2 calmest (bodies F) (map (bury (K:=RNum) eps) bs6)) by (eapply all2_map; [|exact C6]; intros b0 b; apply bury_calm).
  (* the next space *)
  assert (OF : Forall (fun b : fbodyR => own b = nil3) (bodies F')).
  { destruct Ag' as [<- _]. apply Forall_forall. intros b I. apply in_map_iff in I. destruct I as (sb & <- & I). rewrite Forall_forall in Ow. exact (Ow sb I). }
  assert (C8 : Forall2 calmest (bodies F) (bodies F')).
  { clear - C7 Re OF. revert OF. generalize dependent (bodies F'). induction C7 as [|b0 b l bs (((P1 & P2 & P3 & P4 & P5 & P6 & P7) & D & G) & Sp) FF IH]; intros l' Re OF; inversion Re as [|b1 b' t t' E Re']; subst; constructor.
    - destruct E as (o & ->). inversion OF as [|x0 t0 O _]; subst. cbn [own] in O. split; [split; [unfold calm, place; cbn; repeat split; assumption|split; assumption]|exact Sp].
    - apply IH; [exact Re'|]. inversion OF; assumption. }
  assert (NF : forall i b', nth_error (bodies F') i = Some b' -> exists b0, nth_error (bodies F) i = Some b0 /\ calmest b0 b').
  { intros i b' N. destruct (Flow.ProofsReal.forall2_nth' _ _ _ C8 i b' N) as (b0 & N0 & C). eauto. }
  assert (VN : vort F' = []) by (rewrite V5; reflexivity).
  split; [|split; [|split]].
  - split; [|split; [exact Ag'|split; [exact VN|split; [|exact (Fr' V4)]]]].
    + destruct Rt as [R1 R2 R3 R4]. constructor.
      * rewrite Fl1. exact R1.
      * rewrite Fl2. rewrite (proj2 Ag'), VN. rewrite (proj2 Ag), V0 in R2. exact R2.
      * apply Forall_forall. intros sb' I. apply In_nth_error in I. destruct I as (i & N'). destruct (Flow.ProofsReal.forall2_nth' _ _ _ Mk i sb' N') as (sb & N & (Md & Mt)).
        pose proof Ag' as [AB' _]. pose proof Ag as [AB _].
        assert (N'' : nth_error (bodies F') i = Some (fb sb')) by (rewrite <- AB', nth_error_map, N'; reflexivity).
        destruct (NF i _ N'') as (b0 & N0 & (((P1 & P2 & P3 & P4 & P5 & P6 & P7) & D & G) & Sp)).
        assert (b0 = fb sb) by (rewrite <- AB, nth_error_map, N in N0; cbn [option_map] in N0; congruence). subst b0.
        rewrite Forall_forall in R3. destruct (R3 sb (nth_error_In _ _ N)) as [U1 U2 U3]. constructor.
        { exact P4. }
        { rewrite Fl3, Md. exact U2. }
        { intros k Hk. unfold g_of in *. rewrite P2 in *. unfold place in P1. assert (Ed : dpos (geo (fb sb')) = dpos (geo (fb sb))) by congruence. rewrite Ed, Mt. apply U3. exact Hk. }
      * apply Forall_forall. intros sb' I. apply In_nth_error in I. destruct I as (i & N').
        pose proof Ag' as [AB' _].
        assert (N'' : nth_error (bodies F') i = Some (fb sb')) by (rewrite <- AB', nth_error_map, N'; reflexivity).
        destruct (NF i _ N'') as (b0 & N0 & ((_ & D & G) & Sp)). constructor; [exact Sp|exact D|exact G| |].
        { rewrite Forall_forall in Fr. symmetry. apply Fr. rewrite <- Fp. apply in_map, (nth_error_In _ _ N'). }
        { assert (Fi : In (force_holder sb') (map force_holder (sbodies S'))) by (apply in_map, (nth_error_In _ _ N')).
          rewrite Fh in Fi. apply in_map_iff in Fi. destruct Fi as (k & Ek & Ik). apply in_seq in Ik.
          assert (Zk : forall d, v (UF k d) = 0) by (intros d; apply Z; cbn [known]; unfold sizes_of; rewrite map_length; lia).
          rewrite <- Ek, !Zk. reflexivity. }
    + clear - C8. induction C8 as [|b0 b l bs (((_ & _ & _ & _ & _ & _ & P7) & _) & _) FF IH]; constructor; assumption.
  - clear - C8. induction C8 as [|b0 b l bs (((P1 & _) & _) & _) FF IH]; cbn [map]; [reflexivity|]. rewrite P1, IH. reflexivity.
  - clear - C8. induction C8 as [|b0 b l bs (((_ & _ & _ & _ & P5 & _) & _) & _) FF IH]; constructor; assumption.
  - clear - C8. induction C8 as [|b0 b l bs (((_ & _ & _ & _ & _ & P6 & _) & _) & _) FF IH]; constructor; [|assumption].
    apply Forall_forall. intros s I. rewrite Forall_forall in P6. apply P6. apply in_map_iff. exists s. auto.
Qed.

Lemma quiet_steps S F fr S' F' fr' : rsteps inf dbl_max eps gap at2 tp ip S F fr S' F' fr' -> quiet S F fr ->
  quiet S' F' fr' /\ map place (bodies F') = map place (bodies F).
Proof.
  induction 1 as [S F fr|S F fr S1 F1 fr1 S' F' fr' St Sts IH]; intros Q; [auto|].
  destruct (quiet_step S F fr S1 F1 fr1 Q St) as (Q1 & P1 & _). destruct (IH Q1) as (Q2 & P2). split; [exact Q2|]. rewrite P2. exact P1.
Qed.
End Whole.

(** ** What drives *)

Lemma zero_rows at2 tp ip sk ff (S : sspace RNum) p : solution_with at2 tp ip sk ff S p (fun _ => 0) -> exists es q, plan (shapes_of S) p = Some (es, q) /\
  forall e qn, In e es -> eqn_of (K:=RNum) ln at2 tp ip (/4) (/1000) S sk ff e = Some qn -> rhs qn = 0.
Proof.
  intros (addr & es & q & order & sl & M & M' & Hp & HP & HR & HL & HF & Hs). exists es, q. split; [exact Hp|]. intros e qn He Eq.
  destruct (fill_in_spec (K:=RNum) ln at2 tp ip (/4) (/1000) S sk ff addr p es q order false sl M Hp HP HR HL) as (M2 & E2 & R1 & _).
  rewrite HF in E2. assert (M' = M2) by (injection E2; auto). subst M2. rewrite <- (R1 e qn He Eq).
  assert (Hrow : (erow e < system_size (sizes_of S))%nat).
  { pose proof (plan_rows _ _ _ _ Hp) as Rows. rewrite sizes_shapes in Rows. apply (in_map erow) in He. rewrite Rows in He. apply in_seq in He. lia. }
  rewrite <- (Hs _ Hrow). apply total_zero. intros c. unfold values. ring.
Qed.
