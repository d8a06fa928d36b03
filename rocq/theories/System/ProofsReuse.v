(** The matrix of bodies at rest can be kept. *)

From Coq Require Import ZArith Bool List Lia Permutation Reals Lra.
From Verif.Base Require Import Num.
From Verif.Matrix Require Import Model Proofs.
From Verif.Body Require Import Model Spec.
From Verif.Flow Require Import Model.
From Verif.System Require Import Model Spec Proofs ProofsCollision ProofsWrite ProofsPhysics ProofsSolve.
Import ListNotations.
Local Open Scope R_scope.

(** ** Bodies at rest do not move *)

Section Rest.
Variables (S : sspace RNum) (p : ptr) (v : unk -> R).
Hypothesis Sol : solution S p v.
Hypothesis Rest : forall b, In b (sbodies S) -> at_rest b.
Notation bs := (solved_bodies S v).

Lemma self_chain dt' : forall fuel i b, nth_error bs i = Some b -> root b = Some i ->
  chain_error (K:=RNum) cos sin fuel bs dt' b = None.
Proof.
  induction fuel as [|fuel IH]; intros i b Hb Hr; simpl; rewrite Hr; [reflexivity|]. rewrite Hb.
  rewrite (IH i b Hb Hr). reflexivity.
Qed.

Lemma rest_speed dt' : forall fuel i b, nth_error (sbodies S) i = Some b ->
  chain_error (K:=RNum) cos sin fuel bs dt' (set_geo (set_speed (speed_in v i) (g_of b)) (fb b)) <> None ->
  forall c, v (UV i c) = 0.
Proof.
  induction fuel as [|fuel IH]; intros i b Hb Hc c.
  - simpl in Hc. destruct (root (fb b)) as [j|] eqn:Ej; [congruence|].
    destruct (Rest b ltac:(eapply nth_error_In; eauto)) as [Ho Hk].
    pose proof (speed_rows S p v Sol i b c Hb ltac:(congruence) (or_introl (Hk c))) as H. rewrite Ej in H. rewrite H, Ho. destruct c; reflexivity.
  - destruct (root (fb b)) as [j|] eqn:Ej.
    + assert (Nij : root (fb b) <> Some i).
      { intros E. apply Hc. apply (self_chain dt' _ i); [apply solved_nth; exact Hb|exact E]. }
      destruct (Rest b ltac:(eapply nth_error_In; eauto)) as [Ho Hk].
      pose proof (speed_rows S p v Sol i b c Hb Nij (or_introl (Hk c))) as H. rewrite Ej in H. destruct H as (rt & Hrt & H).
      simpl in Hc. rewrite Ej, (solved_nth S v j rt Hrt) in Hc.
      assert (Z : forall c, v (UV j c) = 0).
      { apply (IH j rt Hrt). intros E. rewrite E in Hc. apply Hc. reflexivity. }
      destruct c; rewrite H, !Z, Ho; cbn [r3 o3]; unr; lra.
    + destruct (Rest b ltac:(eapply nth_error_In; eauto)) as [Ho Hk].
      pose proof (speed_rows S p v Sol i b c Hb ltac:(congruence) (or_introl (Hk c))) as H. rewrite Ej in H. rewrite H, Ho. destruct c; reflexivity.
Qed.

Lemma vec_eq (a b : pt) : px a = px b -> py a = py b -> a = b.
Proof. destruct a, b. unfold px, py. simpl. intros -> ->. reflexivity. Qed.

Lemma rest_chain dt' : (forall i b c, nth_error (sbodies S) i = Some b -> v (UV i c) = 0) ->
  forall fuel b er, chain_error (K:=RNum) cos sin fuel bs dt' b = Some er -> er = P 0 0.
Proof.
  intros Z. induction fuel as [|fuel IH]; intros b er; simpl.
  - destruct (root b); [discriminate|]. intros [= <-]. reflexivity.
  - destruct (root b) as [j|]; [|intros [= <-]; reflexivity].
    destruct (nth_error bs j) as [rt|] eqn:Er; [|discriminate].
    destruct (chain_error _ _ fuel bs dt' rt) as [e1|] eqn:E1; [|discriminate]. simpl.
    apply IH in E1. subst e1. intros [= <-].
    assert (Hs : o3 (speed_slae (geo rt)) = 0).
    { assert (Lj : (j < length (sbodies S))%nat).
      { assert (j < length bs)%nat by (apply nth_error_Some; congruence). unfold solved_bodies, indexed in H.
        rewrite map_length, combine_length, seq_length in H. lia. }
      destruct (nth_error (sbodies S) j) as [b0|] eqn:E0; [|apply nth_error_None in E0; lia].
      rewrite (solved_nth S v j b0 E0) in Er. injection Er as <-. simpl. apply (Z j b0 CO E0). }
    rewrite Hs. change (@nmul RNum 0 dt') with (0 * dt'). rewrite Rmult_0_l, cos_0, sin_0.
    apply vec_eq; unfold vadd, vsub, vscale, rotl; unr; lra.
Qed.

(** Everything the coefficients read. *)
Definition same_geo (g g' : body RNum) : Prop :=
  alist g' = alist g /\ area g' = area g /\ cofm g' = cofm g /\ moi g' = moi g /\ holder g' = holder g /\ dpos g' = dpos g.

Lemma refresh_fields inf (m g : body RNum) : alist m = alist g -> cofm m = cofm g -> moi m = moi g ->
  alist (refresh inf m) = alist (refresh inf g) /\ area (refresh inf m) = area (refresh inf g) /\
  cofm (refresh inf m) = cofm (refresh inf g) /\ moi (refresh inf m) = moi (refresh inf g) /\
  holder (refresh inf m) = holder m /\ dpos (refresh inf m) = dpos m.
Proof.
  intros EA EC EM. unfold refresh, fill_properties. cbn [alist set_alist]. rewrite EA.
  destruct (update_segments (alist g)) as [|a t]; [cbn; auto 10|]. destruct (fill_cofm (a :: t)) as [c m0]. cbn. auto 10.
Qed.

Lemma move_zero inf (b : sbody RNum) s (dh db : vec3 RNum) : fresh inf b ->
  dh = @mkVec3 RNum (P 0 0) 0 -> db = @mkVec3 RNum (P 0 0) 0 ->
  same_geo (g_of b) (move (K:=RNum) inf cos sin dh db (set_speed s (g_of b))).
Proof.
  intros F -> ->. unfold fresh in F. set (g := g_of b) in *. clearbody g.
  unfold move. cbv zeta. cbn [o3 r3]. rewrite cos_0, sin_0.
  match goal with |- same_geo _ (refresh _ ?m) => set (m0 := m) end.
  assert (EA : alist m0 = alist g).
  { unfold m0. cbn [alist]. change (alist (set_speed s g)) with (alist g).
    rewrite <- (map_id (alist g)) at 2. apply map_ext. intros [c sl d rr e]. cbn [corner slip dl r eps1]. f_equal.
    unfold move_corner. apply vec_eq; unfold vadd, vsub, vscale, rotl; unr; lra. }
  assert (EH : holder m0 = holder g).
  { unfold m0. cbn [holder set_speed]. destruct (holder g) as [[hx hy] ho]. cbn [r3 o3]. f_equal; [apply vec_eq|]; unfold vadd; unr; lra. }
  assert (ED : dpos m0 = dpos g).
  { unfold m0. cbn [dpos set_speed]. destruct (dpos g) as [[hx hy] ho]. cbn [r3 o3]. f_equal; [apply vec_eq|]; unfold vadd, vsub; unr; lra. }
  destruct (refresh_fields inf m0 g EA eq_refl eq_refl) as (A & B & C & D & E & G).
  unfold same_geo. rewrite A, B, C, D, E, G, F. repeat split; assumption.
Qed.

Lemma rest_moves inf fuel bs' : (forall b, In b (sbodies S) -> fresh inf b) ->
  move_bodies (K:=RNum) inf cos sin fuel (dt S) bs = Some bs' ->
  forall i b, nth_error (sbodies S) i = Some b -> exists b', nth_error bs' i = Some b' /\ same_geo (g_of b) (geo b').
Proof.
  intros F M. apply forall2_all_some in M.
  assert (CH : forall i b, nth_error (sbodies S) i = Some b -> exists b' dh db,
     nth_error bs' i = Some b' /\ deltas (K:=RNum) cos sin fuel bs (dt S) (set_geo (set_speed (speed_in v i) (g_of b)) (fb b)) = Some (dh, db) /\
     geo b' = move (K:=RNum) inf cos sin dh db (set_speed (speed_in v i) (g_of b))).
  { intros i b Hb. destruct (forall2_nth _ _ _ M i _ (solved_nth S v i b Hb)) as (b' & Hb' & HM).
    unfold move_body in HM. destruct (deltas _ _ _ _ _ _) as [[dh db]|] eqn:ED; [|discriminate HM].
    exists b', dh, db. split; [exact Hb'|]. split; [reflexivity|]. simpl in HM. injection HM as <-. reflexivity. }
  assert (Z : forall i b c, nth_error (sbodies S) i = Some b -> v (UV i c) = 0).
  { intros i b c Hb. destruct (CH i b Hb) as (b' & dh & db & _ & ED & _). apply (rest_speed (dt S) fuel i b Hb).
    unfold deltas in ED. destruct (chain_error _ _ _ _ _ _); [discriminate|].
    destruct (root _) as [j|]; [destruct (nth_error _ j)|]; discriminate ED. }
  intros i b Hb. destruct (CH i b Hb) as (b' & dh & db & Hb' & ED & EG). exists b'. split; [exact Hb'|]. rewrite EG.
  destruct (Rest b ltac:(eapply nth_error_In; eauto)) as [Ho Hk].
  assert (SP : speed_in v i = @mkVec3 RNum (P 0 0) 0) by (unfold speed_in; rewrite !(Z i b _ Hb); reflexivity).
  unfold deltas in ED. cbn [set_geo geo root own set_speed speed_slae] in ED.
  destruct (chain_error _ _ _ _ _ _) as [er|] eqn:EC.
  2:{ destruct (root (fb b)) as [j|]; [destruct (nth_error _ j)|]; discriminate ED. }
  apply (rest_chain (dt S) Z) in EC. subst er.
  apply move_zero; [apply F; eapply nth_error_In; eauto| |].
  - destruct (root (fb b)) as [j|] eqn:Ej.
    + assert (Lj : (j < length (sbodies S))%nat).
      { apply (sol_roots S p v Sol b j); [eapply nth_error_In; eauto|exact Ej]. }
      destruct (nth_error (sbodies S) j) as [rt|] eqn:Er; [|apply nth_error_None in Er; lia].
      rewrite (solved_nth S v j rt Er) in ED. cbn [set_geo geo set_speed speed_slae] in ED.
      assert (SJ : speed_in v j = @mkVec3 RNum (P 0 0) 0) by (unfold speed_in; rewrite !(Z j rt _ Er); reflexivity).
      rewrite SJ, Ho in ED. injection ED as <- <-. cbn [r3 o3]. f_equal; [apply vec_eq; unfold vadd, vsub, vscale, rotl|]; unr; lra.
    + rewrite Ho in ED. injection ED as <- <-. cbn [r3 o3]. f_equal; [apply vec_eq; unfold vadd, vsub, vscale, rotl|]; unr; lra.
  - rewrite SP in ED. destruct (match root (fb b) with Some _ => _ | None => _ end) as [d|]; [|discriminate ED].
    injection ED as <- <-. cbn [r3 o3]. f_equal; [apply vec_eq; unfold vadd, vsub, vscale, rotl|]; unr; lra.
Qed.
End Rest.

(** ** The coefficients are the same *)

Definition same_body (b b' : sbody RNum) : Prop :=
  same_geo (g_of b) (g_of b') /\ kept b b' /\ o3 (own (fb b)) = 0 /\ o3 (own (fb b')) = 0.

Lemma flat_map_ext2 {A A' B} (Q : A -> A' -> Prop) (f : A -> list B) (g : A' -> list B) l l' : Forall2 Q l l' ->
  (forall a a', Q a a' -> f a = g a') -> flat_map f l = flat_map g l'.
Proof. induction 1; intros H1; simpl; [reflexivity|]. rewrite (H1 _ _ H), IHForall2 by exact H1. reflexivity. Qed.
Lemma map_ext2 {A A' B} (Q : A -> A' -> Prop) (f : A -> B) (g : A' -> B) l l' : Forall2 Q l l' ->
  (forall a a', Q a a' -> f a = g a') -> map f l = map g l'.
Proof. induction 1; intros H1; simpl; [reflexivity|]. rewrite (H1 _ _ H), IHForall2 by exact H1. reflexivity. Qed.

Lemma forall2_len {A B} (Q : A -> B -> Prop) l l' : Forall2 Q l l' -> length l = length l'.
Proof. induction 1; simpl; congruence. Qed.

Section Same.
Variables (S S' : sspace RNum).
Hypothesis Bodies : Forall2 same_body (sbodies S) (sbodies S').
Hypothesis Dt : dt S' = dt S.
Variables (at2 : R -> R -> R) (tp ip : R).

Definition pair_same (e e' : nat * sbody RNum) : Prop := fst e' = fst e /\ same_body (snd e) (snd e').

Lemma indexed_same : Forall2 pair_same (bodies_i S) (bodies_i S').
Proof.
  unfold bodies_i, indexed. assert (X : forall l l', Forall2 same_body l l' -> forall s, Forall2 pair_same (combine (seq s (length l)) l) (combine (seq s (length l')) l')).
  { induction 1; intros s; simpl; constructor; [split; [reflexivity|exact H]|apply IHForall2]. }
  apply X. exact Bodies.
Qed.

Lemma children_same i : Forall2 pair_same (children S i) (children S' i).
Proof.
  unfold children. pose proof indexed_same as H. induction H as [|e e' l l' H _ IH]; simpl; [constructor|].
  pose proof H as [E (G & (Er & _) & _)]. rewrite Er.
  destruct (match root (fb (snd e)) with Some k => Nat.eqb k i | None => false end); [|exact IH].
  constructor; [exact H|exact IH].
Qed.

Lemma a3_same s sb is b b' : same_body b b' -> a3 (K:=RNum) ln at2 (/4) (/1000) s sb is b' = a3 (K:=RNum) ln at2 (/4) (/1000) s sb is b.
Proof.
  intros ((A & _ & _ & _ & H & D) & (Er & Ek & _) & O & O'). unfold a3. rewrite Er, Ek, O, O', A.
  unfold get_axis. rewrite H, D. reflexivity.
Qed.

Lemma axis_same b b' : same_body b b' -> get_axis (g_of b') = get_axis (g_of b).
Proof. intros ((_ & _ & _ & _ & H & D) & _). unfold get_axis. rewrite H, D. reflexivity. Qed.
Lemma moi_same b b' : same_body b b' -> moi_axis (g_of b') = moi_axis (g_of b).
Proof. intros H. unfold moi_axis. rewrite (axis_same _ _ H). destruct H as ((_ & A & C & M & _) & _). rewrite A, C, M. reflexivity. Qed.

Lemma coefs_same sk ff sk' ff' e q q' :
  match ekind e with Hooke _ _ => False | Stop _ => False | _ => True end ->
  eqn_of (K:=RNum) ln at2 tp ip (/4) (/1000) S sk ff e = Some q ->
  eqn_of (K:=RNum) ln at2 tp ip (/4) (/1000) S' sk' ff' e = Some q' -> coefs q' = coefs q.
Proof.
  intros HK. unfold eqn_of.
  destruct (nth_error (sbodies S) (ebody e)) as [b|] eqn:Eb; [|discriminate].
  destruct (forall2_nth _ _ _ Bodies _ _ Eb) as (b' & Eb' & SB). rewrite Eb'.
  pose proof (axis_same _ _ SB) as AX. pose proof (moi_same _ _ SB) as MO.
  pose proof SB as ((A & Ar & C & M & H & D) & (Er & Ek & De & Da & Sp & Ku) & O & O').
  assert (SO : forall (a c : eqn RNum), Some a = Some c -> a = c) by (intros a c X; congruence).
  destruct (ekind e) as [| | | |c|c|c bo|c|c]; try destruct HK.
  - rewrite A. destruct (nth_error (alist (g_of b)) (eseg e)) as [s|]; [|discriminate]. cbn [option_map].
    intros E1 E2. apply SO in E1. apply SO in E2. subst q q'. unfold slip_eq. cbn [coefs]. symmetry.
    apply (flat_map_ext2 pair_same _ _ _ _ indexed_same). intros [j c] [j' c'] [Ej Sc]. cbn [fst snd] in Ej, Sc. subst j'.
    rewrite (a3_same _ _ _ _ _ Sc). destruct Sc as ((A' & _) & _). rewrite A'. reflexivity.
  - intros E1 E2. apply SO in E1. apply SO in E2. subst q q'. reflexivity.
  - intros E1 E2. apply SO in E1. apply SO in E2. subst q q'. unfold inf_eq. cbn [coefs]. symmetry.
    apply (flat_map_ext2 pair_same _ _ _ _ indexed_same). intros [j c] [j' c'] [Ej Sc]. cbn [fst snd] in *. subst j'.
    destruct Sc as ((A' & Ar' & _) & _). unfold ones. rewrite A', Ar'. reflexivity.
  - intros E1 E2. apply SO in E1. apply SO in E2. subst q q'. unfold steady_eq, ones. cbn [coefs]. rewrite A, Ar. reflexivity.
  - intros E1 E2. apply SO in E1. apply SO in E2. subst q q'. unfold speed_eq. cbn [coefs]. rewrite Er. destruct (root (fb b)) as [j|]; [|reflexivity].
    rewrite H, AX. f_equal.
    assert (XA : match nth_error (sbodies S') j with Some rt => get_axis (g_of rt) | None => vzero end =
                 match nth_error (sbodies S) j with Some rt => get_axis (g_of rt) | None => vzero end).
    { destruct (nth_error (sbodies S) j) as [rt|] eqn:Ert.
      - destruct (forall2_nth _ _ _ Bodies _ _ Ert) as (rt' & E & SR). rewrite E. apply axis_same. exact SR.
      - apply nth_error_None in Ert. assert (L : length (sbodies S') = length (sbodies S)) by (symmetry; exact (forall2_len _ _ _ Bodies)).
        rewrite <- L in Ert. apply nth_error_None in Ert. rewrite Ert. reflexivity. }
    rewrite XA. reflexivity.
  - intros E1 E2. apply SO in E1. apply SO in E2. subst q q'. unfold hydro_eq. rewrite A, Ar, AX, C, MO, Dt. destruct c; reflexivity.
  - intros E1 E2. apply SO in E1. apply SO in E2. subst q q'. unfold newton_eq. rewrite Ar, AX, C, MO, De, Dt.
    destruct c; cbn [coefs]; f_equal; symmetry.
    + apply (map_ext2 pair_same _ _ _ _ (children_same (ebody e))). intros [j d] [j' d'] [Ej _]. cbn [fst] in *. subst. reflexivity.
    + apply (map_ext2 pair_same _ _ _ _ (children_same (ebody e))). intros [j d] [j' d'] [Ej _]. cbn [fst] in *. subst. reflexivity.
    + apply (flat_map_ext2 pair_same _ _ _ _ (children_same (ebody e))). intros [j d] [j' d'] [Ej Sd]. cbn [fst snd] in *. subst.
      rewrite (axis_same _ _ Sd). reflexivity.
Qed.
End Same.

(** ** The plan of rigid bodies *)

Lemma plan_segs_kinds (sp : nat) (ku : bool) (b : nat) : forall segs row once e, In e (fst (plan_segs sp ku b segs row once)) ->
  match ekind e with Slip | Zero | InfSteady | Steady => True | _ => False end.
Proof.
  induction segs as [|i t IH]; intros row once e; simpl; [easy|].
  destruct (negb (Nat.eqb i sp)).
  - specialize (IH (S row) once e). destruct (plan_segs sp ku b t (S row) once). intros [<-|H]; [exact I|apply IH; exact H].
  - destruct ku.
    + specialize (IH (S row) once e). destruct (plan_segs sp true b t (S row) once). intros [<-|H]; [exact I|apply IH; exact H].
    + specialize (IH (S row) true e). destruct (plan_segs sp false b t (S row) true). intros [<-|H]; [destruct once; exact I|apply IH; exact H].
Qed.

Lemma plan_rigid_kinds l : (forall s, In s l -> forall c, rigid s c = true) -> forall b row once p es q, plan_from b l row once p = Some (es, q) ->
  forall e, In e es -> match ekind e with Hooke _ _ => False | Stop _ => False | _ => True end.
Proof.
  induction l as [|s t IH]; intros Hr b row once p es q; simpl; [intros [= <- _] e []|].
  destruct (plan_body b s row once p) as [[[es1 o1] p1]|] eqn:E1; [|discriminate].
  destruct (plan_from (S b) t (row + nseg s + 9) o1 p1) as [[es2 p2]|] eqn:E2; [|discriminate].
  intros H e. assert (es = es1 ++ es2) as -> by congruence. clear H. rewrite in_app_iff. intros [He|He].
  2:{ eapply IH; [intros; apply Hr; right; assumption|exact E2|exact He]. }
  unfold plan_body in E1. destruct (Nat.leb (nseg s) (special s)); [discriminate E1|].
  pose proof (plan_segs_kinds (special s) (kutta s) b (seq 0 (nseg s)) row once) as X.
  destruct (plan_segs _ _ _ _ _ _) as [l0 o0]. unfold plan_spring in E1. rewrite !(Hr s (or_introl eq_refl)) in E1.
  assert (Ees : (es1 = l0 ++ [mkEntry (row + nseg s) (Speed CX) b 0; mkEntry (row + nseg s + 1) (Speed CY) b 0; mkEntry (row + nseg s + 2) (Speed CO) b 0;
                mkEntry (row + nseg s + 3) (Hydro CX) b 0; mkEntry (row + nseg s + 4) (Hydro CY) b 0; mkEntry (row + nseg s + 5) (Hydro CO) b 0;
                mkEntry (row + nseg s + 6) (Newton CX) b 0; mkEntry (row + nseg s + 7) (Newton CY) b 0; mkEntry (row + nseg s + 8) (Newton CO) b 0])%nat) by congruence.
  rewrite Ees in He. apply in_app_iff in He. destruct He as [He|He].
  - apply X in He. destruct (ekind e); tauto.
  - simpl in He. destruct He as [<-|[<-|[<-|[<-|[<-|[<-|[<-|[<-|[<-|[]]]]]]]]]]; exact I.
Qed.

(** ** Keeping the matrix *)

Section Keep.
Variables (at2 : R -> R -> R) (tp ip : R) (inf : R) (S S' : sspace RNum) (v : unk -> R) (addr : unk -> Z) (sl : slots).
Hypothesis Sol : solution S PNull v.
Hypothesis Rest : forall b, In b (sbodies S) -> at_rest b.
Hypothesis Rest' : forall b, In b (sbodies S') -> at_rest b.
Hypothesis Fresh : forall b, In b (sbodies S) -> fresh inf b.
Hypothesis Next : next_step inf S v S'.
Hypothesis Reg : registered addr (sizes_of S) sl.

Lemma keep_bodies : Forall2 same_body (sbodies S) (sbodies S').
Proof.
  destruct Next as (fuel & bs' & M & G & K & _ & _).
  assert (L : length (sbodies S) = length (sbodies S')) by exact (forall2_len _ _ _ K).
  assert (X : forall i b b', nth_error (sbodies S) i = Some b -> nth_error (sbodies S') i = Some b' -> same_body b b').
  { intros i b b' Hb Hb'. destruct (forall2_nth _ _ _ K i b Hb) as (c & Hc & Hk). assert (c = b') by congruence. subst c.
    destruct (rest_moves S PNull v Sol Rest inf fuel bs' Fresh M i b Hb) as (f & Hf & SG).
    apply (map_nth_error (fun b => geo (fb b))) in Hb'. rewrite G in Hb'. apply (map_nth_error (fun b : fbody RNum => geo b)) in Hf.
    assert (EG : geo (fb b') = geo f) by congruence.
    split; [|split; [exact Hk|]].
    - unfold g_of in *. rewrite EG. exact SG.
    - split.
      + destruct (Rest b) as [-> _]; [eapply nth_error_In; eauto|reflexivity].
      + destruct (Rest' b') as [-> _]; [|reflexivity]. destruct (forall2_nth _ _ _ K i b Hb) as (c & Hc' & _).
        assert (c = b') by congruence. subst c. eapply nth_error_In; eauto. }
  revert L X. generalize (sbodies S) (sbodies S'). induction l as [|b t IH]; intros [|b' t'] L X; simpl in L; try lia; constructor.
  - apply (X 0%nat); reflexivity.
  - apply IH; [lia|]. intros i c c' Hc Hc'. apply (X (Datatypes.S i)); assumption.
Qed.

Lemma keep_sizes : sizes_of S' = sizes_of S.
Proof.
  unfold sizes_of. symmetry. apply (map_ext2 same_body _ _ _ _ keep_bodies). intros b b' ((A & _) & _). rewrite A. reflexivity.
Qed.

Lemma keep_roots : roots_listed S'.
Proof.
  intros b' j Hb' Hr. apply In_nth_error in Hb'. destruct Hb' as (i & Hi). pose proof (forall2_len _ _ _ keep_bodies) as L.
  destruct (nth_error (sbodies S) i) as [b|] eqn:Eb.
  - destruct (forall2_nth _ _ _ keep_bodies i b Eb) as (c & Hc & (_ & (Er & _) & _)). assert (c = b') by congruence. subst c.
    rewrite <- L. apply (sol_roots S PNull v Sol b j); [eapply nth_error_In; eauto|congruence].
  - apply nth_error_None in Eb. assert (i < length (sbodies S'))%nat by (apply nth_error_Some; congruence). lia.
Qed.

(** The plan is made of the numbers of segments, the special segments and flags only. *)
Lemma keep_plan es q : plan (shapes_of S') PNull = Some (es, q) -> exists es' q', plan (shapes_of S) PNull = Some (es', q') /\
  (forall e, In e es <-> In e es') /\ Permutation es es'.
Proof.
  assert (X : forall l l', Forall2 (fun s s' : shape => nseg s' = nseg s /\ special s' = special s /\ kutta s' = kutta s /\ forall c, rigid s' c = rigid s c) l l' ->
     forall b row once p, plan_from b l' row once p = plan_from b l row once p).
  { induction 1 as [|s s' l l' (A & B & C & D) _ IH]; intros b row once p; [reflexivity|]. simpl.
    assert (E : plan_body b s' row once p = plan_body b s row once p) by (unfold plan_body; rewrite A, B, C, !D; reflexivity).
    rewrite E, A. destruct (plan_body b s row once p) as [[[es1 o1] p1]|]; [|reflexivity]. rewrite IH. reflexivity. }
  intros H. exists es, q. split; [|split; [tauto|apply Permutation_refl]]. rewrite <- H. symmetry. unfold plan. apply X. unfold shapes_of.
  assert (La : late S' = late S) by (destruct Next as (? & ? & _ & _ & _ & _ & E); exact E). rewrite La.
  pose proof keep_bodies as KB. clear - KB. induction KB as [|b b' l l' ((A & _) & (_ & Ek & _ & _ & Sp & Ku) & _) _ IH]; simpl; constructor.
  - simpl. rewrite A, Sp, Ku, Ek. auto.
  - exact IH.
Qed.

Lemma cell_index N k : (k < N * N)%nat -> exists row c, (row < N)%nat /\ (c < N)%nat /\ k = (row * N + c)%nat.
Proof.
  intros H. assert (N <> 0)%nat by (intros ->; simpl in H; lia). exists (k / N)%nat, (k mod N)%nat.
  split; [apply Nat.div_lt_upper_bound; lia|]. split; [apply Nat.mod_upper_bound; assumption|].
  rewrite (Nat.div_mod k N) at 1 by assumption. lia.
Qed.

Theorem keep M sk ff es q order M1 : filled at2 tp ip S addr sl M ->
  plan (shapes_of S') PNull = Some (es, q) -> Permutation es order ->
  fill_in (K:=RNum) ln at2 tp ip (/ 4) (/ 1000) S' sk ff addr (system_size (sizes_of S')) order true sl M = Ok M1 ->
  filled at2 tp ip S' addr sl M1 /\
  forall M0 M2, fill_in (K:=RNum) ln at2 tp ip (/ 4) (/ 1000) S' sk ff addr (system_size (sizes_of S')) order false sl M0 = Ok M2 ->
    forall row, (row < system_size (sizes_of S'))%nat -> right_ M1 row = right_ M2 row.
Proof.
  intros HF Hp HP F1.
  assert (Reg' : registered addr (sizes_of S') sl) by (rewrite keep_sizes; exact Reg).
  pose proof keep_roots as HL'. pose proof keep_sizes as ES.
  destruct (keep_plan es q Hp) as (es0 & q0 & Hp0 & Hes & Pes).
  destruct (fill_in_spec (K:=RNum) ln at2 tp ip (/4) (/1000) S' sk ff addr PNull es q order true sl M Hp HP Reg' HL')
    as (M1' & E1 & RR1 & RC1 & _).
  rewrite F1 in E1. assert (M1 = M1') by (injection E1; auto). subst M1'. clear E1.
  pose proof (plan_rows _ _ _ _ Hp) as Rows. rewrite sizes_shapes in Rows.
  assert (Row : forall row, (row < system_size (sizes_of S'))%nat -> exists e qn, In e es /\ erow e = row /\
     eqn_of (K:=RNum) ln at2 tp ip (/4) (/1000) S' sk ff e = Some qn).
  { intros row Hr. assert (Hin : In row (map erow es)) by (rewrite Rows; apply in_seq; lia).
    apply in_map_iff in Hin. destruct Hin as (e & Ee & He).
    destruct (entry_eqn (K:=RNum) ln at2 tp ip (/4) (/1000) S' sk ff e) as (qn & Eq).
    { apply (plan_entries _ _ _ _ _ _ _ [] Hp eq_refl _ He). }
    exists e, qn. auto. }
  assert (HRig : forall s, In s (shapes_of S') -> forall c, rigid s c = true).
  { intros s Hs c. unfold shapes_of in Hs. apply in_map_iff in Hs. destruct Hs as (b & <- & Hb). cbn [shape_of rigid].
    destruct (Rest' b Hb) as [_ K]. rewrite K. reflexivity. }
  assert (Kinds : forall e, In e es -> match ekind e with Hooke _ _ => False | Stop _ => False | _ => True end).
  { exact (plan_rigid_kinds _ HRig _ _ _ _ _ _ Hp). }
  split.
  - intros sk2 ff2 es2 q2 order2 M0 M2 Hp2 HP2 F2 k Hk.
    assert (es2 = es) by congruence. subst es2. clear Hp2.
    destruct (fill_in_spec (K:=RNum) ln at2 tp ip (/4) (/1000) S' sk2 ff2 addr PNull es q order2 false sl M0 Hp HP2 Reg' HL')
      as (M2' & E2 & _ & RC2 & _).
    rewrite F2 in E2. assert (M2 = M2') by (injection E2; auto). subst M2'. clear E2.
    destruct (fill_in_spec (K:=RNum) ln at2 tp ip (/4) (/1000) S sk2 ff2 addr PNull es0 q0 es0 false sl M0 Hp0 (Permutation_refl _) Reg (sol_roots S PNull v Sol))
      as (M3 & E3 & _ & RC3 & _).
    pose proof (HF sk2 ff2 es0 q0 es0 M0 M3 Hp0 (Permutation_refl _) E3) as HM.
    destruct (cell_index _ _ Hk) as (row & c & Hrow & Hc & ->).
    destruct (Row row Hrow) as (e & qn & He & Er & Eq). rewrite <- Er.
    assert (Hc' : (c < length (unknowns (sizes_of S')))%nat) by (rewrite unknowns_length; exact Hc).
    pose proof (nth_In (unknowns (sizes_of S')) (UG 0 0) Hc') as Hu. set (u := nth c (unknowns (sizes_of S')) (UG 0 0)) in *.
    apply unknowns_known in Hu.
    assert (Ec : col (sizes_of S') u = c).
    { pose proof (unknowns_at _ _ Hu) as X.
      apply (proj1 (NoDup_nth_error _) (unknowns_nodup (sizes_of S'))); [rewrite unknowns_length; apply col_lt, Hu|].
      rewrite X. symmetry. apply nth_error_nth'. exact Hc'. }
    rewrite <- Ec.
    assert (NS : stops e = false) by (specialize (Kinds e He); unfold stops; destruct (ekind e); tauto).
    rewrite (RC1 e qn u He Eq Hu), NS. cbn [andb negb].
    destruct (entry_eqn (K:=RNum) ln at2 tp ip (/4) (/1000) S' sk2 ff2 e) as (qn2 & Eq2).
    { apply (plan_entries _ _ _ _ _ _ _ [] Hp eq_refl _ He). }
    rewrite (RC2 e qn2 u He Eq2 Hu). cbn [andb cell].
    destruct (entry_eqn (K:=RNum) ln at2 tp ip (/4) (/1000) S sk2 ff2 e) as (qn0 & Eq0).
    { apply (plan_entries _ _ _ _ _ _ _ [] Hp0 eq_refl). apply Hes. exact He. }
    rewrite HM.
    2:{ rewrite <- ES. rewrite Ec, Er. nia. }
    assert (Hu0 : known (sizes_of S) u) by (rewrite <- ES; exact Hu).
    pose proof (RC3 e qn0 u (proj1 (Hes e) He) Eq0 Hu0) as X. cbn [andb cell] in X. rewrite <- ES in X. rewrite X.
    assert (ED : dt S' = dt S) by (destruct Next as (? & ? & _ & _ & _ & E & _); exact E).
    rewrite (coefs_same S S' keep_bodies ED at2 tp ip sk2 ff2 sk2 ff2 e qn0 qn2 (Kinds e He) Eq0 Eq2). reflexivity.
  - intros M0 M2 F2 row Hrow.
    destruct (fill_in_spec (K:=RNum) ln at2 tp ip (/4) (/1000) S' sk ff addr PNull es q order false sl M0 Hp HP Reg' HL')
      as (M2' & E2 & RR2 & _ & _).
    rewrite F2 in E2. assert (M2 = M2') by (injection E2; auto). subst M2'. clear E2.
    destruct (Row row Hrow) as (e & qn & He & <- & Eq).
    rewrite (RR1 e qn He Eq), (RR2 e qn He Eq). reflexivity.
Qed.
End Keep.

(** ** Facts about one fill *)

Lemma coefs_loads at2 tp ip (S : sspace RNum) sk ff sk' ff' e q q' :
  eqn_of (K:=RNum) ln at2 tp ip (/4) (/1000) S sk ff e = Some q ->
  eqn_of (K:=RNum) ln at2 tp ip (/4) (/1000) S sk' ff' e = Some q' -> coefs q = coefs q'.
Proof.
  unfold eqn_of. destruct (nth_error (sbodies S) (ebody e)) as [b|]; [|discriminate].
  assert (SO : forall (a c : eqn RNum), Some a = Some c -> a = c) by (intros a c X; congruence).
  destruct (ekind e); try (intros E1 E2; apply SO in E1; apply SO in E2; subst; reflexivity).
  destruct (nth_error (alist (g_of b)) (eseg e)) as [s|]; [|discriminate]. cbn [option_map].
  intros E1 E2; apply SO in E1; apply SO in E2; subst; reflexivity.
Qed.

Lemma full_filled at2 tp ip (S : sspace RNum) sk ff addr sl es q order M0 M :
  plan (shapes_of S) PNull = Some (es, q) -> Permutation es order -> registered addr (sizes_of S) sl -> roots_listed S ->
  fill_in (K:=RNum) ln at2 tp ip (/ 4) (/ 1000) S sk ff addr (system_size (sizes_of S)) order false sl M0 = Ok M ->
  filled at2 tp ip S addr sl M.
Proof.
  intros Hp HP Reg HL F1 sk2 ff2 es2 q2 order2 M02 M2 Hp2 HP2 F2 k Hk.
  assert (es2 = es) by congruence. subst es2.
  destruct (fill_in_spec (K:=RNum) ln at2 tp ip (/4) (/1000) S sk ff addr PNull es q order false sl M0 Hp HP Reg HL) as (M' & E1 & _ & RC1 & _).
  rewrite F1 in E1. assert (M = M') by (injection E1; auto). subst M'. clear E1.
  destruct (fill_in_spec (K:=RNum) ln at2 tp ip (/4) (/1000) S sk2 ff2 addr PNull es q order2 false sl M02 Hp HP2 Reg HL) as (M2' & E2 & _ & RC2 & _).
  rewrite F2 in E2. assert (M2 = M2') by (injection E2; auto). subst M2'. clear E2.
  destruct (cell_index _ _ Hk) as (row & c & Hrow & Hc & ->).
  pose proof (plan_rows _ _ _ _ Hp) as Rows. rewrite sizes_shapes in Rows.
  assert (Hin : In row (map erow es)) by (rewrite Rows; apply in_seq; lia).
  apply in_map_iff in Hin. destruct Hin as (e & Ee & He).
  destruct (entry_eqn (K:=RNum) ln at2 tp ip (/4) (/1000) S sk ff e) as (qn & Eq); [apply (plan_entries _ _ _ _ _ _ _ [] Hp eq_refl _ He)|].
  destruct (entry_eqn (K:=RNum) ln at2 tp ip (/4) (/1000) S sk2 ff2 e) as (qn2 & Eq2); [apply (plan_entries _ _ _ _ _ _ _ [] Hp eq_refl _ He)|].
  assert (Hc' : (c < length (unknowns (sizes_of S)))%nat) by (rewrite unknowns_length; exact Hc).
  pose proof (nth_In (unknowns (sizes_of S)) (UG 0 0) Hc') as Hu. set (u := nth c (unknowns (sizes_of S)) (UG 0 0)) in *.
  apply unknowns_known in Hu.
  assert (Ec : col (sizes_of S) u = c).
  { pose proof (unknowns_at _ _ Hu) as X.
    apply (proj1 (NoDup_nth_error _) (unknowns_nodup (sizes_of S))); [rewrite unknowns_length; apply col_lt, Hu|].
    rewrite X. symmetry. apply nth_error_nth'. exact Hc'. }
  rewrite <- Ec, <- Ee. rewrite (RC1 e qn u He Eq Hu), (RC2 e qn2 u He Eq2 Hu). cbn [andb cell].
  rewrite (coefs_loads at2 tp ip S sk ff sk2 ff2 e qn qn2 Eq Eq2). reflexivity.
Qed.

Lemma right_only_cells {K : Num} (lnf : K -> K) at2 tp ip qu mi (S : sspace K) sk ff addr N sl order : forall M M1,
  (forall e, In e order -> stops e = false) ->
  fill_in lnf at2 tp ip qu mi S sk ff addr N order true sl M = Ok M1 -> cell M1 = cell M.
Proof.
  unfold fill_in. induction order as [|e t IH]; intros M M1 Hs; simpl.
  - intros E. assert (M = M1) by (injection E; auto). subst. reflexivity.
  - destruct (write_entry _ _ _ _ _ _ _ _ _ _ _ _ _ _ _) as [M2|c|] eqn:E; try discriminate. intros H.
    rewrite (IH M2 M1) by (try (intros; apply Hs; right; assumption); exact H).
    unfold write_entry in E. destruct (eqn_of _ _ _ _ _ _ _ _ _ _) as [q|]; [|discriminate E].
    destruct (Nat.leb N (erow e)); [discriminate E|].
    pose proof (Hs e (or_introl eq_refl)) as X. unfold stops in X. rewrite X in E. cbn [negb andb] in E.
    assert (M2 = mkSystem (cell M) (put (erow e) (rhs q) (right_ M))) by (injection E; auto). subst. reflexivity.
Qed.
