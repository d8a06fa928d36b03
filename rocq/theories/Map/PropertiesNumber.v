(** C126: the order of particles, sources and bodies does not matter for the
    velocities. *)

From Coq Require Import ZArith Bool List Lia Reals Lra Permutation.
From Verif.Base Require Import Num.
From Verif.Body Require Import Model Spec.
From Verif.Vortex Require Import Model ProofsKernel.
From Verif.Map Require Import Model SpecSimilar ProofsMirror.
Import ListNotations.
Local Open Scope R_scope.

(** The steps of a sum that can be exchanged. *)
Lemma fold_perm {A B} (f : A -> B -> A) (C : forall s a b, f (f s a) b = f (f s b) a) l l' : Permutation l l' -> forall s, fold_left f l s = fold_left f l' s.
Proof.
  induction 1 as [|a l l' H IH|a b l|l l' l'' H IH H' IH']; intros s; cbn [fold_left]; [reflexivity|apply IH|rewrite C; reflexivity|rewrite IH; apply IH'].
Qed.
Lemma fold_swap {A B} (f : A -> B -> A) (C : forall s a b, f (f s a) b = f (f s b) a) l : forall s b, fold_left f l (f s b) = f (fold_left f l s) b.
Proof. induction l as [|a l IH]; intros s b; [reflexivity|]. cbn [fold_left]. rewrite C. apply IH. Qed.

Lemma vadd_swap (s a b : pnt) : vadd (vadd s a) b = vadd (vadd s b) a.
Proof. unfold vadd. cbn [x y]. unr. vec_ring. Qed.

(** The same particles are listed. *)
Definition same_parts (vs vs' : list (part RNum)) (nb nb' : list nat) : Prop := Permutation (map (nth_error vs) nb) (map (nth_error vs') nb').

Lemma near_influence_num ip vs vs' nb nb' p : same_parts vs vs' nb nb' -> near_influence (K:=RNum) ip nb vs p = near_influence (K:=RNum) ip nb' vs' p.
Proof.
  intros H. unfold near_influence. f_equal.
  pose (g := fun (s : pnt) (m : option (part RNum)) => match m with None => s | Some o => if @neqb RNum (pg o) (nofZ 0) then s else vadd s (biot_savart o p) end).
  assert (X : forall us mb z, fold_left (fun s j => match nth_error us j with None => s | Some o => if @neqb RNum (pg o) (nofZ 0) then s else vadd s (biot_savart o p) end) mb z = fold_left g (map (nth_error us) mb) z).
  { induction mb as [|j mb IH]; intros z; [reflexivity|]. cbn [map fold_left]. rewrite IH. reflexivity. }
  rewrite !X. apply fold_perm; [|exact H]. intros s [a|] [b|]; cbn [g]; try reflexivity.
  destruct (@neqb RNum (pg a) _), (@neqb RNum (pg b) _); try reflexivity. apply vadd_swap.
Qed.
Lemma far_influence_num ip l l' p : Permutation l l' -> far_influence (K:=RNum) ip l p = far_influence (K:=RNum) ip l' p.
Proof. intros H. unfold far_influence. f_equal. apply fold_perm; [|exact H]. intros s a b. apply vadd_swap. Qed.
Lemma sink_influence_num ip ip1 d l l' p : Permutation l l' -> sink_influence (K:=RNum) ip ip1 d l p = sink_influence (K:=RNum) ip ip1 d l' p.
Proof. intros H. unfold sink_influence. cbv zeta. f_equal. apply fold_perm; [|exact H]. intros s a b. apply vadd_swap. Qed.

(** What a body adds does not depend on what is there. *)
Lemma body_influence_num tiny ip lin l l' p : Permutation l l' -> body_influence (K:=RNum) tiny ip lin l p = body_influence (K:=RNum) tiny ip lin l' p.
Proof.
  intros H. unfold body_influence. f_equal.
  assert (X : forall b, exists a : pnt, forall z : pnt,
    (let z := if existsb (fun w => slip (seg w)) (walls b) then fold_left (fun s w => if slip (seg w) then vadd s (biot_savart (part_of w) p) else s) (walls b) z else z in
     if at_rest tiny (speed b) then z else fold_left (fun s w => vadd s (segment_speed lin b p w)) (walls b) z) = vadd z a).
  { intros b.
    assert (A1 : forall l (z : pnt), fold_left (fun s w => if slip (seg w) then vadd s (biot_savart (part_of w) p) else s) l z =
      vadd z (fold_left (fun s w => if slip (seg w) then vadd s (biot_savart (part_of w) p) else s) l (@mkVec RNum 0 0))).
    { clear. intros l. induction l as [|w l IH]; intros z; cbn [fold_left]; [destruct z as [u v]; unfold vadd; cbn [x y]; unr; vec_ring|].
      destruct (slip (seg w)); [|apply IH]. rewrite IH. rewrite (IH (vadd (@mkVec RNum 0 0) _)). set (c := biot_savart _ _). set (d := fold_left _ _ _). unfold vadd. cbn [x y]. unr. vec_ring. }
    assert (A2 : forall l (z : pnt), fold_left (fun s w => vadd s (segment_speed lin b p w)) l z = vadd z (fold_left (fun s w => vadd s (segment_speed lin b p w)) l (@mkVec RNum 0 0))).
    { clear. intros l. induction l as [|w l IH]; intros z; cbn [fold_left]; [destruct z as [u v]; unfold vadd; cbn [x y]; unr; vec_ring|].
      rewrite IH. rewrite (IH (vadd (@mkVec RNum 0 0) _)). set (c := segment_speed _ _ _ _). set (d := fold_left _ _ _). unfold vadd. cbn [x y]. unr. vec_ring. }
    destruct (existsb _ _), (at_rest tiny (speed b)).
    - eexists. intros z. apply A1.
    - exists (vadd (fold_left (fun s w => if slip (seg w) then vadd s (biot_savart (part_of w) p) else s) (walls b) (@mkVec RNum 0 0)) (fold_left (fun s w => vadd s (segment_speed lin b p w)) (walls b) (@mkVec RNum 0 0))).
      intros z. cbv zeta. rewrite A1, A2. set (c := fold_left _ _ _). set (d := fold_left _ _ _). unfold vadd. cbn [x y]. unr. vec_ring.
    - exists (@mkVec RNum 0 0). intros z. cbv zeta. destruct z as [u v]; unfold vadd; cbn [x y]; unr; vec_ring.
    - eexists. intros z. apply A2. }
  apply fold_perm; [|exact H]. intros z a b. destruct (X a) as (da & Ha). destruct (X b) as (db & Hb).
  cbv zeta in Ha, Hb |- *. rewrite Ha, Hb, Hb, Ha. apply vadd_swap.
Qed.

Theorem C126_velocity : forall (tiny ip ip1 : R) lin (S S' : @space RNum) near near' far far' p,
  Permutation (bodies S) (bodies S') -> Permutation (sources S) (sources S') -> flow S = flow S' -> dt S = dt S' ->
  same_parts (vortices S) (vortices S') near near' -> Permutation far far' ->
  velocity (K:=RNum) tiny ip ip1 lin S (Some (near, far)) p = velocity (K:=RNum) tiny ip ip1 lin S' (Some (near', far')) p.
Proof.
  intros tiny ip ip1 lin S S' near near' far far' p HB HS HF HD HN HR. unfold velocity. cbv zeta.
  rewrite (near_influence_num _ _ _ _ _ _ HN), (far_influence_num _ _ _ _ HR), HD, (sink_influence_num _ _ _ _ _ _ HS), (body_influence_num _ _ _ _ _ _ HB), HF. reflexivity.
Qed.
Print Assumptions C126_velocity.

(** The series that stands for the far cells. *)
Theorem C126_series : forall (ip ip1 : R) o cm cm' p, Permutation cm cm' ->
  far_taylor (K:=RNum) ip ip1 o cm p = far_taylor (K:=RNum) ip ip1 o cm' p.
Proof.
  intros ip ip1 o cm cm' p H. unfold far_taylor, taylor_of. rewrite (fold_perm (taylor_step (K:=RNum) o)) with (l' := cm'); [reflexivity| |exact H].
  intros s [a a'] [b b']. unfold taylor_step. cbn [t1 t2 t3 t4]. unr. f_equal; eqR; ring.
Qed.
Print Assumptions C126_series.

(** Diffusive velocities and friction. *)
Lemma sums_num (expf : R -> R) (eight tiny : R) nb nb' ws ws' vs vs' v : same_parts vs vs' nb nb' -> Permutation ws ws' ->
  sums (K:=RNum) expf eight tiny nb ws vs v = sums (K:=RNum) expf eight tiny nb' ws' vs' v.
Proof.
  intros HN HW. unfold sums. cbv zeta. f_equal.
  - pose (g := fun (s : pnt * R) (m : option (part RNum)) => match m with None => s | Some b => if @neqb RNum (pg b) (nofZ 0) then s else vortex_influence (K:=RNum) expf eight tiny v b s end).
    assert (X : forall us mb z, fold_left (fun s j => match nth_error us j with None => s | Some b => if @neqb RNum (pg b) (nofZ 0) then s else vortex_influence (K:=RNum) expf eight tiny v b s end) mb z = fold_left g (map (nth_error us) mb) z).
    { induction mb as [|j mb IH]; intros z; [reflexivity|]. cbn [map fold_left]. rewrite IH. reflexivity. }
    rewrite !X. apply fold_perm; [|exact HN]. intros s [a|] [b|]; cbn [g]; try reflexivity.
    destruct (@neqb RNum (pg a) _), (@neqb RNum (pg b) _); try reflexivity. unfold vortex_influence. cbv zeta.
    destruct (negb (Z.eqb (sign (pg v)) (sign (pg a)))), (negb (Z.eqb (sign (pg v)) (sign (pg b)))); try reflexivity.
    destruct (vzero_ _ (vsub (pr v) (pr a))), (vzero_ _ (vsub (pr v) (pr b))); try reflexivity.
    destruct (_ <? _)%num; [destruct (_ <? _)%num; reflexivity|]. destruct (_ <? _)%num; [reflexivity|]. cbn [fst snd]. rewrite vadd_swap. f_equal. unr. eqR. ring.
  - apply fold_perm; [|exact HW]. intros s a b. unfold segment_influence. cbv zeta.
    destruct (_ <? _)%num; [destruct (_ <? _)%num; reflexivity|]. destruct (_ <? _)%num; [reflexivity|]. cbn [fst snd]. rewrite vadd_swap. f_equal. unr. eqR. ring.
Qed.
Theorem C126_diffusion : forall (expf : R -> R) (tenth eight pi_ two_pi tiny re prandtl : R) nb nb' ws ws' vs vs' v,
  same_parts vs vs' nb nb' -> Permutation ws ws' ->
  vort_velocity (K:=RNum) expf tenth eight pi_ two_pi tiny re nb ws vs v = vort_velocity (K:=RNum) expf tenth eight pi_ two_pi tiny re nb' ws' vs' v /\
  heat_velocity (K:=RNum) expf tenth eight tiny prandtl re nb ws vs v = heat_velocity (K:=RNum) expf tenth eight tiny prandtl re nb' ws' vs' v.
Proof.
  intros expf tenth eight pi_ two_pi tiny re prandtl nb nb' ws ws' vs vs' v HN HW. unfold vort_velocity, heat_velocity.
  rewrite (sums_num expf eight tiny nb nb' ws ws' vs vs' v HN HW). split; reflexivity.
Qed.
Print Assumptions C126_diffusion.
Theorem C126_friction : forall (expf : R -> R) (eight : R) vs vs' w, Permutation vs vs' ->
  friction (K:=RNum) expf eight vs w = friction (K:=RNum) expf eight vs' w.
Proof.
  intros expf eight vs vs' w H. unfold friction. apply fold_perm; [|exact H]. intros s a b.
  destruct (@neqb RNum (pg a) _), (@neqb RNum (pg b) _); try reflexivity. set (c := snd _). set (d := snd _). unr. eqR. ring.
Qed.
Print Assumptions C126_friction.

(** Three vortices in two orders: two near, one far. *)
Definition spot (a g : R) : part RNum := @mkPart RNum (@mkVec RNum a 0) g (@mkVec RNum 0 0) 1.
Definition swarm (vs : list (part RNum)) : @space RNum := @mkSpace RNum [] vs [] (@mkVec RNum 0 0) 1.
Example C126_velocity_ex :
  velocity (K:=RNum) 0 1 1 (fun _ _ _ _ => @mkVec RNum 0 0) (swarm [spot 0 1; spot 5 1; spot 1 2]) (Some ([0; 2]%nat, [spot 5 1])) (@mkVec RNum 2 0) =
  velocity (K:=RNum) 0 1 1 (fun _ _ _ _ => @mkVec RNum 0 0) (swarm [spot 1 2; spot 0 1; spot 5 1]) (Some ([0; 1]%nat, [spot 5 1])) (@mkVec RNum 2 0) /\
  velocity (K:=RNum) 0 1 1 (fun _ _ _ _ => @mkVec RNum 0 0) (swarm [spot 0 1; spot 5 1; spot 1 2]) (Some ([0; 2]%nat, [spot 5 1])) (@mkVec RNum 2 0) = @mkVec RNum 0 (2 / 5 + 1 - 3 / 10).
Proof.
  split.
  - apply C126_velocity; try reflexivity; try apply Permutation_refl. unfold same_parts. cbn. apply perm_swap.
  - unfold velocity, near_influence, far_influence, sink_influence, body_influence. cbn [swarm vortices sources bodies flow nth_error fold_left spot pg].
    change (@neqb RNum) with Reqb. change (@nofZ RNum) with IZR. rewrite !(proj2 (Reqb_false _ 0)) by lra.
    unfold biot_savart, vscale, vadd, vsub, abs2, rotl. cbn [x y pr pg pe vzero]. unfold vzero. cbn [x y]. change (@nofZ RNum) with IZR. unfold spot. cbn [x y pr pg pe]. unr. f_equal; eqR; field.
Qed.
