(** C129: the fluid is at rest when nothing moves it. *)

From Coq Require Import ZArith Bool List Lia Reals Lra.
From Verif.Base Require Import Num.
From Verif.Body Require Import Model Spec.
From Verif.Vortex Require Import Model ProofsKernel.
From Verif.Map Require Import Model ModelLinear SpecSimilar SpecMix PropertiesMix.
Import ListNotations.
Local Open Scope R_scope.

(** No stream, no sources, vortices and walls without circulation, bodies without speed. *)
Definition at_rest_everywhere (S : @space RNum) : Prop :=
  flow S = @mkVec RNum 0 0 /\ sources S = [] /\ Forall (fun o : part RNum => pg o = 0) (vortices S) /\
  Forall (fun b : @shape RNum => speed b = @mkVec3 RNum (@mkVec RNum 0 0) 0 /\ Forall (fun w : @wall RNum => wg w = 0) (Map.Model.walls b)) (bodies S).

Notation nought := (@mkVec RNum 0 0).
Lemma plus_nought (s : pnt) : vadd s nought = s.
Proof. destruct s as [u v]. unfold vadd. cbn [x y]. unr. change (Num.T RNum) with R in *. f_equal; eqR; ring. Qed.
Lemma times_nought k : vscale (K:=RNum) nought k = nought.
Proof. unfold vscale. cbn [x y]. unr. f_equal; eqR; ring. Qed.
Lemma biot_nought (o : part RNum) p : pg o = 0 -> biot_savart (K:=RNum) o p = nought.
Proof.
  intros G. unfold biot_savart. rewrite G. cbv zeta. change (@ndiv RNum) with Rdiv. unfold Rdiv. hide_inv. unfold vscale. cbn [x y]. unr. change (Num.T RNum) with R in *. f_equal; eqR; ring.
Qed.
Lemma fold_nought {A} (f : pnt -> A -> pnt) l : (forall a s, In a l -> f s a = s) -> forall s, fold_left f l s = s.
Proof. induction l as [|a l IH]; intros H s; [reflexivity|]. cbn [fold_left]. rewrite H by (left; reflexivity). apply IH. intros; apply H; right; assumption. Qed.

(** The velocity is zero at every point, whatever node it is in. *)
Theorem C129_velocity : forall (tiny ip ip1 : R) lnf at2 (S : @space RNum) near far p, at_rest_everywhere S -> Forall (fun o : part RNum => pg o = 0) far ->
  velocity (K:=RNum) tiny ip ip1 (linear_influence (K:=RNum) lnf at2) S (Some (near, far)) p = nought.
Proof.
  intros tiny ip ip1 lnf at2 S near far p (Fl & Q & V & B) F. unfold velocity. cbv zeta. rewrite Fl, Q.
  assert (N : near_influence (K:=RNum) ip near (vortices S) p = nought).
  { unfold near_influence. rewrite fold_nought; [apply times_nought|]. intros j s _. destruct (nth_error (vortices S) j) as [o|] eqn:E; [|reflexivity].
    rewrite biot_skip, biot_nought; [apply plus_nought|]. rewrite Forall_forall in V. apply V. eapply nth_error_In; exact E. }
  assert (FF : far_influence (K:=RNum) ip far p = nought).
  { unfold far_influence. rewrite fold_nought; [apply times_nought|]. intros o s I. rewrite biot_nought; [apply plus_nought|]. rewrite Forall_forall in F. exact (F o I). }
  assert (K : sink_influence (K:=RNum) ip ip1 (dt S) [] p = nought) by (unfold sink_influence; cbn [fold_left]; apply times_nought).
  assert (BB : body_influence (K:=RNum) tiny ip (linear_influence (K:=RNum) lnf at2) (bodies S) p = nought).
  { unfold body_influence. rewrite fold_nought; [apply times_nought|]. intros b s I. cbv zeta. rewrite Forall_forall in B. destruct (B b I) as [Sp W].
    rewrite slip_skip, rest_skip by (intros _; exact Sp).
    rewrite (fold_nought (fun s w => if slip (seg w) then vadd s (biot_savart (K:=RNum) (part_of w) p) else s)).
    - apply fold_nought. intros w s' _. rewrite segment_rest by exact Sp. apply plus_nought.
    - intros w s' Iw. destruct (slip (seg w)); [|reflexivity]. rewrite biot_nought; [apply plus_nought|]. rewrite Forall_forall in W. exact (W w Iw). }
  rewrite N, FF, K, BB, !plus_nought. reflexivity.
Qed.
Print Assumptions C129_velocity.

(** No friction without vortices. *)
Theorem C129_friction : forall (expf : R -> R) (eight : R) vs w, Forall (fun o : part RNum => pg o = 0) vs -> friction (K:=RNum) expf eight vs w = 0.
Proof.
  intros expf eight vs w F. unfold friction. assert (X : forall f : R, fold_left (fun f v => if @neqb RNum (pg v) (nofZ 0) then f else @nadd RNum f (snd (segment_influence (K:=RNum) expf eight v w (@mkVec RNum (nofZ 0) (nofZ 0), nofZ 0)))) vs f = f).
  { induction F as [|o vs G F IH]; intros f; [reflexivity|]. cbn [fold_left]. change (@neqb RNum) with Reqb. unfold Reqb at 2. change (@nofZ RNum 0) with 0. destruct (Req_EM_T (pg o) 0); [apply IH|contradiction]. }
  apply X.
Qed.
Print Assumptions C129_friction.

Definition pool_wall : @wall RNum := @mkWall RNum (@mkAtt RNum (@mkVec RNum 1 0) true (@mkVec RNum 0 1) (@mkVec RNum 1 1) 1) 0 5.
Example C129_pool : velocity (K:=RNum) 1 1 1 (linear_influence (K:=RNum) (fun _ => 1) (fun _ _ => 1))
  (@mkSpace RNum [@mkShape RNum [pool_wall] (@mkVec3 RNum nought 0) nought nought] [@mkPart RNum nought 0 nought 1] [] nought 1)
  (Some ([0%nat], [@mkPart RNum nought 0 nought 1])) (@mkVec RNum 3 4) = nought.
Proof. apply C129_velocity; [repeat split; repeat constructor|repeat constructor]. Qed.
