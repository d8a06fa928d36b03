(** C126: the order of the bodies does not matter, for the linear system. *)

From Coq Require Import ZArith Bool List Reals Lra Lia Permutation.
From Verif.Base Require Import Num.
From Verif.Matrix Require Import Model.
From Verif.Body Require Import Model Spec.
From Verif.Flow Require Import Model.
From Verif.System Require Import Model Spec SpecNumber Proofs ProofsCollision ProofsWrite ProofsPhysics ProofsSolve ProofsXi ProofsLaws ProofsWitness ProofsNumber.
Import ListNotations.
Local Open Scope R_scope.

(** With at most one body without the Kutta condition, or with circulations that
    add up, the solutions are the same under the new numbers. *)
Theorem C126_system_partial : forall s t at2 tp ip sk ff (S S' : sspace RNum) v,
  undoes s t -> renumbered s S S' -> no_self_root S -> single_steady S \/ balanced S v ->
  solution_with at2 tp ip sk ff S PNull v <-> solution_with at2 tp ip sk ff S' PNull (unknowns_with t v).
Proof. intros. apply (solution_numbers s t); assumption. Qed.
Print Assumptions C126_system_partial.

(** No more than that is true: if the first body without the Kutta condition is
    another one, only balanced solutions are kept. *)
Theorem C126_balance : forall s t (S S' : sspace RNum) v i,
  undoes s t -> renumbered s S S' -> first_steady S i -> ~ first_steady S' (s i) ->
  solution S PNull v -> solution S' PNull (unknowns_with t v) -> balanced S v.
Proof. intros s t S S' v i. apply both_balanced. Qed.
Print Assumptions C126_balance.

(** Two bodies of one corner without the Kutta condition and a free vortex. *)
Definition swap01 (i : nat) : nat := match i with 0 => 1 | 1 => 0 | _ => i end%nat.
Lemma swap_undoes : undoes swap01 swap01.
Proof. split; intros [|[|i]]; reflexivity. Qed.

Definition fixed (h : R) (ku : bool) : sbody RNum := speck (v3 h 0 0) (v3 0 0 0) (v3 0 0 0) (v3 (-1) (-1) (-1)) None ku.
Definition pair (a b : R) (ka kb : bool) (gf : R) : sspace RNum := @mkSSpace RNum [fixed a ka; fixed b kb] true 1 (P 0 0) (P 0 0) 0 gf.
Lemma pair_swapped a b ka kb gf : renumbered swap01 (pair a b ka kb gf) (pair b a kb ka gf).
Proof.
  split; [|repeat split]. intros [|[|[|i]]]; cbn [swap01 sbodies pair nth_error option_map]; reflexivity.
Qed.

Lemma pair_plan a b ka kb gf : plan (shapes_of (pair a b ka kb gf)) PNull = Some
  ([mkEntry 0 (if ka then Zero else InfSteady) 0 0; mkEntry 1 (Speed CX) 0 0; mkEntry 2 (Speed CY) 0 0; mkEntry 3 (Speed CO) 0 0;
    mkEntry 4 (Hydro CX) 0 0; mkEntry 5 (Hydro CY) 0 0; mkEntry 6 (Hydro CO) 0 0;
    mkEntry 7 (Newton CX) 0 0; mkEntry 8 (Newton CY) 0 0; mkEntry 9 (Newton CO) 0 0;
    mkEntry 10 (if kb then Zero else if ka then InfSteady else Steady) 1 0; mkEntry 11 (Speed CX) 1 0; mkEntry 12 (Speed CY) 1 0; mkEntry 13 (Speed CO) 1 0;
    mkEntry 14 (Hydro CX) 1 0; mkEntry 15 (Hydro CY) 1 0; mkEntry 16 (Hydro CO) 1 0;
    mkEntry 17 (Newton CX) 1 0; mkEntry 18 (Newton CY) 1 0; mkEntry 19 (Newton CO) 1 0], PNull).
Proof.
  unfold plan, shapes_of, pair, fixed. cbn [sbodies map late]. unfold shape_of. cbn [plan_from].
  unfold plan_body. cbn [nseg special kutta rigid g_of fb geo speck alist length Nat.leb special_ kutta_ seq].
  cbn [plan_segs Nat.eqb negb]. unfold plan_spring.
  cbn [Flow.Model.kspring get v3 r3 o3 P x y].
  rewrite !rigid_neg by lra. destruct ka, kb; reflexivity.
Qed.

(** The first body without the Kutta condition takes what the vortex leaves. *)
Definition pair_v (a b : R) (ka kb : bool) (gf : R) (u : unk) : R :=
  let g0 := if ka then 0 else - gf in
  let g1 := if kb then 0 else if ka then - gf else 0 in
  match u with
  | UG 0 0 => g0
  | UG 1 0 => g1
  | UH 0 CY | UF 0 CY => g0 * a
  | UH 1 CY | UF 1 CY => g1 * b
  | _ => 0
  end.

Ltac pair_row :=
  match goal with
  | E : eqn_of _ _ _ _ _ _ _ _ _ _ = Some ?q |- _ =>
      unfold eqn_of in E; cbn [ebody ekind eseg nth_error sbodies pair] in E;
      pose proof (f_equal (fun z => match z with Some w => w | None => q end) E) as E'; cbv beta iota in E'; clear E; subst q
  end.

Lemma pair_solution at2 tp ip a b ka kb gf : solution_with at2 tp ip (fun _ => P 0 0) (fun _ => 0) (pair a b ka kb gf) PNull (pair_v a b ka kb gf).
Proof.
  apply (holds_with at2 tp ip (pair a b ka kb gf) (fun _ => P 0 0) (fun _ => 0) PNull _ PNull _ (pair_plan a b ka kb gf)).
  - intros d j [<-|[<-|[]]]; discriminate.
  - intros e q He E. simpl in He. destruct ka, kb.
    all: repeat (destruct He as [<-|He];
      [pair_row; unfold zero_eq, speed_eq, steady_eq, inf_eq, hooke_eq, hydro_eq, newton_eq, bodies_i, indexed, ones; cbn;
       split; [repeat constructor; simpl; intuition discriminate|unfold total; simpl; unr; lra]|]).
    all: destruct He.
Qed.

(** After the bodies have changed places the other one carries the circulation. *)
Theorem C126_order_refuted : ~ forall s t at2 tp ip sk ff (S S' : sspace RNum) v,
  undoes s t -> renumbered s S S' -> no_self_root S ->
  solution_with at2 tp ip sk ff S PNull v -> solution_with at2 tp ip sk ff S' PNull (unknowns_with t v).
Proof.
  intros H. pose proof (H swap01 swap01 (fun _ _ => 0) 1 1 (fun _ => P 0 0) (fun _ => 0) (pair 0 1 false false 1) (pair 1 0 false false 1) (pair_v 0 1 false false 1)
    swap_undoes (pair_swapped 0 1 false false 1)) as X.
  assert (B : balanced (pair 0 1 false false 1) (pair_v 0 1 false false 1)).
  { apply (C126_balance swap01 swap01 (pair 0 1 false false 1) (pair 1 0 false false 1) _ 0%nat swap_undoes (pair_swapped 0 1 false false 1)).
    - split; [exists (fixed 0 false); split; reflexivity|lia].
    - intros [_ F]. specialize (F 0%nat (fixed 1 false) ltac:(cbn; lia) eq_refl). discriminate.
    - exact (with_solution _ _ _ _ _ _ _ _ (pair_solution (fun _ _ => 0) 1 1 0 1 false false 1)).
    - eapply with_solution. apply X; [|apply pair_solution]. intros [|[|i]] c; cbn; [intros E; injection E as <-; discriminate|intros E; injection E as <-; discriminate|destruct i; discriminate]. }
  unfold balanced, each, indexed, total, held in B. cbn in B. unr. lra.
Qed.
Print Assumptions C126_order_refuted.

(** With the Kutta condition on one body both orders give the same. *)
Example C126_ex :
  solution_with (fun _ _ => 0) 1 1 (fun _ => P 0 0) (fun _ => 0) (pair 2 1 false true 3) PNull (unknowns_with swap01 (pair_v 1 2 true false 3)) /\
  unknowns_with swap01 (pair_v 1 2 true false 3) (UG 0 0) = -3 /\ unknowns_with swap01 (pair_v 1 2 true false 3) (UH 0 CY) = -6.
Proof.
  split; [|unfold unknowns_with; cbn; lra].
  apply (C126_system_partial swap01 swap01 (fun _ _ => 0) 1 1 (fun _ => P 0 0) (fun _ => 0) (pair 1 2 true false 3)).
  - exact swap_undoes.
  - apply pair_swapped.
  - intros [|[|i]] c; cbn; [intros E; injection E as <-; discriminate|intros E; injection E as <-; discriminate|destruct i; discriminate].
  - left. intros [|[|i]] [|[|j]] b c; cbn; try (intros; reflexivity); try (destruct i; discriminate); try (destruct j; discriminate).
    + intros E _ K. injection E as <-. discriminate.
    + intros _ E _ K. injection E as <-. discriminate.
  - apply pair_solution.
Qed.
