(** What is at rest. *)

From Coq Require Import ZArith Bool List Reals Permutation.
From Verif.Base Require Import Num.
From Verif.Body Require Import Model Spec.
From Verif.Flow Require Import Model Spec.
From Verif.System Require Import Model Spec SpecKelvin.
Import ListNotations.
Local Open Scope R_scope.

Definition nil3 : vec3 RNum := @mkVec3 RNum (P 0 0) 0.

(** Nothing drives the body under the gravity [g]: no speed is prescribed, it does
    not weigh more than the fluid, and its springs are relaxed. *)
Record undriven (g : pt) (b : sbody RNum) : Prop := Undriven {
  u_own : own (fb b) = nil3;
  u_weight : g = P 0 0 \/ density b = 1;
  u_spring : forall c, 0 <= get c (Flow.Model.kspring (fb b)) ->
    get c (Flow.Model.kspring (fb b)) * get c (dpos (g_of b)) + match c with CO => torque b | _ => 0 end = 0 }.

(** The body did not move, feels no friction and holds nothing of dead vortices. *)
Record still (b : sbody RNum) : Prop := Still {
  s_speed : speed_slae_prev (g_of b) = nil3;
  s_dead : fdt_dead (fb b) = nil3;
  s_gdead : g_dead (fb b) = 0;
  s_friction : friction_prev b = nil3;
  s_holder : force_holder b = nil3 }.

Record rest (S : sspace RNum) : Prop := Rest {
  r_stream : inf_speed S = P 0 0;
  r_circ : gfree S + inf_g S = 0;
  r_undriven : Forall (undriven (gravity S)) (sbodies S);
  r_still : Forall still (sbodies S) }.

(** The system has one solution. *)
Definition one_solution (at2 : R -> R -> R) (tp ip : R) (S : sspace RNum) (p : ptr) : Prop :=
  forall v w, solution_with at2 tp ip (fun _ => P 0 0) (fun _ => 0) S p v -> solution_with at2 tp ip (fun _ => P 0 0) (fun _ => 0) S p w ->
  forall u, known (sizes_of S) u -> v u = w u.

(** A body after the step: loads and prescribed speed are new, the rest is as it was. *)
Definition same_make (b b' : sbody RNum) : Prop := density b' = density b /\ torque b' = torque b.

Section Steps.
Variables inf dbl_max eps gap : R.
Variable at2 : R -> R -> R.
Variables tp ip : R.

(** One step, vvflow.cpp:215-264, without vortices and sources at its start, so that
    neither send anything through a segment; [fr] is the friction of the bodies at
    the start, which TSpace.cpp:136 moves to friction_prev; friction is a sum over
    the vortices (MDiffusiveFast.cpp:92-127), nothing when there are none. *)
Record rstep (S : sspace RNum) (F : space RNum) (fr : list (vec3 RNum)) (S' : sspace RNum) (F' : space RNum) (fr' : list (vec3 RNum)) : Prop := RStep {
  rs_agrees : agrees S F;
  rs_none : vort F = [];
  rs_step : exists p v F1 F2 F4 F5 fuel dt cdt ptr n,
    one_solution at2 tp ip S p /\
    solution_with at2 tp ip (fun _ => P 0 0) (fun _ => 0) S p v /\
    bodies F1 = map (written_body v) (indexed (bodies F)) /\ Permutation (vort F) (vort F1) /\
    heat_shed (K:=RNum) F1 = Some F2 /\
    bodies F4 = bodies (zero_forces (vortex_shed (K:=RNum) eps gap F2)) /\
    length (vort F4) = length (vort (vortex_shed (K:=RNum) eps gap F2)) /\
    move_and_clean (K:=RNum) inf dbl_max cos sin eps fuel dt F4 = Some (F5, cdt, ptr, n) /\
    Forall2 renewed (bodies F5) (bodies F') /\ vort F' = vort F5 /\
    map force_holder (sbodies S') = map (fun i => @mkVec3 RNum (P (v (UF i CX)) (v (UF i CY))) (v (UF i CO))) (seq 0 (length (sbodies S))) /\
    (vort F4 = [] -> Forall (eq nil3) fr');
  rs_friction : map friction_prev (sbodies S') = fr;
  rs_agrees' : agrees S' F';
  rs_make : Forall2 same_make (sbodies S) (sbodies S');
  rs_flow : inf_speed S' = inf_speed S /\ inf_g S' = inf_g S /\ gravity S' = gravity S;
  rs_own : Forall (fun b : sbody RNum => own (fb b) = nil3) (sbodies S') }.

Inductive rsteps : sspace RNum -> space RNum -> list (vec3 RNum) -> sspace RNum -> space RNum -> list (vec3 RNum) -> Prop :=
| RNone S F fr : rsteps S F fr S F fr
| RMore S F fr S1 F1 fr1 S' F' fr' : rstep S F fr S1 F1 fr1 -> rsteps S1 F1 fr1 S' F' fr' -> rsteps S F fr S' F' fr'.
End Steps.

(** Where a body is: corners, holder and displacement. *)
Definition place (b : fbody RNum) : list pt * vec3 RNum * vec3 RNum := (corners (geo b), holder (geo b), dpos (geo b)).

(** The space between steps: at rest, without vortices. *)
Definition quiet (S : sspace RNum) (F : space RNum) (fr : list (vec3 RNum)) : Prop :=
  rest S /\ agrees S F /\ vort F = [] /\ Forall wf (bodies F) /\ Forall (eq nil3) fr.
