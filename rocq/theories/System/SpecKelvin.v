(** What the balance of circulation over whole steps refers to. *)

From Coq Require Import ZArith Bool List Reals Permutation.
From Verif.Base Require Import Num.
From Verif.Body Require Import Model Spec.
From Verif.Flow Require Import Model Spec.
From Verif.System Require Import Model Spec.
Import ListNotations.
Local Open Scope R_scope.

(** The linear system [S] is that of the space [F]; TSpace.hpp:93-99 for [gfree]. *)
Definition agrees (S : sspace RNum) (F : space RNum) : Prop :=
  map (fun b => fb b) (sbodies S) = bodies F /\ gfree S = circ (vort F).

(** The solution is stored where MConvectiveFast.cpp:252-267 says: circulations
    of the segments and speeds of the bodies. *)
Definition set_sg (g : R) (s : seg RNum) : seg RNum := @mkSeg RNum g (gsum s) (hsum s) (heat_const s) (obj_no s).
Definition written_body (v : unk -> R) (e : nat * fbody RNum) : fbody RNum :=
  let '(i, b) := e in
  set_segs (map (fun k : nat * seg RNum => set_sg (v (UG i (fst k))) (snd k)) (indexed (segs b)))
    (set_geo (set_speed (speed_in v i) (geo b)) b).

(** Prescribed speeds are evaluated anew in every step. *)
Definition renewed (b b' : fbody RNum) : Prop :=
  exists o, b' = mkFBody (geo b) (segs b) (kspring b) (cmin b) (cmax b) o (root b) (cond b) (fdt_dead b) (g_dead b).

(** One step, vvflow.cpp:215-264, from [S], [F] to [S'], [F']: the system is
    solved, [F3] is the space after shedding, [F4] the space with its
    velocities, [F5] the space after the motion, which takes the time [cdt].
    Sorting and merging keep the circulation. *)
Section Steps.
Variables inf dbl_max eps gap : R.

Record kstep (S : sspace RNum) (F F3 F4 F5 : space RNum) (cdt : R) (S' : sspace RNum) (F' : space RNum) : Prop := KStep {
  k_agrees : agrees S F;
  k_solved : exists p v F1 F2, solution S p v /\
    bodies F1 = map (written_body v) (indexed (bodies F)) /\ Permutation (vort F) (vort F1) /\
    heat_shed (K:=RNum) F1 = Some F2 /\ F3 = vortex_shed (K:=RNum) eps gap F2;
  k_evolved : evolved (zero_forces F3) F4;
  k_moved : exists fuel dt ptr n, move_and_clean (K:=RNum) inf dbl_max cos sin eps fuel dt F4 = Some (F5, cdt, ptr, n);
  k_next : Forall2 renewed (bodies F5) (bodies F') /\ vort F' = vort F5;
  k_agrees' : agrees S' F';
  k_kept : Forall2 kept (sbodies S) (sbodies S') /\ inf_g S' = inf_g S }.

(** ** Circulations *)

(** A segment keeps its circulation when it slips or is too weak. *)
Definition keeps (e : att RNum * seg RNum) : bool :=
  slip (fst e) || (if Rlt_dec (Rabs (sg (snd e))) eps then true else false).
Definition held (b : fbody RNum) : R :=
  total (fun e : att RNum * seg RNum => if keeps e then sg (snd e) else 0) (combine (alist (geo b)) (segs b)).
Definition shed (b : fbody RNum) : R :=
  total (fun e : att RNum * seg RNum => if keeps e then 0 else sg (snd e)) (combine (alist (geo b)) (segs b)).

(** Circulation of the rotation in a body, now and in the step before. *)
Definition rotation (b : fbody RNum) : R := 2 * area (geo b) * o3 (speed_slae (geo b)).
Definition rotation_prev (b : fbody RNum) : R := 2 * area (geo b) * o3 (speed_slae_prev (geo b)).

(** What a body has taken from the flow since its circulations were last found,
    with its rotation at that time. *)
Definition load (b : fbody RNum) : R := g_dead b + rotation_prev b.

(** The first body a point is in. *)
Fixpoint inside (i : nat) (bs : list (fbody RNum)) (p : pt) : option nat :=
  match bs with
  | [] => None
  | b :: t => match is_point_invalid (K:=RNum) dbl_max (geo b) p with Some (Some _) => Some i | _ => inside (S i) t p end
  end.

(** What body [i] absorbs at the end of a step: the vortices that are in it after the motion. *)
Definition taken (F4 F5 : space RNum) (cdt : R) (i : nat) : R :=
  total (fun o : obj RNum => if Rlt_dec (Rabs (og o)) eps then 0
           else if match inside 0 (bodies F5) (vadd (pos o) (vscale (vel o) cdt)) with Some j => Nat.eqb i j | None => false end
           then og o else 0) (vort F4).

(** What body [i] gives to the flow in a step. *)
Definition given (F3 F4 F5 : space RNum) (cdt : R) (i : nat) : R :=
  match nth_error (bodies F3) i with Some b => shed b | None => 0 end - taken F4 F5 cdt i.

(** The area stored in a body is that of its contour. *)
Definition area_right (b : fbody RNum) : Prop := area (geo b) = shoelace (corners (geo b)).

(** Any number of steps, with what body [i] gives in all of them. *)
Inductive ksteps (i : nat) : sspace RNum -> space RNum -> R -> sspace RNum -> space RNum -> Prop :=
| KNone S F : ksteps i S F 0 S F
| KMore S F F3 F4 F5 cdt S1 F1 g S' F' :
    kstep S F F3 F4 F5 cdt S1 F1 -> ksteps i S1 F1 g S' F' ->
    ksteps i S F (given F3 F4 F5 cdt i + g) S' F'.
End Steps.

(** Whether body [i] is steady and has a steady body before it. *)
Definition follows (i : nat) (l : list bool) : bool :=
  match nth_error l i with Some k => negb k && existsb negb (firstn i l) | None => false end.
