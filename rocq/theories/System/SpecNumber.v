(** The linear system with the bodies in another order: what was body [i] is body
    [s i]. *)

From Coq Require Import ZArith Bool List Reals.
From Verif.Base Require Import Num.
From Verif.Matrix Require Import Model.
From Verif.Body Require Import Model Spec.
From Verif.Flow Require Import Model.
From Verif.System Require Import Model Spec.
Import ListNotations.
Local Open Scope R_scope.

(** [t] undoes [s]. *)
Definition undoes (s t : nat -> nat) : Prop := (forall i, t (s i) = i) /\ forall i, s (t i) = i.

(** The root of a body is found under its new number. *)
Definition reroot (s : nat -> nat) (b : sbody RNum) : sbody RNum :=
  let f := fb b in
  @mkSBody RNum
    (@mkFBody RNum (geo f) (segs f) (Flow.Model.kspring f) (cmin f) (cmax f) (own f) (option_map s (root f)) (cond f) (fdt_dead f) (g_dead f))
    (density b) (damping b) (bounce b) (torque b) (special_ b) (kutta_ b) (force_holder b) (friction_prev b).

Definition renumbered (s : nat -> nat) (S S' : sspace RNum) : Prop :=
  (forall i, nth_error (sbodies S') (s i) = option_map (reroot s) (nth_error (sbodies S) i)) /\
  late S' = late S /\ dt S' = dt S /\ gravity S' = gravity S /\ inf_speed S' = inf_speed S /\ inf_g S' = inf_g S /\ gfree S' = gfree S.

(** The same values under the new numbers; [t] gives the old number. *)
Definition unk_with (t : nat -> nat) (u : unk) : unk :=
  match u with UG b k => UG (t b) k | UV b c => UV (t b) c | UH b c => UH (t b) c | UF b c => UF (t b) c end.
Definition unknowns_with (t : nat -> nat) (v : unk -> R) (u : unk) : R := v (unk_with t u).
Definition ptr_with (s : nat -> nat) (p : ptr) : ptr :=
  match p with PNull => PNull | PSpring b c => PSpring (s b) c | PHolder b c => PHolder (s b) c end.

(** The circulation a body without the Kutta condition keeps. *)
Definition held (b : sbody RNum) : R := g_dead (fb b) + 2 * area (g_of b) * o3 (speed_slae_prev (g_of b)).
Definition single_steady (S : sspace RNum) : Prop :=
  forall i j b c, nth_error (sbodies S) i = Some b -> nth_error (sbodies S) j = Some c -> kutta_ b = false -> kutta_ c = false -> i = j.
(** What the bodies have to keep adds up to what is left for them. *)
Definition balanced (S : sspace RNum) (v : unk -> R) : Prop :=
  each S (fun i b => if kutta_ b then body_circulation v (i, b) else held b) = - gfree S - inf_g S.

(** No body with a smaller number is without the Kutta condition. *)
Definition first_steady (S : sspace RNum) (i : nat) : Prop :=
  (exists b, nth_error (sbodies S) i = Some b /\ kutta_ b = false) /\
  forall j c, (j < i)%nat -> nth_error (sbodies S) j = Some c -> kutta_ c = true.
