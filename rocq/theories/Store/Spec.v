(** What saving and loading must keep, field by field. *)

From Coq Require Import List Arith ZArith Bool String Ascii Permutation.
From Flocq Require Import IEEE754.BinarySingleNaN.
From Verif.Base Require Import Num.
From Verif.Store Require Import Model.
Import ListNotations.

(** Position and circulation of a particle. *)
Definition same_obj (a b : tobj) : Prop := ox a = ox b /\ oy a = oy b /\ og a = og b.

(** A segment; temperatures are compared as numbers (0 and -0 are the same), but that of
    the first segment below as it is. *)
Definition same_att (a b : att) : Prop :=
  corner a = corner b /\ ag a = ag b /\ agsum a = agsum b /\ slip a = slip b
  /\ Beqb (heat_const a) (heat_const b) = true.

(** Everything about a body except its root. *)
Record same_body (a b : body) : Prop := {
  kept_label : label a = label b;
  kept_alist : Forall2 same_att (alist a) (alist b);
  kept_holder : holder a = holder b;
  kept_dpos : dpos a = dpos b;
  kept_kspring : kspring a = kspring b;
  kept_damping : damping a = damping b;
  kept_speed : speed_slae a = speed_slae b;
  kept_speed_prev : speed_slae_prev a = speed_slae_prev b;
  kept_min : collision_min a = collision_min b;
  kept_max : collision_max a = collision_max b;
  kept_bounce : bounce a = bounce b;
  kept_density : density a = density b;
  kept_special : special_segment_no a = special_segment_no b;
  kept_bc : boundary_condition a = boundary_condition b;
  kept_hc : heat_condition a = heat_condition b;
  kept_friction_prev : friction_prev a = friction_prev b;
  kept_hydro : force_hydro a = force_hydro b;
  kept_force_holder : force_holder a = force_holder b;
  kept_fdt : fdt_dead a = fdt_dead b;
  kept_g_dead : g_dead a = g_dead b;
  kept_sx : speed_x a = speed_x b;
  kept_sy : speed_y a = speed_y b;
  kept_so : speed_o a = speed_o b;
  kept_fo : force_o a = force_o b;
  kept_temperature : option_map heat_const (hd_error (alist a)) = option_map heat_const (hd_error (alist b))
}.

(** The bodies of [l'] are those of [l] in the order given by [p]: the body at
    position [k] is the one that was at position [p_k], and the roots point to the
    same bodies as before. *)
Definition same_root (p : list nat) (r r' : root) : Prop :=
  match r with
  | NoRoot => r' = NoRoot
  | RootAt i => exists k, r' = RootAt k /\ nth_error p k = Some i
  | Foreign => False
  end.
Definition same_bodies (p : list nat) (l l' : list body) : Prop :=
  Permutation p (seq 0 (List.length l)) /\ List.length l' = List.length l
  /\ forall k i, nth_error p k = Some i ->
     exists b b', nth_error l i = Some b /\ nth_error l' k = Some b'
       /\ same_body b b' /\ same_root p (root_body b) (root_body b').

Record same_space (p : list nat) (a b : space) : Prop := {
  kept_caption : caption a = caption b;
  kept_re : re a = re b;
  kept_pr : pr a = pr b;
  kept_inf_g : inf_g a = inf_g b;
  kept_vx : inf_vx a = inf_vx b;
  kept_vy : inf_vy a = inf_vy b;
  kept_marker : inf_marker a = inf_marker b;
  kept_gravity : gravity a = gravity b;
  kept_time : time a = time b;
  kept_dt : dt a = dt b;
  kept_dt_save : dt_save a = dt_save b;
  kept_dt_streak : dt_streak a = dt_streak b;
  kept_dt_profile : dt_profile a = dt_profile b;
  kept_finish : finish a = finish b;
  kept_vortices : Forall2 same_obj (vortices a) (vortices b);
  kept_heat : Forall2 same_obj (heat a) (heat b);
  kept_sources : Forall2 same_obj (sources a) (sources b);
  kept_streak_sources : Forall2 same_obj (streak_sources a) (streak_sources b);
  kept_streak : Forall2 same_obj (streak a) (streak b);
  kept_bodies : same_bodies p (bodies a) (bodies b)
}.

(** A text without the character NUL. *)
Definition no_nul (s : string) : Prop := forall n, String.get n s <> Some Ascii.zero.

(** The texts of a space are C strings and its expressions are accepted. *)
Definition plain_body (accepts : string -> bool) (b : body) : Prop :=
  no_nul (label b)
  /\ forall e, In e [speed_x b; speed_y b; speed_o b; force_o b] ->
       no_nul e /\ (e <> ""%string -> accepts e = true).
Definition plain (accepts : string -> bool) (s : space) : Prop :=
  no_nul (caption s)
  /\ (forall e, In e [inf_vx s; inf_vy s] -> no_nul e /\ (e <> ""%string -> accepts e = true))
  /\ Forall (plain_body accepts) (bodies s).

(** The attributes written besides are these four. *)
Definition only_meta (meta : attrs) : Prop :=
  forall n a, In (n, a) meta -> In n ["git_rev"; "git_info"; "git_diff"; "time_local"]%string.

(** The spaces that can be saved: every body has segments of one temperature that is
    a number, finite damping, springs that are numbers and not negative, collision
    limits in order, and a root of the same space. *)
Definition savable_body (n : nat) (b : body) : Prop :=
  alist b <> [] /\
  (forall a a', In a (alist b) -> In a' (alist b) -> Beqb (heat_const a) (heat_const a') = true)
  /\ (let '(x, y, o) := damping b in is_finite x = true /\ is_finite y = true /\ is_finite o = true)
  /\ (let '(x, y, o) := kspring b in
      Forall (fun k => nnan (n:=F64) k = false /\ nltb (n:=F64) k (f64_ofZ 0) = false) [x; y; o])
  /\ (let '(x, y, o) := collision_min b in let '(x', y', o') := collision_max b in
      nleb (n:=F64) x' x = false /\ nleb (n:=F64) y' y = false /\ nleb (n:=F64) o' o = false)
  /\ (root_body b = NoRoot \/ exists i, root_body b = RootAt i /\ i < n).
Definition savable (s : space) : Prop := Forall (savable_body (List.length (bodies s))) (bodies s).
