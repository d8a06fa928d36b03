(** What a file means, whoever wrote it. *)

From Coq Require Import List ZArith Bool String Permutation Sorted.
From Flocq Require Import IEEE754.BinarySingleNaN.
From Verif.Base Require Import Num F64 F32.
From Verif.Store Require Import Model.
Import ListNotations.
Local Open Scope string_scope.
Local Open Scope list_scope.

(** The file says that [name] is [v], or nothing, and then [v] is [d]. *)
Definition lacks {A} (a : list (string * A)) (name : string) : Prop := ~ In name (map fst a).
Definition says {A} (con : A -> attr) (d : A) (a : attrs) (name : string) (v : A) : Prop :=
  In (name, con v) a \/ lacks a name /\ v = d.
Definition text := says AStr "".
Definition real := says AD fzero.
Definition pair2 := says AV vzero.
Definition three := says A3 vzero3.
Definition whole := says AU 0%Z.
Definition signed := says AI 0%Z.
Definition moment := says AT (mkTime 0 1).

(** Particles at rest at the given places; without the table those of [old]. *)
Definition particle (row : f64 * f64 * f64) (o : tobj) : Prop := (ox o, oy o, og o) = row /\ ovx o = fzero /\ ovy o = fzero /\ oeps o = fzero.
Definition placed (row : f64 * f64 * f64) (o : tobj) : Prop := (ox o, oy o, og o) = row.
Definition particles (f : file) (name : string) (l : list tobj) : Prop :=
  (exists rows, In (name, DList rows) (objects f) /\ Forall2 particle rows l) \/ lacks (objects f) name /\ l = [].

(** A negative stiffness means a rigid holder. *)
Definition stiff (k k' : f64) : Prop := if @nltb F64 k fzero then k' = finf else k' = k.

(** The walls, by the version of the table. *)
Definition walls2 (a : attrs) (b : body) : Prop :=
  (exists l z, In ("slip", AUs l) a /\ map slip (alist b) = l ++ repeat 0%Z z \/
   lacks a "slip" /\ exists g, whole a "general_slip" g /\ Forall (fun x => slip x = g) (alist b)) /\
  signed a "special_segment_no" (special_segment_no b) /\
  (exists n, whole a "boundary_condition" n /\ (boundary_condition b = Kutta <-> n = 1%Z)) /\
  (exists n, whole a "heat_condition" n /\ (heat_condition b = Isolate <-> n = 1%Z) /\ (heat_condition b = ConstT <-> n = 2%Z) /\ (heat_condition b = ConstW <-> n = 3%Z)) /\
  (exists h, real a "general_heat_const" h /\ Forall (fun x => heat_const x = f64_to_f32 h) (alist b)).
(** The letters l, z, i, t, w. *)
Definition walls1 (a : attrs) (b : body) : Prop :=
  (exists n, whole a "general_bc" n /\ Forall (fun x => slip x = if Z.eqb n 108 then 1%Z else 0%Z) (alist b)) /\
  signed a "special_bc_segment" (special_segment_no b) /\
  (exists n, signed a "special_bc" n /\ (boundary_condition b = Kutta <-> n = 122%Z)) /\
  (exists n, signed a "heat_condition" n /\ (heat_condition b = Isolate <-> n = 105%Z) /\ (heat_condition b = ConstT <-> n = 116%Z) /\ (heat_condition b = ConstW <-> n = 119%Z)) /\
  (exists h, real a "heat_const" h /\ Forall (fun x => heat_const x = f64_to_f32 h) (alist b)).
(** No conditions: resting walls that do not slip and do not heat. *)
Definition bare_walls (b : body) : Prop :=
  Forall (fun x => slip x = 0%Z /\ heat_const x = f32_ofZ 0) (alist b) /\ special_segment_no b = 0%Z /\ boundary_condition b = Steady /\ heat_condition b = Neglect.

(** The body of the table [name]; [names] are the tables of all bodies. *)
Record body_of (accepts : string -> bool) (f : file) (names : list string) (name : string) (b : body) (rows : list (vec * f64 * f64)) (a : attrs) : Prop := {
  of_table : In (name, DBody rows a) (objects f);
  of_rows : rows <> [] /\ map (fun x => (corner x, ag x, agsum x)) (alist b) = rows;
  of_label : text a "label" (label b);
  of_holder : three a "holder_position" (holder b);
  of_dpos : three a "delta_position" (dpos b);
  of_speed : text a "speed_x" (speed_x b) /\ text a "speed_y" (speed_y b) /\ text a "speed_o" (speed_o b) /\ text a "force_o" (force_o b);
  of_accepted : forall e, In e [speed_x b; speed_y b; speed_o b; force_o b] -> e = "" \/ accepts e = true;
  of_slae : three a "speed_slae" (speed_slae b) /\ three a "speed_slae_prev" (speed_slae_prev b);
  of_spring : exists x y o, three a "spring_const" (x, y, o) /\
    let '(x', y', o') := kspring b in stiff x x' /\ stiff y y' /\ stiff o o';
  of_damping : three a "spring_damping" (damping b);
  of_density : real a "density" (density b);
  of_forces : three a "force_hydro" (force_hydro b) /\ three a "force_holder" (force_holder b) /\ three a "friction_prev" (friction_prev b) /\ friction b = vzero3;
  of_dead : three a "fdt_dead" (fdt_dead b) /\ real a "g_dead" (g_dead b);
  of_limits : three a "collision_min" (collision_min b) /\ three a "collision_max" (collision_max b);
  of_bounce : real a "bounce" (bounce b);
  of_root : exists r, text a "root_body" r /\
    (r <> "" /\ (exists i, nth_error names i = Some r /\ root_body b = RootAt i) \/ (r = "" \/ ~ In r names) /\ root_body b = NoRoot);
  of_walls : exists v, whole a "simplified_dataset" v /\ ((v < 2)%Z -> walls1 a b) /\ (v = 2%Z -> walls2 a b) /\ ((2 < v)%Z -> bare_walls b) }.

(** The bodies come in the order of the names of their tables. *)
Definition bodies_of (accepts : string -> bool) (f : file) (l : list body) : Prop :=
  exists names, Permutation names (filter (String.prefix "body") (map fst (objects f))) /\
    StronglySorted (fun x y => String.leb x y = true) names /\
    Forall2 (fun n b => exists rows a, body_of accepts f names n b rows a) names l.

(** The parameters a new body has, TBody.cpp:10-54. *)
Definition new_parameters (b : body) : Prop :=
  kspring b = (finf, finf, finf) /\ collision_min b = vnan3 /\ collision_max b = vnan3 /\ density b = f64_ofZ 1.
