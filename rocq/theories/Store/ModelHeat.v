(** The shedding of heat in the step in which a calculation is saved, and in the one
    in which it is resumed: the loop of utils/vvflow/vvflow.cpp:215-240 runs
    [heat_shed] and then [save]; after loading (main, lines 149-159) the loop starts
    again at its beginning, so [heat_shed] runs on the loaded space.
    [heat_shed] itself is that of Flow/Model.v. *)

From Coq Require Import List ZArith Bool.
From Verif.Base Require Import Num F64 F32.
From Verif.Body Require Model.
From Verif.Flow Require Model.
From Verif.Store Require Import Model.
Import ListNotations.

Definition bvec (v : vec) : Body.Model.vec F64 := @Body.Model.mkVec F64 (fst v) (snd v).
Definition bvec3 (v : vec3) : Body.Model.vec3 F64 := let '(x, y, o) := v in @Body.Model.mkVec3 F64 (bvec (x, y)) o.

(** The particles of a list, TObj.hpp:13-16. *)
Definition flow_obj (o : tobj) : Flow.Model.obj F64 :=
  @Flow.Model.mkObj F64 (bvec (ox o, oy o)) (og o) (bvec (ovx o, ovy o)).

(** The segments of a body with their centres and vectors, TBody.cpp:200-215; the
    temperature is converted to double where it is used (MFlowmove.cpp:252, 267).
    A negative number of the particle in the layer means none. *)
Definition flow_atts (l : list att) : list (Body.Model.att F64) :=
  @Body.Model.update_segments F64 (map (fun a => @Body.Model.mkAtt F64 (bvec (corner a)) (negb (Z.eqb (slip a) 0))
    (@Body.Model.vzero F64) (@Body.Model.vzero F64) fzero) l).
Definition flow_seg (a : att) : Flow.Model.seg F64 :=
  @Flow.Model.mkSeg F64 (ag a) (agsum a) (hsum a) (f32_to_f64 (heat_const a))
    (if Z.ltb (layer a) 0 then None else Some (Z.to_nat (layer a))).
Definition flow_cond (c : hc) : Flow.Model.heat_cond :=
  match c with
  | Neglect => Flow.Model.Neglect | Isolate => Flow.Model.Isolate
  | ConstT => Flow.Model.ConstT | ConstW => Flow.Model.ConstW
  end.

(** A body as [heat_shed] sees it; what it does not read is left at zero. *)
Definition flow_body (b : body) : Flow.Model.fbody F64 :=
  let z := @Body.Model.vzero F64 in
  @Flow.Model.mkFBody F64
    (@Body.Model.mkBody F64 (flow_atts (alist b)) (bvec3 (holder b)) (bvec3 (dpos b))
       (bvec3 (speed_slae b)) (bvec3 (speed_slae_prev b)) false fzero (area b) (bvec (cofm b)) (moi b) fzero z z [])
    (map flow_seg (alist b)) (bvec3 (kspring b)) (bvec3 (collision_min b)) (bvec3 (collision_max b))
    (@Body.Model.mkVec3 F64 z fzero) None (flow_cond (heat_condition b)) (bvec3 (fdt_dead b)) (g_dead b).

Definition flow_space (s : space) : Flow.Model.space F64 :=
  @Flow.Model.mkSpace F64 (map flow_body (bodies s)) (map flow_obj (vortices s)) (map flow_obj (heat s))
    (map flow_obj (streak s)).

(** The heat particles with which the step goes on after saving (they are in the
    file), and those with which it goes on after resuming; [None] is undefined
    behaviour. *)
Definition heat_going_on (s : space) : list (Flow.Model.obj F64) := map flow_obj (heat s).
Definition heat_resumed (s : space) : option (list (Flow.Model.obj F64)) :=
  option_map (@Flow.Model.heat F64) (@Flow.Model.heat_shed F64 (flow_space s)).
