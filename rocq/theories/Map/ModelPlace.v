(** [MConvectiveFast::velocity] and [process_all_lists] with the search tree:
    libvvhd/src/MConvectiveFast.cpp:20-112 over Tree/Model.v, Vortex/ModelFar.v and
    Map/Model.v. *)

From Coq Require Import ZArith Bool List.
From Verif.Base Require Import Num.
From Verif.Body Require Import Model.
From Verif.Tree Require Import Model.
From Verif.Vortex Require Import Model ModelFar.
From Verif.Map Require Import Model ModelLinear.
Import ListNotations.

Section Place.
Context {K : Num}.
Variables (lnf : K -> K) (atan2f : K -> K -> K).          (* libm *)
Variables inf tiny10 inv_2pi inv_pi : K.                  (* infinity, 1E-10, C_1_2PI, C_1_PI *)
Variable criteria : K.                                    (* farCriteria *)

(** What a leaf of the tree knows: the vortices of its near nodes and the
    summaries of its far nodes. *)
Definition nears (t u : tree K) : list (part K) :=
  below_nodes (nodes t (fst (find_near (far criteria (node_of u)) [] t))).
Definition fars (t u : tree K) : list (tree K) := nodes t (snd (find_near (far criteria (node_of u)) [] t)).

Definition with_vortices (S : space) (l : list (part K)) : space :=
  mkSpace (bodies S) l (sources S) (flow S) (dt S).

(** Lines 20-34. *)
Definition velocity_at (S : space) (t : tree K) (p : vec K) : vec K :=
  let u := find_node t (x p) (y p) in
  velocity tiny10 inv_2pi inv_pi (linear_influence lnf atan2f) (with_vortices S (nears t u))
    (Some (seq 0 (length (nears t u)), summary_list inf (fars t u))) p.

(** Lines 77-86, 90-99 and 103-111 for a particle [o] of the leaf [u]; lines 77
    and 90 pass over the ones without circulation. *)
Definition particle_velocity (S : space) (t u : tree K) (o : obj K) : vec K :=
  pv (advected inv_2pi inv_pi (flow S) (seq 0 (length (nears t u))) (nears t u) (dt S) (sources S)
       (body_influence tiny10 inv_2pi (linear_influence lnf atan2f) (bodies S))
       (centre_of (node_of u)) (summaries inf (fars t u)) (particle o)).
End Place.
