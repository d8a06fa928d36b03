(** Flux of the free vortices through a segment: [NodeInfluence],
    libvvhd/src/MConvectiveFast.cpp:392-411.  The cell of the segment and the lists
    of its near and far cells are the matter of the tree; here they are the near
    vortices and the centres of the far cells, the positive one before the negative. *)

From Coq Require Import ZArith Bool List.
From Verif.Base Require Import Num.
From Verif.Body Require Import Model.
From Verif.Vortex Require Import Model.
From Verif.System Require Import Model.
Import ListNotations.
Local Open Scope num_scope.

Section Flux.
Context {K : Num}.
Variable lnf : K -> K.
Variable inv_2pi : K.

(** Lines 396-403; vortices of strength zero are left out. *)
Definition near_flux (near : list (part K)) (a : att K) (res : K) : K :=
  fold_left (fun res o => if pg o =? nofZ 0 then res else res + xi_g lnf (pr o) a (nofZ 1 / pe o) * pg o) near res.

(** Lines 405-409. *)
Definition far_flux (far : list (part K)) (a : att K) (res : K) : K :=
  fold_left (fun res m => res + xi_g_dist lnf (pr m) (corner a) (vadd (corner a) (dl a)) * pg m) far res.

Definition node_flux (near far : list (part K)) (a : att K) : K := far_flux far a (near_flux near a (nofZ 0)) * inv_2pi.
End Flux.
