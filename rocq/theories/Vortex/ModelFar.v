(** The velocity of the vortices as the search tree gives it: what
    MConvectiveFast takes from the nodes of TSortedTree. *)

From Coq Require Import ZArith Bool List.
From Verif.Base Require Import Num.
From Verif.Body Require Import Model.
From Verif.Tree Require Import Model.
From Verif.Vortex Require Import Model.
Import ListNotations.

Section Far.
Context {K : Num}.

(** TObj.hpp:10-16: the objects of the tree are the particles. *)
Definition particle (o : obj K) : part K := mkPart (mkVec (rx o) (ry o)) (g o) (mkVec (vx o) (vy o)) (eps1 o).

(** CMp and CMm of a node are objects, too; their radius is set in
    TSortedTree.cpp:25 and 179, [inf] is the infinity. *)
Variable inf : K.
Definition summed (m : mass K) : part K := mkPart (mkVec (mx m) (my m)) (mg m) (mkVec (nofZ 0) (nofZ 0)) inf.

(** The nodes a list of names stands for. *)
Definition nodes (t : tree K) (names : list (list bool)) : list (tree K) :=
  flat_map (fun p => match subtree t p with Some u => [u] | None => [] end) names.

(** What lines 50-66 of MConvectiveFast.cpp read from FarNodes. *)
Definition summaries (us : list (tree K)) : list (part K * part K) :=
  map (fun u => (summed (fst (masses u)), summed (snd (masses u)))) us.
(** The same in the order of lines 143-147. *)
Definition summary_list (us : list (tree K)) : list (part K) :=
  flat_map (fun u => [summed (fst (masses u)); summed (snd (masses u))]) us.

(** The vortices below a list of nodes, in the order of lines 126-133. *)
Definition below_nodes (us : list (tree K)) : list (part K) :=
  map particle (flat_map (fun u => flat_map leaf_v (leaves u)) us).

Definition centre_of (n : node K) : vec K := mkVec (nx n) (ny n).

Variables inv_2pi inv_pi : K.

(** Lines 41-71 and 83-85 for a particle of the leaf [u]. *)
Definition far_of_particle (criteria : K) (t u : tree K) (p : vec K) : vec K :=
  let '(_, fars) := find_near (far criteria (node_of u)) [] t in
  far_taylor inv_2pi inv_pi (centre_of (node_of u)) (summaries (nodes t fars)) p.

(** Lines 22-28: the part of [velocity] that comes from the vortices. *)
Definition velocity_of_vortices (criteria : K) (t : tree K) (p : vec K) : vec K :=
  let u := find_node t (x p) (y p) in
  let '(nears, fars) := find_near (far criteria (node_of u)) [] t in
  let l := below_nodes (nodes t nears) in
  vadd (vadd (mkVec (nofZ 0) (nofZ 0)) (near_influence inv_2pi (seq 0 (length l)) l p))
       (far_influence inv_2pi (summary_list (nodes t fars)) p).
End Far.
