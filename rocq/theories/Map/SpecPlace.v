(** The same flow at another place: everything that has a position is moved by
    [d]; speeds, circulations, radii and lengths stay. *)

From Coq Require Import ZArith Bool List Reals.
From Verif.Base Require Import Num.
From Verif.Body Require Import Model.
From Verif.Vortex Require Import Model.
From Verif.Map Require Import Model.
From Verif.Tree Require Import Model.
Import ListNotations.
Local Open Scope R_scope.

Definition at_ (d p : vec RNum) : vec RNum := @mkVec RNum (x p + x d) (y p + y d).

Definition obj_at (d : vec RNum) (o : obj RNum) : obj RNum :=
  @mkObj RNum (rx o + x d) (ry o + y d) (g o) (vx o) (vy o) (Tree.Model.eps1 o).
Definition part_at (d : vec RNum) (o : part RNum) : part RNum := mkPart (at_ d (pr o)) (pg o) (pv o) (pe o).
Definition att_at (d : vec RNum) (a : att RNum) : att RNum :=
  mkAtt (at_ d (corner a)) (slip a) (dl a) (at_ d (r a)) (Body.Model.eps1 a).
Definition wall_at (d : vec RNum) (w : @wall RNum) : @wall RNum := mkWall (att_at d (seg w)) (wg w) (wgsum w).
Definition shape_at (d : vec RNum) (b : @shape RNum) : @shape RNum :=
  mkShape (map (wall_at d) (walls b)) (speed b) (at_ d (axis b)) (at_ d (mid b)).
Definition space_at (d : vec RNum) (S : @space RNum) : @space RNum :=
  mkSpace (map (shape_at d) (bodies S)) (map (part_at d) (vortices S)) (map (part_at d) (sources S)) (flow S) (dt S).
Definition cell_at (d : vec RNum) (c : Vortex.Model.cell RNum) : Vortex.Model.cell RNum :=
  Vortex.Model.mkCell (at_ d (Vortex.Model.centre c)) (mine c) (near c) (map (att_at d) (Vortex.Model.walls c)).

(** A node, and a whole tree. *)
Definition node_at (d : vec RNum) (n : node RNum) : node RNum := @mkNode RNum (nx n + x d) (ny n + y d) (nh n) (nw n).
Fixpoint tree_at (d : vec RNum) (t : tree RNum) : tree RNum :=
  match t with
  | Leaf n b v h s => Leaf (node_at d n) (map (obj_at d) b) (map (obj_at d) v) (map (obj_at d) h) (map (obj_at d) s)
  | Split n t1 t2 => Split (node_at d n) (tree_at d t1) (tree_at d t2)
  end.

(** All coordinates are in the range of the numbers. *)
Definition in_range (big : R) (l : list (obj RNum)) : Prop := forall o, In o l -> Rabs (rx o) <= big /\ Rabs (ry o) <= big.
