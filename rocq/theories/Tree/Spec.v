(** Vocabulary for the properties of the search tree. *)

From Coq Require Import Reals List Permutation.
From Verif.Base Require Import Num.
From Verif.Tree Require Import Model ModelRange.
Import ListNotations.

(** Consecutive ranges from [a] to [c] without gap or overlap. *)
Fixpoint tiles (a c : nat) (rs : list range) : Prop :=
  match rs with
  | [] => a = c
  | r :: rs => first r = a /\ first r <= last r /\ tiles (last r) c rs
  end.

(** Sum of [f] over objects. *)
Definition sumR (f : obj RNum -> R) (l : list (obj RNum)) : R := fold_right (fun o a => (f o + a)%R) 0%R l.

(** Objects of positive circulation, and the others. *)
Definition positive (o : obj RNum) : bool := Rltb 0 (g o).
Definition plus (l : list (obj RNum)) := filter positive l.
Definition minus (l : list (obj RNum)) := filter (fun o => negb (positive o)) l.

(** [m] has the total circulation and the first moment of [l]. *)
Definition summary (l : list (obj RNum)) (m : mass RNum) : Prop :=
  (mg m = sumR (fun o => g o) l /\
   mx m * mg m = sumR (fun o => rx o * g o) l /\
   my m * mg m = sumR (fun o => ry o * g o) l)%R.

(** The vortices below a node. *)
Definition vortices {K} (t : tree K) : list (obj K) := flat_map leaf_v (leaves t).

(** Names of the leaves of a tree: the turns from the root. *)
Fixpoint leaf_paths {K} (t : tree K) : list (list bool) :=
  match t with
  | Leaf _ _ _ _ _ => [[]]
  | Split _ t1 t2 => map (cons false) (leaf_paths t1) ++ map (cons true) (leaf_paths t2)
  end.
(** The leaves below the node with name [p]. *)
Definition leaves_below {K} (t : tree K) (p : list bool) : list (list bool) :=
  match subtree t p with Some u => map (app p) (leaf_paths u) | None => [] end.
