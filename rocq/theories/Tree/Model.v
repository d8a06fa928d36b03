(** Model of the search tree, libvvhd/src/TSortedTree.cpp.

    A range [first,last) of one of the lists of the space is represented by the
    objects it holds, in order.  The ranges of the two children of a node are
    adjacent parts of the range of the node, so the list itself is always the
    concatenation of the ranges of the leaves from left to right. *)

From Coq Require Import ZArith Bool List.
From Verif.Base Require Import Num.
Import ListNotations.
Local Open Scope num_scope.

Section Tree.
Context {K : Num}.

(** TObj.hpp:10-16. *)
Record obj := mkObj { rx : K; ry : K; g : K; vx : K; vy : K; eps1 : K }.

Definition half : K := nofZ 1 / nofZ 2.
Definition cmax (a b : K) : K := if a <? b then b else a.     (* std::max *)
Definition cmin (a b : K) : K := if b <? a then b else a.     (* std::min *)

(** snode: TSortedTree.hpp:32; the geometry of a node. *)
Record node := mkNode { nx : K; ny : K; nh : K; nw : K }.

(** * Partition, TSortedTree.cpp:81-99 *)

Section Partition.
Context {A : Type}.
Variable below : A -> bool.      (* line 87: [<] *)
Variable above : A -> bool.      (* line 91: [>=] *)

(** Lines 87-88.  [fuel] is the length of the range. *)
Fixpoint scan_up (fuel : nat) (l : list A) (p1 : nat) : nat :=
  match fuel with
  | O => p1
  | S k => match nth_error l p1 with
           | Some e => if below e then scan_up k l (S p1) else p1
           | None => p1
           end
  end.

(** Lines 89-91, [do p2--; while (p2>=first && above( *p2))] entered with
    [p2 = q]; the result is the final [p2] plus one, 0 for [first-1]. *)
Fixpoint scan_down (l : list A) (q : nat) : nat :=
  match q with
  | O => O
  | S k => match nth_error l k with
           | Some e => if above e then scan_down l k else S k
           | None => S k
           end
  end.

Fixpoint set_nth (l : list A) (k : nat) (v : A) : list A :=
  match l, k with
  | [], _ => []
  | _ :: t, O => v :: t
  | x :: t, S k => x :: set_nth t k v
  end.

Definition swap (l : list A) (i j : nat) : list A :=
  match nth_error l i, nth_error l j with
  | Some a, Some b => set_nth (set_nth l i b) j a
  | _, _ => l
  end.

(** Lines 83-93. *)
Fixpoint partition_loop (fuel : nat) (l : list A) (p1 p2 : nat) : list A * nat :=
  match fuel with
  | O => (l, p1)
  | S k =>
      if Nat.ltb p1 p2 then
        let p1 := scan_up (length l) l p1 in
        let p2 := pred (scan_down l p2) in
        if Nat.ltb p1 p2 then partition_loop k (swap l p1 p2) p1 p2
        else (l, p1)
      else (l, p1)
  end.

(** Lines 81-99: the contents of the two children. *)
Definition distribute (l : list A) : list A * list A :=
  let '(l', p1) := partition_loop (length l) l 0 (length l) in
  (firstn p1 l', skipn p1 l').

(** Lines 139-148, the list of pointers to body segments. *)
Definition distribute_list (l : list A) : list A * list A :=
  (filter below l, filter (fun e => negb (below e)) l).
End Partition.

(** Lines 87 and 143: the comparison for a node. *)
Definition below (n : node) (o : obj) : bool :=
  if nh n <? nw n then rx o <? nx n else ry o <? ny n.
(** Line 91. *)
Definition above (n : node) (o : obj) : bool :=
  if nh n <? nw n then nx n <=? rx o else ny n <=? ry o.

(** * Bounding box, TSortedTree.cpp:101-137 *)

Variable big : K.        (* numeric_limits<double>::max() *)

Definition stretch (b v h s : list obj) : node :=
  let l := b ++ v ++ h ++ s in
  let trx := fold_left (fun a o => cmax a (rx o)) l (- big) in
  let try := fold_left (fun a o => cmax a (ry o)) l (- big) in
  let blx := fold_left (fun a o => cmin a (rx o)) l big in
  let bly := fold_left (fun a o => cmin a (ry o)) l big in
  mkNode ((blx + trx) * half) ((bly + try) * half) (try - bly) (trx - blx).

(** * Subdivision, TSortedTree.cpp:36-79 *)

(** [b] is [bllist] (the segments pointed to), [v], [h], [s] the ranges. *)
Inductive tree :=
| Leaf (n : node) (b v h s : list obj)
| Split (n : node) (t1 t2 : tree).

Variables minSize maxSize : K.

Definition is_bottom (n : node) (b v h s : list obj) : bool :=
  (cmax (nh n) (nw n) <? maxSize) &&
  ((cmin (nh n) (nw n) <=? minSize) ||
   Nat.ltb (Nat.max (Nat.max (length b) (length v)) (Nat.max (length h) (length s))) 16).

(** [None]: deeper than [fuel]. *)
Fixpoint divide (fuel : nat) (n : node) (b v h s : list obj) : option tree :=
  if is_bottom n b v h s then Some (Leaf n b v h s)
  else match fuel with
  | O => None
  | S k =>
      let '(v1, v2) := distribute (below n) (above n) v in
      let '(h1, h2) := distribute (below n) (above n) h in
      let '(s1, s2) := distribute (below n) (above n) s in
      let '(b1, b2) := distribute_list (below n) b in
      match divide k (stretch b1 v1 h1 s1) b1 v1 h1 s1, divide k (stretch b2 v2 h2 s2) b2 v2 h2 s2 with
      | Some t1, Some t2 => Some (Split n t1 t2)
      | _, _ => None
      end
  end.

(** TSortedTree.cpp:232-256; which lists take part is decided by the caller. *)
Definition build (fuel : nat) (b v h s : list obj) : option tree :=
  divide fuel (stretch b v h s) b v h s.

Definition node_of (t : tree) : node := match t with Leaf n _ _ _ _ => n | Split n _ _ => n end.

(** The leaves, in the order of [bottomNodes]. *)
Fixpoint leaves (t : tree) : list tree :=
  match t with
  | Leaf _ _ _ _ _ => [t]
  | Split _ t1 t2 => leaves t1 ++ leaves t2
  end.
Definition leaf_b (t : tree) := match t with Leaf _ b _ _ _ => b | _ => [] end.
Definition leaf_v (t : tree) := match t with Leaf _ _ v _ _ => v | _ => [] end.
Definition leaf_h (t : tree) := match t with Leaf _ _ _ h _ => h | _ => [] end.
Definition leaf_s (t : tree) := match t with Leaf _ _ _ _ s => s | _ => [] end.

(** * Summaries, TSortedTree.cpp:150-197 *)

Record mass := mkMass { mx : K; my : K; mg : K }.

(** Lines 195-196 and TVec.hpp: [r /= c] is [r *= 1./c]; a zero sum gives the
    centre of the node. *)
Definition centre (n : node) (m : mass) : mass :=
  if mg m =? nofZ 0 then mkMass (nx n) (ny n) (mg m)
  else mkMass (mx m * (nofZ 1 / mg m)) (my m * (nofZ 1 / mg m)) (mg m).

Definition add_obj (m : mass) (o : obj) : mass :=
  mkMass (mx m + rx o * g o) (my m + ry o * g o) (mg m + g o).

(** Lines 176-197. *)
Definition mass_leaf (n : node) (v : list obj) : mass * mass :=
  let '(p, m) := fold_left (fun '(p, m) o => if nofZ 0 <? g o then (add_obj p o, m) else (p, add_obj m o)) v
                  (mkMass (nofZ 0) (nofZ 0) (nofZ 0), mkMass (nofZ 0) (nofZ 0) (nofZ 0)) in
  (centre n p, centre n m).

(** Lines 163-169; [(a)/sumg] is [(a)*(1./sumg)]. *)
Definition mass_join (n : node) (a b : mass) : mass :=
  let sumg := mg a + mg b in
  if sumg =? nofZ 0 then mkMass (nx n) (ny n) (nofZ 0)
  else mkMass ((mx a * mg a + mx b * mg b) * (nofZ 1 / sumg))
              ((my a * mg a + my b * mg b) * (nofZ 1 / sumg)) sumg.

Fixpoint masses (t : tree) : mass * mass :=
  match t with
  | Leaf n _ v _ _ => mass_leaf n v
  | Split n t1 t2 =>
      let '(p1, m1) := masses t1 in
      let '(p2, m2) := masses t2 in
      (mass_join n p1 p2, mass_join n m1 m2)
  end.

(** * Near and far, TSortedTree.cpp:199-217 *)

Definition far (criteria : K) (n top : node) : bool :=
  let dx := nx top - nx n in
  let dy := ny top - ny n in
  let hp := nh top + nw top + nh n + nw n in
  (criteria * hp * hp) <? (dx * dx + dy * dy).

(** Nodes are named by the path from the root; the result is (NearNodes, FarNodes). *)
Fixpoint find_near (is_far : node -> bool) (path : list bool) (top : tree) : list (list bool) * list (list bool) :=
  if is_far (node_of top) then ([], [path])
  else match top with
  | Split _ t1 t2 =>
      let '(n1, f1) := find_near is_far (path ++ [false]) t1 in
      let '(n2, f2) := find_near is_far (path ++ [true]) t2 in
      (n1 ++ n2, f1 ++ f2)
  | Leaf _ _ _ _ _ => ([path], [])
  end.

Fixpoint subtree (t : tree) (path : list bool) : option tree :=
  match path, t with
  | [], _ => Some t
  | false :: p, Split _ t1 _ => subtree t1 p
  | true :: p, Split _ _ t2 => subtree t2 p
  | _, _ => None
  end.

(** * Lookup, TSortedTree.cpp:284-303 *)

Fixpoint find_node (t : tree) (x y : K) : tree :=
  match t with
  | Leaf _ _ _ _ _ => t
  | Split n t1 t2 =>
      if nh n <? nw n then (if x <? nx n then find_node t1 x y else find_node t2 x y)
      else (if y <? ny n then find_node t1 x y else find_node t2 x y)
  end.

End Tree.
Arguments obj : clear implicits.
Arguments node : clear implicits.
Arguments tree : clear implicits.
Arguments mass : clear implicits.
