(** What the lists of a script promise, in terms of what a script can see. *)

From Coq Require Import List ZArith Bool Arith.
From Verif Require Import Lua.Model.
Import ListNotations.

(** Who keeps a body alive: places in the body list and live userdata. *)
Definition holders (w : world) (b : nat) : nat :=
  List.length (filter (Nat.eqb b) (blist w)) +
  List.length (filter (fun h => match h with Some c => Nat.eqb b c | None => false end)
                 (handles w)).

(** Nothing a script can observe has changed. *)
Definition same (w w' : world) : Prop :=
  blist w' = blist w /\ handles w' = handles w /\ made w' = made w /\
  (forall b, uses w' b = uses w b) /\ (forall b, root w' b = root w b).

(** [l'] is [l] without its element [b], the others in their order. *)
Definition removed (b : nat) (l l' : list nat) : Prop :=
  exists l1 l2, l = l1 ++ b :: l2 /\ l' = l1 ++ l2 /\ ~ In b l1 /\ ~ In b l2.

(** The pairs [ipairs] must give for a list, counting from [i]. *)
Fixpoint numbered (i : Z) (l : list nat) : list (Z * nat) :=
  match l with
  | [] => []
  | b :: l => (i, b) :: numbered (i + 1) l
  end.

(** The value an argument of [append] has at the time of the call. *)
Definition value {A} (v : vec A) (a : arg A) : option A :=
  match a with
  | Table a => Some a
  | Obj r => if in_block r =? block v then nth_error (items v) (at_pos r) else None
  | Bad => None
  end.
