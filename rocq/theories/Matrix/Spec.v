(** What the matrix should do. *)

From Coq Require Import ZArith Bool List.
From Verif.Matrix Require Import Model.
Import ListNotations.
Local Open Scope Z_scope.

(** The system last written, whatever was solved in between. *)
Fixpoint system (m r : list Z) (l : list op) : list Z * list Z :=
  match l with
  | [] => (m, r)
  | Fill m' r' :: t => system m' r' t
  | FillRight r' :: t => system m r' t
  | _ :: t => system m r t
  end.

(** The column a pointer was last assigned to. *)
Fixpoint last_col (acc : option nat) (p : Z) (l : list op) : option nat :=
  match l with
  | [] => acc
  | Set_ c q :: t => last_col (if q =? p then Some c else acc) p t
  | _ :: t => last_col acc p t
  end.

(** Which pointer each of the [n] columns holds. *)
Definition columns := nat -> option Z.
Definition col_step (h : columns * nat) (o : op) : columns * nat :=
  let '(f, n) := h in
  match o with
  | Resize k _ => ((fun c => if Nat.ltb c k then (if Nat.ltb c n then f c else None) else None), k)
  | Set_ c q => ((fun c' => if Nat.eqb c' c then Some q else f c'), n)
  | _ => h
  end.
Definition col_run (l : list op) : columns * nat := fold_left col_step l (fun _ => None, O).

(** No pointer is assigned to a column while another column holds it, and
    null is never assigned. *)
Fixpoint fresh_from (h : columns * nat) (l : list op) : Prop :=
  match l with
  | [] => True
  | o :: t =>
      match o with
      | Set_ c q => q <> 0 /\ forall c', c' <> c -> fst h c' <> Some q
      | _ => True
      end /\ fresh_from (col_step h o) t
  end.
Definition fresh (l : list op) : Prop := fresh_from (fun _ => None, O) l.

(** The sizes never decrease. *)
Fixpoint growing (n : nat) (l : list op) : Prop :=
  match l with
  | [] => True
  | Resize k _ :: t => (n <= k)%nat /\ growing k t
  | _ :: t => growing n t
  end.

(** Every matrix written fits the size at that moment. *)
Fixpoint fits (n : nat) (l : list op) : Prop :=
  match l with
  | [] => True
  | Resize k _ :: t => fits k t
  | Fill m r :: t => length m = (n * n)%nat /\ length r = n /\ fits n t
  | FillRight r :: t => length r = n /\ fits n t
  | _ :: t => fits n t
  end.

Definition written (l : list op) (m : list Z) : Prop := exists r, In (Fill m r) l.
