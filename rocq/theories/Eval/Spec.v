(** What an expression object should do: remember a text, nothing else. *)

From Coq Require Import ZArith Bool List String.
From Flocq Require Import IEEE754.BinarySingleNaN.
From Verif.Base Require Import Num.
From Verif.Eval Require Import Model.
Import ListNotations.
Local Open Scope string_scope.

Section Spec.

(** The meaning of a text as a function of time; [None]: it does not compile. *)
Variable meaning : string -> option (f64 -> outcome).

Definition acceptable (s : string) : bool :=
  match meaning s with
  | Some f => match f (f64_ofZ 0%Z) with Number _ => true | _ => false end
  | None => false
  end.

Definition value_of (s : string) (t : f64) : answer :=
  if String.eqb s "" then Value (f64_ofZ 0%Z)
  else match meaning s with
       | Some f => match f t with Number x => Value x | _ => Failed end
       | None => Failed
       end.

Definition set_text (txt : nat -> string) (i : nat) (s : string) : (nat -> string) * answer :=
  if String.eqb s "" || acceptable s
  then ((fun k => if Nat.eqb k i then s else txt k), Done)
  else (txt, Failed).

Definition spec_step (txt : nat -> string) (x : op) : (nat -> string) * answer :=
  match x with
  | Create i => ((fun k => if Nat.eqb k i then "" else txt k), Done)
  | Assign i s => set_text txt i s
  | Copy i j => set_text txt i (txt j)
  | Eval i t => (txt, value_of (txt i) t)
  end.

Fixpoint spec_run (txt : nat -> string) (l : list op) : list answer :=
  match l with
  | [] => []
  | x :: t => let '(txt', a) := spec_step txt x in a :: spec_run txt' t
  end.

End Spec.
