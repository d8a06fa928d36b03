(** Independent statements about the text printed by vvxtract. *)

From Coq Require Import List ZArith Bool String Ascii.
From Verif Require Import Xtract.Model.
Import ListNotations.
Local Open Scope string_scope.

(** A text without the character [c]. *)
Definition without (c : ascii) (s : string) : Prop := ~ In c (list_ascii_of_string s).
Definition newline : ascii := "010".
Definition tabulator : ascii := "009".

(** [s] consists of the pieces [l], each ended by the character [c]. *)
Definition pieces (c : ascii) (l : list string) (s : string) : Prop :=
  Forall (without c) l /\ s = String.concat "" (map (fun x => x ++ String c "") l).

(** Blanks in the eyes of awk. *)
Definition blank (c : ascii) : bool := Ascii.eqb c " " || Ascii.eqb c "009" || Ascii.eqb c "010".

(** The fields of a line by awk with the default separator: the maximal runs
    of characters other than blanks. [w] is the run so far. *)
Fixpoint split_from (w : string) (s : string) : list string :=
  match s with
  | "" => match w with "" => [] | _ => [w] end
  | String c s =>
      if blank c then match w with "" => split_from "" s | _ => w :: split_from "" s end
      else split_from (w ++ String c "") s
  end.
Definition awk_fields (s : string) : list string := split_from "" s.

Section Table.
Context {V : Type}.

(** The place of the first column of dataset [k]: the columns of those before. *)
Definition columns (ds : list (@dataset V)) : nat := list_sum (map cols ds).
Definition place (ds : list (@dataset V)) (k : nat) : nat := columns (firstn k ds).

(** The value in row [i] and column [j], the array is stored by rows. *)
Definition value (d : @dataset V) (i j : nat) (v : V) : Prop := nth_error (mem d) (cols d * i + j) = Some v.

(** The array has all its elements. *)
Definition complete (d : @dataset V) : Prop := List.length (mem d) = (rows d * cols d)%nat.

(** The dataset found for a name. *)
Definition holds (f : @file V) (a : string) (d : @dataset V) : Prop :=
  name d = a /\ find f a = Array (rows d) (cols d) (mem d).

(** The library fills the array it was given. *)
Definition full (f : @file V) : Prop := forall a r c m, find f a = Array r c m -> List.length m = (r * c)%nat.

(** The greatest number of rows. *)
Definition longest (ds : list (@dataset V)) (n : nat) : Prop :=
  (forall d, In d ds -> rows d <= n)%nat /\ (n = 0%nat \/ exists d, In d ds /\ rows d = n).

(** The heading of column [j]. *)
Definition titled (d : @dataset V) (j : nat) (s : string) : Prop :=
  (cols d = 1%nat -> s = name d) /\ (cols d <> 1%nat -> s = name d ++ "[" ++ decimal (S j) ++ "]").

(** What the cell in row [i] and column [j] shows: the value, 13 blanks past the end. *)
Definition shown (fmt : V -> string) (d : @dataset V) (i j : nat) (s : string) : Prop :=
  ((i < rows d)%nat -> exists v, value d i j v /\ s = fmt v) /\
  ((rows d <= i)%nat -> s = "             ").

(** An entry that cannot be shown, with the exit code. *)
Definition bad (x : @found V) (code : nat) : Prop :=
  x = Missing /\ code = 3%nat \/ x <> Missing /\ (forall r c m, x <> Array r c m) /\ code = 5%nat.
End Table.

(** A body that can be shown. *)
Definition showable (s : ispace) (b : ibody) : Prop :=
  label b <> "" /\ slips b <> [] /\
  forall i, root b = Some i -> exists r, nth_error (bodies s) i = Some r /\ label r <> "".

(** The lines with the number of elements of the lists, the slip condition and
    the root of a body. *)
Definition shows_slip (b : ibody) (l : string) : Prop :=
  l = label b ++ ".slip = false -- no-slip" /\ (forall x, In x (slips b) -> x = 0%Z) \/
  l = label b ++ ".slip = true -- slip" /\ (forall x, In x (slips b) -> x = 1%Z) \/
  l = label b ++ ".slip = nil -- mixed" /\ (exists x y, In x (slips b) /\ In y (slips b) /\ x <> y).
Definition shows_root (s : ispace) (b : ibody) (l : string) : Prop :=
  root b = None /\ l = label b ++ ".root = nil" \/
  exists i r, root b = Some i /\ nth_error (bodies s) i = Some r /\ l = label b ++ ".root = " ++ label r.
