(** What the end of vvflow is to tell. *)

From Coq Require Import ZArith Bool String List.
From Verif.Base Require Import Num.
From Verif.Time Require Import Model ModelRun.
From Verif.Opt Require Import Getopt Model ModelMain.
Import ListNotations.
Local Open Scope Z_scope.

(** [k] steps of [d] after [t]. *)
Fixpoint after (k : nat) (t d : ttime) : option ttime :=
  match k with
  | O => Some t
  | S k => match after k t d with Some t' => add t' d | None => None end
  end.

(** A calculation that has come to its end: all steps before [finish] were
    made, at their times, and none failed. *)
Definition complete (work : members -> nat -> works) (m : members) (log : list entry) (t : ttime) : Prop :=
  (forall k e, nth_error log k = Some e ->
     after k (time m) (dt m) = Some (at_time e) /\ goes_on (at_time e) (dt m) (finish m) = true /\ work m k = Works) /\
  after (length log) (time m) (dt m) = Some t /\ goes_on t (dt m) (finish m) = false.

(** The script does not end the program itself with status [n]. *)
Fixpoint never_exits (n : Z) (s : program) : Prop :=
  match s with
  | Return | Raise => True
  | OsExit c => c mod 256 <> n
  | Use _ k => forall m, never_exits n (k m)
  | Load _ k | Save _ k | Simulate k => never_exits n k
  | Pcall a b c => never_exits n a /\ never_exits n b /\ never_exits n c
  end.

(** The codes of the calls of exit() in the library: TMatrix.cpp:61,71,103,202,
    212,230,247,254; TSpace_load_v13.cpp:56,144. *)
Definition load_codes (load_file : string -> members -> loaded) : Prop :=
  forall f m n, load_file f m = LoadExits n -> In n [1; -1].
Definition work_codes (work : members -> nat -> works) : Prop :=
  forall m k n, work m k = WorkExits n -> In n [3; 4; -2].

(** One part of a script behind another. *)
Fixpoint followed_by (k s : program) : program :=
  match s with
  | Return => k
  | Raise => Raise
  | OsExit n => OsExit n
  | Use f g => Use f (fun m => followed_by k (g m))
  | Load f t => Load f (followed_by k t)
  | Save f t => Save f (followed_by k t)
  | Simulate t => Simulate (followed_by k t)
  | Pcall a b c => Pcall a (followed_by k b) (followed_by k c)
  end.
