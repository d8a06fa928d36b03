(** Model of [getopt_long] of the C library, as its manual describes it for the
    calls in utils/*/optparse.cpp: options and other arguments may be mixed, long
    names may be abbreviated, [--] ends the options.

    Simplified: the variable POSIXLY_CORRECT is not set. *)

From Coq Require Import List ZArith Bool String Ascii.
Import ListNotations.
Local Open Scope string_scope.

(** [struct option]: [flag] is the name of the variable pointed to. *)
Record lopt := mkLong { lname : string; has_arg : bool; flag : option string; val : Z }.
(** The letters of the second argument, [true] for those followed by a colon. *)
Definition letters := list (ascii * bool).

(** What one call returns: a letter with [optarg], or the number of a long
    option with [optarg], or '?'. *)
Inductive event := Short (c : ascii) (optarg : option string) | Long (index : nat) (optarg : option string) | Unknown.

Fixpoint find_letter (l : letters) (c : ascii) : option bool :=
  match l with
  | [] => None
  | (d, a) :: l => if Ascii.eqb c d then Some a else find_letter l c
  end.

(** The letters behind a dash. The last one may want the next argument. *)
Fixpoint cluster (l : letters) (s : string) : list event * option ascii :=
  match s with
  | "" => ([], None)
  | String c rest =>
      match find_letter l c with
      | None => let '(evs, last) := cluster l rest in (Unknown :: evs, last)
      | Some false => let '(evs, last) := cluster l rest in (Short c None :: evs, last)
      | Some true => if String.eqb rest "" then ([], Some c) else ([Short c (Some rest)], None)
      end
  end.

(** name and =value. *)
Fixpoint split_eq (s : string) : string * option string :=
  match s with
  | "" => ("", None)
  | String c s => if Ascii.eqb c "=" then ("", Some s) else let '(n, v) := split_eq s in (String c n, v)
  end.

Definition oeqb (a b : option string) : bool :=
  match a, b with None, None => true | Some x, Some y => String.eqb x y | _, _ => false end.
Definition same_meaning (a b : lopt) : bool := Bool.eqb (has_arg a) (has_arg b) && oeqb (flag a) (flag b) && Z.eqb (val a) (val b).

Fixpoint numbered {A} (i : nat) (l : list A) : list (nat * A) :=
  match l with [] => [] | a :: l => (i, a) :: numbered (S i) l end.
(** The option meant: an exact name, else the first that begins so, if all that
    begin so mean the same. *)
Definition find_long (l : list lopt) (name : string) : option (nat * lopt) :=
  match find (fun o => String.eqb (lname (snd o)) name) (numbered 0 l) with
  | Some o => Some o
  | None =>
      match filter (fun o => String.prefix name (lname (snd o))) (numbered 0 l) with
      | [] => None
      | o :: others => if forallb (fun p => same_meaning (snd o) (snd p)) others then Some o else None
      end
  end.

(** All calls on the arguments behind the name of the program: what they return,
    and the arguments that remain. *)
Fixpoint getopt (ls : letters) (ll : list lopt) (args : list string) {struct args} : list event * list string :=
  match args with
  | [] => ([], [])
  | a :: rest =>
      if String.eqb a "--" then ([], rest)
      else match a with
           | String "-" (String "-" text) =>
               let '(name, value) := split_eq text in
               match find_long ll name with
               | None => let '(evs, others) := getopt ls ll rest in (Unknown :: evs, others)
               | Some (i, o) =>
                   match has_arg o, value with
                   | false, None => let '(evs, others) := getopt ls ll rest in (Long i None :: evs, others)
                   | false, Some _ => let '(evs, others) := getopt ls ll rest in (Unknown :: evs, others)
                   | true, Some v => let '(evs, others) := getopt ls ll rest in (Long i (Some v) :: evs, others)
                   | true, None =>
                       match rest with
                       | [] => ([Unknown], [])
                       | v :: rest => let '(evs, others) := getopt ls ll rest in (Long i (Some v) :: evs, others)
                       end
                   end
               end
           | String "-" (String c text) =>
               let '(first, last) := cluster ls (String c text) in
               match last with
               | None => let '(evs, others) := getopt ls ll rest in (app first evs, others)
               | Some c =>
                   match rest with
                   | [] => (app first [Unknown], [])
                   | v :: rest => let '(evs, others) := getopt ls ll rest in (app first (Short c (Some v) :: evs), others)
                   end
               end
           | _ => let '(evs, others) := getopt ls ll rest in (evs, a :: others)
           end
  end.
