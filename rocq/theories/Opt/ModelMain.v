(** Model of how vvflow ends: utils/vvflow/vvflow.cpp:137-175 (main),
    177-192 and 214-272 (simulate); utils/vvflow/lua_space.cpp:8-26,77-98.

    A [program] is what the interpreter does with the program: a tree of its
    calls into the program, with the answers it goes on from.  Files, the work
    of a step and the saving of files are given from outside.  Lua 5.2 is
    built as C: a C++ exception that leaves a function called from Lua finds
    no handler, neither in [pcall] nor in main, and ends the program by
    abort().  A Lua error is a jump to the nearest [pcall]. *)

From Coq Require Import ZArith Bool String List.
From Verif.Base Require Import Num.
From Verif.Time Require Import Model ModelRun.
From Verif.Opt Require Import Getopt Model.
Import ListNotations.
Local Open Scope Z_scope.

(** What [simulate] reads of the space. *)
Record members := mkMembers { re : f64; time : ttime; dt : ttime; dt_save : ttime; finish : f64 }.

(** How the program ends; [Endless] when it does not. *)
Inductive ending := Status (n : Z) | Abort | Endless.
(** exit(n): the lower 8 bits are seen. *)
Definition exit (n : Z) : ending := Status (n mod 256).

(** What a call of [simulate] came to. *)
Inductive answer :=
| Calculated (log : list entry) (t : ttime)     (* line 271 *)
| Refused                                       (* lines 188-189 *)
| Cut.                                          (* the program ended *)

Record world := mkWorld { mem : members; asked : list (members * answer) }.

Inductive program :=
| Return                                                          (* the chunk ends *)
| Raise                                                           (* a Lua error *)
| OsExit (n : Z)
| Use (f : members -> option members) (k : members -> program)     (* members read or assigned; refused: lines 89-91 *)
| Load (file : string) (k : program)
| Save (file : string) (k : program)
| Simulate (k : program)
| Pcall (body ok bad : program).

Inductive result := Ended (w : world) | Raised (w : world) | Stopped (w : world) (e : ending).

Inductive loaded := Loaded (m : members) | LoadThrows | LoadExits (n : Z).
Inductive savings := Saved | SaveInvalid | SaveThrows.
Inductive works := Works | WorkThrows | WorkExits (n : Z).
(** H5Fis_hdf5: positive, zero, negative when the file cannot be opened. *)
Inductive htri := Yes | No | Fails.

Section Main.
Variable load_file : string -> members -> loaded.
Variable save_file : string -> members -> savings.
Variable work : members -> nat -> works.      (* step number [k] of a calculation begun with these members *)
Variable is_hdf5 : string -> htri.
Variable chunk : string -> option program.     (* [None]: the file has a syntax error *)
Variable fuel : nat.

Fixpoint first_failure (m : members) (k n : nat) : works :=
  match n with
  | O => Works
  | S n => match work m k with Works => first_failure m (S k) n | x => x end
  end.

(** Lines 187-192: NaN passes; lines 214-272.  A negative number of results
    counts as none. *)
Definition simulate_call (w : world) : result :=
  let m := mem w in
  let told a := mkWorld m (asked w ++ [(m, a)]) in
  if @nleb F64 (re m) (f64_ofZ 0) then Ended (told Refused)
  else
    let steps (log : list entry) (last : result) :=
      match first_failure m 0 (length log) with
      | Works => last
      | WorkThrows => Stopped (told Cut) Abort
      | WorkExits n => Stopped (told Cut) (exit n)
      end in
    match simulate fuel [] (time m) (dt m) (dt_save m) (finish m) with
    | Finished log t =>
        steps log (Ended (mkWorld (mkMembers (re m) t (dt m) (dt_save m) (finish m)) (asked w ++ [(m, Calculated log t)])))
    | Crashed log => steps log (Stopped (told Cut) Abort)
    | OutOfFuel log => steps log (Stopped (told Cut) Endless)
    end.

Fixpoint exec (s : program) (w : world) : result :=
  match s with
  | Return => Ended w
  | Raise => Raised w
  | OsExit n => Stopped w (exit n)
  | Use f k => match f (mem w) with Some m => exec (k m) (mkWorld m (asked w)) | None => Raised w end
  | Load file k =>                                   (* lua_space.cpp:8-14: no try *)
      match load_file file (mem w) with
      | Loaded m => exec k (mkWorld m (asked w))
      | LoadThrows => Stopped w Abort
      | LoadExits n => Stopped w (exit n)
      end
  | Save file k =>                                   (* 16-26 *)
      match save_file file (mem w) with
      | Saved => exec k w
      | SaveInvalid => Raised w
      | SaveThrows => Stopped w Abort
      end
  | Simulate k => match simulate_call w with Ended w => exec k w | r => r end
  | Pcall body ok bad =>
      match exec body w with
      | Ended w => exec ok w
      | Raised w => exec bad w
      | r => r
      end
  end.

(** Lines 167-174. *)
Definition finish_main (r : result) : world * ending :=
  match r with
  | Ended w => (w, exit 0)
  | Raised w => (w, exit 8)
  | Stopped w e => (w, e)
  end.

(** Lines 137-175 for the space [m] made by luaopen_space. *)
Definition vvflow (m : members) (args : list string) : world * ending :=
  let w := mkWorld m [] in
  match flow_parse args with
  | Exit n => (w, exit n)
  | Go l =>
      match is_hdf5 (script l) with
      | No => match chunk (script l) with
              | Some s => finish_main (exec s w)
              | None => finish_main (Raised w)
              end
      | _ => match load_file (script l) m with          (* any nonzero value counts as true *)
             | Loaded m => finish_main (exec (Simulate Return) (mkWorld m []))
             | LoadThrows => (w, Abort)
             | LoadExits n => (w, exit n)
             end
      end
  end.
End Main.
