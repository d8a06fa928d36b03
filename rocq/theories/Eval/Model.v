(** Model of [class TEval], libvvhd/src/TEval.cpp: expressions of time with a
    two-entry cache.  Lua is a parameter. *)

From Coq Require Import ZArith Bool List String.
From Flocq Require Import IEEE754.BinarySingleNaN.
From Verif.Base Require Import Num.
Import ListNotations.
Local Open Scope string_scope.

(** What a called chunk yields: a value convertible to a number
    ([lua_tonumberx]), another value, or a run-time error. *)
Inductive outcome := Number (x : f64) | NotNumber | Error.

(** Result of an operation on an object.  [Failed] is [invalid_argument]; when
    thrown from [eval] it leaves an omp critical region, which gcc turns into
    [std::terminate]: nothing is claimed about the state after it. *)
Inductive answer := Done | Value (x : f64) | Failed.

Section Machine.

Variable lua : Type.                             (* the global state of one interpreter *)
Variable lua_init : lua.                         (* TEval.cpp:29-92 *)
Variable chunk : Type.
Variable load : string -> option chunk.          (* luaL_loadbuffer *)
Variable call : lua -> chunk -> f64 -> lua * outcome.   (* [t] set, then lua_pcall *)

(** TEval.hpp:22-28.  [evaluator] is the Lua global [_evaluator]. *)
Record teval := mkEval {
  state : lua;
  expr : string;
  evaluator : option chunk;
  time1 : f64; time2 : f64; value1 : f64; value2 : f64
}.

(** TEval.cpp:29-36. *)
Definition new : teval := mkEval lua_init "" None f64_nan f64_nan (f64_ofZ 0%Z) (f64_ofZ 0%Z).

(** TEval.cpp:126-138. *)
Definition compile (s : string) : option chunk :=
  match load ("return " ++ s) with
  | Some c => Some c
  | None => load s
  end.

(** TEval.cpp:117-161.  An exception leaves [expr], the cache and [_evaluator]
    as they are, but not the effects of the trial call. *)
Definition assign (o : teval) (s : string) : teval * answer :=
  if String.eqb s "" then
    (mkEval (state o) "" None (time1 o) (time2 o) (value1 o) (value2 o), Done)     (* 119-124 *)
  else match compile s with
  | None => (o, Failed)                                                            (* 132-136 *)
  | Some c =>
      let '(l, r) := call (state o) c (f64_ofZ 0%Z) in                                (* 138-151 *)
      match r with
      | Number _ => (mkEval l s (Some c) f64_nan f64_nan (value1 o) (value2 o), Done)  (* 153-156 *)
      | _ => (mkEval l (expr o) (evaluator o) (time1 o) (time2 o) (value1 o) (value2 o), Failed)
      end
  end.

(** TEval.cpp:163-204.  Calling the nil [_evaluator] is a run-time error. *)
Definition eval (o : teval) (t : f64) : teval * answer :=
  if String.eqb (expr o) "" then (o, Value (f64_ofZ 0%Z))
  else if @neqb F64 t (time2 o) then (o, Value (value2 o))
  else if @neqb F64 t (time1 o) then (o, Value (value1 o))
  else match evaluator o with
  | None => (o, Failed)
  | Some c =>
      let '(l, r) := call (state o) c t in
      match r with
      | Number x => (mkEval l (expr o) (evaluator o) t (time1 o) x (value1 o), Value x)
      | _ => (mkEval l (expr o) (evaluator o) (time1 o) (time2 o) (value1 o) (value2 o), Failed)
      end
  end.

(** Objects are numbered.  TEval.cpp:99-113: copy construction and copy
    assignment assign the text; [Create] replaces an object by a new one. *)
Inductive op :=
| Create (i : nat)
| Assign (i : nat) (s : string)
| Copy (i j : nat)
| Eval (i : nat) (t : f64).

Definition update {A} (f : nat -> A) (i : nat) (a : A) : nat -> A :=
  fun k => if Nat.eqb k i then a else f k.

Definition step (st : nat -> teval) (x : op) : (nat -> teval) * answer :=
  match x with
  | Create i => (update st i new, Done)
  | Assign i s => let '(o, a) := assign (st i) s in (update st i o, a)
  | Copy i j => let '(o, a) := assign (st i) (expr (st j)) in (update st i o, a)
  | Eval i t => let '(o, a) := eval (st i) t in (update st i o, a)
  end.

Fixpoint run (st : nat -> teval) (l : list op) : list answer :=
  match l with
  | [] => []
  | x :: t => let '(st', a) := step st x in a :: run st' t
  end.

Fixpoint after (st : nat -> teval) (l : list op) : nat -> teval :=
  match l with
  | [] => st
  | x :: t => after (fst (step st x)) t
  end.

Definition start : nat -> teval := fun _ => new.

End Machine.
