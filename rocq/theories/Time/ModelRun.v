(** Model of the code that converts, assigns and advances times:
    libvvhd/headers/TTime.hpp:22-31,54; utils/vvflow/getset.cpp:64-116;
    utils/vvflow/vvflow.cpp:214-266; libvvhd/src/TSpace.cpp:71-72. *)

From Coq Require Import ZArith Bool List.
From Verif.Base Require Import Int Num.
From Verif.Time Require Import Model.
Import ListNotations.
Local Open Scope Z_scope.

(** TTime.hpp:54 — [operator double]. Both conversions are exact. *)
Definition to_double (t : ttime) : f64 := @ndiv F64 (f64_ofZ (value t)) (f64_ofZ (timescale t)).

(** TTime.hpp:22-31 — [makeWithSecondsDecimal].  [int32_t(x)] of an
    out-of-range or NaN double is undefined behaviour: [None]. *)
Definition cast (seconds : f64) (ts : Z) : option Z :=
  f64_to_i32 (@nmul F64 seconds (f64_ofZ ts)).

(** Lines 25-26.  The loop ends after at most 9 multiplications, [fuel] counts
    them; 0x19999999 = 429496729. *)
Fixpoint grow (fuel : nat) (seconds : f64) (ts : Z) : option Z :=
  match cast seconds ts with
  | None => None
  | Some v =>
      if negb (@neqb F64 (@ndiv F64 (f64_ofZ v) (f64_ofZ ts)) seconds) && (ts <? 429496729)
      then match fuel with
           | O => None
           | S k => grow k seconds (u32 (ts * 10))
           end
      else Some ts
  end.

(** Lines 27-28. *)
Fixpoint shrink (fuel : nat) (seconds : f64) (ts : Z) : option Z :=
  match cast seconds ts with
  | None => None
  | Some v =>
      if (Z.rem v 10 =? 0) && (1 <? ts)
      then match fuel with
           | O => None
           | S k => shrink k seconds (ts / 10)
           end
      else Some ts
  end.

Definition make_decimal (seconds : f64) : option ttime :=
  match grow 10 seconds 1 with
  | None => None
  | Some ts =>
      match shrink 10 seconds ts with
      | None => None
      | Some ts' =>
          match cast seconds ts' with
          | None => None
          | Some v => Some (mkTime v ts')
          end
      end
  end.

(** getset.cpp:64-116 — [luavvd_setTTime].  The Lua value at stack position 2:
    a number; a table, given by the integers [lua_tointegerx] makes of its
    entries (64-bit, fractions cut off, [None] when not a number; only tables of raw length 2
    are looked into); a string, given by what [sscanf("%d/%u %n")] makes of it
    (number of conversions, stored values, whether [s[slen]] is the final
    NUL); or anything else. *)
Record scan := mkScan { conversions : Z; scan_value : Z; scan_timescale : Z; at_end : bool }.

Inductive lua_value :=
| LNumber (x : f64)
| LTable (len : nat) (e1 e2 : option Z)
| LString (s : scan)
| LOther.

Inductive outcome :=
| Stored (t : ttime)      (* *t = nt; return 0 *)
| Rejected                (* error message pushed; return 1 *)
| Undefined.              (* undefined behaviour *)

Definition set_ttime (v : lua_value) : outcome :=
  match v with
  | LNumber x =>                                              (* lines 70-72 *)
      match make_decimal x with Some t => Stored t | None => Undefined end
  | LTable len e1 e2 =>                                       (* lines 73-93 *)
      if negb (Nat.eqb len 2) then Rejected
      else match e1, e2 with
           | Some a, Some b =>
               if b <? 1 then Rejected                        (* line 88: 64-bit test *)
               else Stored (mkTime (i32 a) (u32 b))           (* lines 81-82: narrowing *)
           | _, _ => Rejected
           end
  | LString s =>                                              (* lines 94-110 *)
      if (conversions s <? 2) || negb (at_end s) then Rejected
      else if scan_timescale s <? 1 then Rejected
      else Stored (mkTime (scan_value s) (scan_timescale s))
  | LOther => Rejected                                        (* lines 113-115 *)
  end.

(** The stored member after an assignment; [None] after undefined behaviour. *)
Definition assign (t : ttime) (v : lua_value) : option ttime :=
  match set_ttime v with
  | Stored t' => Some t'
  | Rejected => Some t
  | Undefined => None
  end.

Fixpoint assigns (t : ttime) (vs : list lua_value) : option ttime :=
  match vs with
  | [] => Some t
  | v :: vs => match assign t v with
               | Some t' => assigns t' vs
               | None => None
               end
  end.

(** TSpace.cpp:72 — the number [int(time/dt+0.5)] put into the file name.
    [time/dt] divides two doubles. *)
Definition file_number (time dt : ttime) : option Z :=
  f64_to_i32 (@nadd F64 (@ndiv F64 (to_double time) (to_double dt)) (f64_dec 5 1)).

(** vvflow.cpp:214-266 — the clock side of [simulate].  Only the members read
    by lines 214, 231, 262 are kept: the work done in between changes neither
    the times nor [finish].  [entry] is one iteration: the time at its start
    and the save decision of line 231. *)
Record entry := mkEntry { at_time : ttime; saved : bool }.

Inductive run_result :=
| Finished (log : list entry) (time : ttime)
| Crashed (log : list entry)        (* division by zero in time arithmetic *)
| OutOfFuel (log : list entry).

(** Line 214: [S.time < S.finish + S.dt/2], doubles. *)
Definition goes_on (time dt : ttime) (finish : f64) : bool :=
  @nltb F64 (to_double time)
            (@nadd F64 finish (@ndiv F64 (to_double dt) (f64_ofZ 2))).

(** Line 231. *)
Definition save_now (time dt_save : ttime) : option bool :=
  match divisibleBy time dt_save with
  | Some d => Some (d && @nleb F64 (f64_ofZ 0) (to_double time))
  | None => None
  end.

Fixpoint simulate (fuel : nat) (log : list entry) (time dt dt_save : ttime) (finish : f64) : run_result :=
  if goes_on time dt finish then
    match fuel with
    | O => OutOfFuel log
    | S k =>
        match save_now time dt_save with
        | None => Crashed log
        | Some b =>
            let log' := log ++ [mkEntry time b] in
            match add time dt with
            | None => Crashed log'
            | Some time' => simulate k log' time' dt dt_save finish
            end
        end
    end
  else Finished log time.
