(** Model of [class TTime], libvvhd/headers/TTime.hpp, lines 6-87. *)

From Coq Require Import ZArith Bool.
From Verif.Base Require Import Int Loop.
Local Open Scope Z_scope.

(** TTime.hpp:10-11 — [int32_t value; uint32_t timescale].  The fields are
    stored as plain integers; [wf_time] below says they are in range. *)
Record ttime := mkTime { value : Z; timescale : Z }.

(** TTime.hpp:63-86 — [lcm].  State of the while loop of lines 69-84: [x], [y],
    [result], [k].  The answer [None] of the loop stands for a division by zero
    ([x%k] with [k = 0]), which is undefined behaviour.

    Simplified: the primality loop of line 72 is dropped.  It tests [!k%d],
    which C++ parses as [(!k)%d]; for [k <> 0] that is [0%d = 0], so
    [kIsPrime] is never cleared, and for [k = 0] the loop body never runs. *)
Record lcm_state := mkLcm { lx : Z; ly : Z; lres : Z; lk : Z }.

Definition lcm_body (s : lcm_state) : lcm_state + option Z :=
  let '(mkLcm x y result k) := s in
  if negb (x =? 1) || negb (y =? 1) then            (* line 69 *)
    if k =? 0 then inr None                          (* x%0: undefined *)
    else if (x mod k =? 0) || (y mod k =? 0) then    (* lines 74-75 *)
      if 2^31 / k <? result then inr (Some result)   (* line 77: "overflow" *)
      else inl (mkLcm (if x mod k =? 0 then x / k else x)
                      (if y mod k =? 0 then y / k else y)
                      (u32 (result * k)) 2)          (* lines 78-81 *)
    else inl (mkLcm x y result (u32 (k + 1)))        (* line 83 *)
  else inr (Some result).                            (* line 85 *)

(** Bound on the number of iterations; [lcm_total] in Proofs.v shows it is
    never reached for 32-bit arguments. *)
Definition lcm_fuel : positive := (2 ^ 100)%positive.

Definition lcm (x y : Z) : option Z :=
  if x =? y then Some x                              (* line 65 *)
  else if (x =? 0) || (y =? 0) then Some 1           (* line 66 *)
  else match loop lcm_body lcm_fuel (mkLcm x y 1 2) with
       | inr r => r
       | inl _ => None
       end.

(** TTime.hpp:33-40 — [add].  [int32*uint32] is computed in [uint32_t], the sum
    too, and the constructor converts to [int32_t].  [None]: division by zero. *)
Definition add (t1 t2 : ttime) : option ttime :=
  match lcm (timescale t1) (timescale t2) with
  | None => None
  | Some newTS =>
      if (timescale t1 =? 0) || (timescale t2 =? 0) then None
      else Some (mkTime
        (i32 (u32 (u32 (value t1 * (newTS / timescale t1))
                 + u32 (value t2 * (newTS / timescale t2)))))
        newTS)
  end.

(** TTime.hpp:42-51 — [divisibleBy].  64-bit signed arithmetic with truncating
    division; the products fit 64 bits since |value| <= 2^31 and lcm < 2^32.
    [None]: division or remainder by zero. *)
Definition divisibleBy (t d : ttime) : option bool :=
  if (value d =? 0) || (timescale d =? 0) then Some false
  else match lcm (timescale t) (timescale d) with
       | None => None
       | Some l =>
           if timescale t =? 0 then None
           else
             let den := Z.quot (value d * l) (timescale d) in
             if den =? 0 then None
             else Some (Z.rem (Z.quot (value t * l) (timescale t)) den =? 0)
       end.

(** TSpace.hpp:62-64 (finish_step) and vvflow.cpp:262 — one clock tick;
    [n] of them. *)
Fixpoint ticks (n : nat) (time dt : ttime) : option ttime :=
  match n with
  | O => Some time
  | S m => match add time dt with
           | None => None
           | Some t => ticks m t dt
           end
  end.
