(** What the step log should hold, in terms of the values of the steps. *)

From Coq Require Import List Arith Bool Lia.
From Verif.Base Require Import Num.
From Verif.Log Require Import Model.
Import ListNotations.

(** A run logs the time, six vectors of each body and, if asked for, two numbers
    per segment of each body that has any. *)
Inductive logged (profile : bool) (sizes : list nat) : path -> nat -> Prop :=
| LTime : logged profile sizes PTime 1
| LVector n q : n < length sizes ->
    In q [QHydro; QHolder; QFriction; QPosition; QSpring; QSpeed] -> logged profile sizes (PBody n q) 3
| LProfile n q s : profile = true -> nth_error sizes n = Some s -> s <> 0 ->
    In q [QPressure; QShear] -> logged profile sizes (PBody n q) s.

(** The leading rows of a table whose first number is before [t]. *)
Definition leading {V} (before : V -> bool) (rows : list (list V)) (k : nat) : Prop :=
  k <= length rows /\
  (forall i, i < k -> exists v r, nth_error rows i = Some (v :: r) /\ before v = true) /\
  (forall v r, nth_error rows k = Some (v :: r) -> before v = false).

Section Steps.
Context {K : Num}.
Variable V : Type.
Variable conv : K -> V.

(** A step: time, length of the step, the bodies. *)
Record step := mkStep { stime : K; sdt : K; sbodies : list (values K) }.

Definition triple_row (v : K * K * K) : list V := let '(a, b, c) := v in [conv a; conv b; conv c].

(** The row a step leaves in a dataset. *)
Definition row_of (s : step) (p : path) : list V :=
  match p with
  | PTime => [conv (stime s)]
  | PBody n q =>
      match nth_error (sbodies s) n with
      | None => []
      | Some b =>
          match q with
          | QHydro => triple_row (force_hydro b)
          | QHolder => triple_row (force_holder b)
          | QFriction => triple_row (friction b)
          | QNusselt => [conv (nusselt b)]
          | QPosition => triple_row (holder b)
          | QSpring => triple_row (dpos b)
          | QSpeed => triple_row (speed_slae b)
          | QPressure => map (fun s' => conv (ndiv (cp s') (sdt s))) (segs b)
          | QShear => map (fun s' => conv (ndiv (fr s') (sdt s))) (segs b)
          end
      end
  end.

(** The bodies of a step have the given numbers of segments. *)
Definition fits_step (sizes : list nat) (s : step) : Prop := map (fun b => length (segs b)) (sbodies s) = sizes.
End Steps.
Arguments step : clear implicits.

Section Histories.
Context {K : Num}.
Variable V : Type.
Variable conv : K -> V.
Variable vltb : V -> V -> bool.
Variable vnan : V.

Fixpoint write_steps (l : log V) (ss : list (step K)) : outcome (log V) :=
  match ss with
  | [] => Ok l
  | s :: t => bind (write V conv l (stime s) (sdt s) (sbodies s)) (fun l => write_steps l t)
  end.

(** A step that stops after some of its rows. *)
Definition torn (l : log V) (s : step K) (m : nat) : outcome (log V) :=
  match writes V l (stime s) (sdt s) (sbodies s) with
  | None => Undefined
  | Some w => append_all V conv l (firstn m w)
  end.

(** The files runs leave behind.  The simulation goes through [steps]; a run starts
    at a step that has been logged or is the next one, logs [n] steps and then stops
    anywhere within the next, all up to step [N].  The number counts the steps
    logged completely. *)
Inductive log_of (steps : nat -> step K) (N : nat) (sizes : list nat) (profile : bool) : option (file V) -> nat -> Prop :=
| LogNew : log_of steps N sizes profile None 0
| LogRun f c k n m l l' l'' :
    log_of steps N sizes profile f c -> k <= c -> k + n <= N ->
    open V conv vltb vnan f (stime (steps k)) sizes profile = Ok l ->
    write_steps l (map steps (seq k n)) = Ok l' ->
    torn l' (steps (k + n)) m = Ok l'' ->
    log_of steps N sizes profile (Some (lfile l'')) (k + n).
End Histories.
