(** Model of the step log (libvvhd/src/MStepdata.cpp).  The HDF5 file is a table of
    datasets; losing what has not been flushed (lines 186-192) is not modelled. *)

From Coq Require Import List Arith ZArith Bool.
From Verif.Base Require Import Num.
Import ListNotations.
Local Open Scope num_scope.

(** [Throw]: an exception of [h5_throw].  [Undefined]: undefined behaviour. *)
Inductive outcome (A : Type) := Ok (a : A) | Throw | Undefined.
Arguments Ok {A}. Arguments Throw {A}. Arguments Undefined {A}.

Definition bind {A B} (o : outcome A) (f : A -> outcome B) : outcome B :=
  match o with Ok a => f a | Throw => Throw | Undefined => Undefined end.

(** The datasets of a body, lines 100-112: force_hydro, force_holder,
    force_friction, nusselt, holder_position, delta_position, speed_slae,
    pressure, friction. *)
Inductive quantity :=
| QHydro | QHolder | QFriction | QNusselt | QPosition | QSpring | QSpeed | QPressure | QShear.

(** "/time" and "/bodyNN/..." *)
Inductive path := PTime | PBody (n : nat) (q : quantity).

Definition quantity_eqb (a b : quantity) : bool :=
  match a, b with
  | QHydro, QHydro | QHolder, QHolder | QFriction, QFriction | QNusselt, QNusselt
  | QPosition, QPosition | QSpring, QSpring | QSpeed, QSpeed
  | QPressure, QPressure | QShear, QShear => true
  | _, _ => false
  end.
Definition path_eqb (a b : path) : bool :=
  match a, b with
  | PTime, PTime => true
  | PBody n q, PBody m r => Nat.eqb n m && quantity_eqb q r
  | _, _ => false
  end.

Section Log.
Context {K : Num}.
Variable V : Type.              (* what a dataset holds: float *)
Variable conv : K -> V.         (* double to float *)
Variable vltb : V -> V -> bool. (* < on float *)
Variable vnan : V.              (* f_nan, line 10 *)

(** A dataset: the largest and the current number of columns, the rows. *)
Record dset := mkDset { dmax : nat; dcols : nat; drows : list (list V) }.
Definition file := path -> option dset.
Definition none : file := fun _ => None.
Definition store (p : path) (d : dset) (f : file) : file := fun q => if path_eqb q p then Some d else f q.

(** H5Dset_extent: cuts or fills up with the fill value; fails above the
    largest size. *)
Definition fit (cols : nat) (row : list V) : list V := firstn cols row ++ repeat vnan (cols - length row).
Definition set_extent (d : dset) (rows cols : nat) : option dset :=
  if Nat.ltb (dmax d) cols then None
  else Some (mkDset (dmax d) cols
              (firstn rows (map (fit cols) (drows d)) ++ repeat (repeat vnan cols) (rows - length (drows d)))).

(** Lines 256-289.  A chunk of no columns makes the creation fail, the handle is
    then negative (not [true]); its value is not checked. *)
Definition h5d_init (f : file) (p : path) (rows cols : nat) : outcome (file * bool) :=
  match f p with
  | Some d => match set_extent d rows cols with
              | Some d => Ok (store p d f, true)
              | None => Throw
              end
  | None => match cols with
            | O => Ok (f, false)
            | _ => Ok (store p (mkDset cols cols (repeat (repeat vnan cols) rows)) f, true)
            end
  end.

(** Lines 73-76: rows before the first one that is not before [t].  The time
    dataset has a first column. *)
Fixpoint count_before (t : V) (rows : list (list V)) : nat :=
  match rows with
  | (v :: _) :: l => if vltb v t then S (count_before t l) else O
  | _ => O
  end.

(** The open log: the file, which handles are valid, [blsize], [b_save_profile]. *)
Record log := mkLog { lfile : file; lopen : path -> bool; lbodies : nat; lprofile : bool }.

Definition opened (p : path) (b : bool) (h : path -> bool) : path -> bool :=
  fun q => if path_eqb q p then b else h q.

(** [x = h5d_init(...)] *)
Definition init (p : path) (rows cols : nat) (l : log) : outcome log :=
  bind (h5d_init (lfile l) p rows cols) (fun '(f, b) =>
    Ok (mkLog f (opened p b (lopen l)) (lbodies l) (lprofile l))).
(** Lines 114-125: opened and closed again. *)
Definition shrink (p : path) (rows cols : nat) (l : log) : outcome log :=
  match lfile l p with
  | None => Ok l
  | Some _ => bind (h5d_init (lfile l) p rows cols) (fun '(f, _) =>
                Ok (mkLog f (lopen l) (lbodies l) (lprofile l)))
  end.

Definition vectors : list quantity := [QHydro; QHolder; QFriction; QPosition; QSpring; QSpeed].

Fixpoint init_all (n : nat) (qs : list quantity) (rows cols : nat) (l : log) : outcome log :=
  match qs with
  | [] => Ok l
  | q :: t => bind (init (PBody n q) rows cols l) (init_all n t rows cols)
  end.

(** Lines 82-128 for one body of [size] segments.  The name is written into eight
    bytes (TSpace.cpp:221-222), so the number has at most three digits.  The name is
    used after its string is gone (line 86); taken to be still there. *)
Definition init_body (n size rows : nat) (l : log) : outcome log :=
  if Nat.ltb 999 n then Undefined
  else
    bind (init_all n vectors rows 3 l) (fun l =>
      if lprofile l then
        bind (init (PBody n QPressure) rows size l) (fun l => init (PBody n QShear) rows size l)
      else
        bind (shrink (PBody n QPressure) rows size l) (fun l => shrink (PBody n QShear) rows size l)).

Fixpoint init_bodies (n : nat) (sizes : list nat) (rows : nat) (l : log) : outcome log :=
  match sizes with
  | [] => Ok l
  | s :: t => bind (init_body n s rows l) (init_bodies (S n) t rows)
  end.

(** Lines 12-129.  [old] is the file, [None] when it is not HDF5 (it is then
    replaced, line 43); [t] is [S->time]. *)
Definition open (old : option file) (t : K) (sizes : list nat) (profile : bool) : outcome log :=
  let f := match old with Some f => f | None => none end in
  let rows := match f PTime with Some d => count_before (conv t) (drows d) | None => O end in
  bind (init PTime rows 1 (mkLog f (fun _ => false) (length sizes) profile))
       (init_bodies 0 sizes rows).

(** What is logged of a body. *)
Record seg := mkSeg { cp : K; fr : K; nu : K }.
Definition triple := (K * K * K)%type.
Record values := mkValues {
  force_hydro : triple; force_holder : triple; friction : triple; nusselt : K;
  holder : triple; dpos : triple; speed_slae : triple; segs : list seg }.

Definition t3 (v : triple) : list K := let '(a, b, c) := v in [a; b; c].

(** Lines 200-254: one row more.  As many numbers are read from the buffer as
    the dataset has columns. *)
Definition append (l : log) (p : path) (buf : list K) : outcome log :=
  if lopen l p then
    match lfile l p with
    | None => Throw
    | Some d =>
        if Nat.ltb (length buf) (dcols d) then Undefined
        else Ok (mkLog (store p (mkDset (dmax d) (dcols d) (drows d ++ [map conv (firstn (dcols d) buf)])) (lfile l))
                       (lopen l) (lbodies l) (lprofile l))
    end
  else Ok l.

Fixpoint append_all (l : log) (w : list (path * list K)) : outcome log :=
  match w with
  | [] => Ok l
  | (p, buf) :: t => bind (append l p buf) (fun l => append_all l t)
  end.

(** What line 155 to 182 append, in order, for body [n]. *)
Definition body_writes (profile : bool) (dt : K) (n : nat) (b : values) : list (path * list K) :=
  [(PBody n QHydro, t3 (force_hydro b)); (PBody n QHolder, t3 (force_holder b));
   (PBody n QFriction, t3 (friction b)); (PBody n QNusselt, [nusselt b]);
   (PBody n QPosition, t3 (holder b)); (PBody n QSpring, t3 (dpos b)); (PBody n QSpeed, t3 (speed_slae b))]
  ++ (if profile then
        [(PBody n QPressure, map (fun s => cp s / dt) (segs b)); (PBody n QShear, map (fun s => fr s / dt) (segs b))]
      else []).

(** Line 156: a body numbered [blsize] has no handles. *)
Fixpoint bodies_writes (blsize : nat) (profile : bool) (dt : K) (n : nat) (bs : list values)
  : option (list (path * list K)) :=
  match bs with
  | [] => Some []
  | b :: t =>
      if Nat.eqb n blsize then None
      else match bodies_writes blsize profile dt (S n) t with
           | None => None
           | Some w => Some (if Nat.ltb blsize n then w else body_writes profile dt n b ++ w)
           end
  end.
Definition writes (l : log) (t dt : K) (bs : list values) : option (list (path * list K)) :=
  match bodies_writes (lbodies l) (lprofile l) dt 0 bs with
  | None => None
  | Some w => Some ((PTime, [t]) :: w)
  end.

(** Lines 149-193. *)
Definition write (l : log) (t dt : K) (bs : list values) : outcome log :=
  match writes l t dt bs with
  | None => Undefined
  | Some w => append_all l w
  end.

(** Line 178: the sums start again, if they are logged. *)
Definition zeroed (profile : bool) (b : values) : values :=
  mkValues (force_hydro b) (force_holder b) (friction b) (nusselt b) (holder b) (dpos b) (speed_slae b)
    (if profile then map (fun _ => mkSeg (nofZ 0%Z) (nofZ 0%Z) (nofZ 0%Z)) (segs b) else segs b).
End Log.
Arguments mkDset {V}. Arguments dmax {V}. Arguments dcols {V}. Arguments drows {V}.
Arguments file : clear implicits. Arguments none {V}.
Arguments mkLog {V}. Arguments lfile {V}. Arguments lopen {V}. Arguments lbodies {V}. Arguments lprofile {V}.
Arguments values : clear implicits. Arguments seg : clear implicits.
