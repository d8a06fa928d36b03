(** What the properties of generated bodies refer to: curves made of straight
    segments and arcs, and tables of parameters. *)

From Coq Require Import ZArith Bool List String Reals.
From Verif.Base Require Import Num.
From Verif.Body Require Import Model Spec.
From Verif.Gen Require Import Model.
Import ListNotations.
Local Open Scope R_scope.

(** * Curves *)

(** The point of a piece at the fraction [s] of its way. *)
Definition along (p : piece RNum) (s : R) : pt :=
  match p with
  | Seg p1 p2 _ _ => P (px p1 + s * (px p2 - px p1)) (py p1 + s * (py p2 - py p1))
  | Arc c r a1 a2 _ _ | ArcN c r a1 a2 _ _ =>
      P (px c + r * cos (a1 + s * (a2 - a1))) (py c + r * sin (a1 + s * (a2 - a1)))
  end.

(** Its length. *)
Definition len (p : piece RNum) : R :=
  match p with
  | Seg p1 p2 _ _ => dist p1 p2
  | Arc _ r a1 a2 _ _ | ArcN _ r a1 a2 _ _ => r * Rabs (a2 - a1)
  end.

(** The wanted distance of corners. *)
Definition step (p : piece RNum) : R :=
  match p with
  | Seg _ _ d _ | Arc _ _ _ _ d _ => d
  | ArcN _ r a1 a2 n _ => r * Rabs (a2 - a1) / INR n
  end.

(** Every piece ends where the next one begins, the last where the first one does. *)
Definition closed (l : list (piece RNum)) : Prop :=
  forall p q, In (p, q) (edges l) -> along p 1 = along q 0.

(** [z] is the integer nearest to [v], the larger of two. *)
Definition nearest (v : R) (z : Z) : Prop := IZR z - 1 / 2 <= v < IZR z + 1 / 2.

(** The polygon inscribed in a piece with [n] corners. *)
Definition cuts (p : piece RNum) (n : nat) : list (pt * pt) :=
  map (fun i => (along p (INR i / INR n), along p (INR (S i) / INR n))) (seq 0 n).

(** A turn to the right at [b] on the way from [a] to [c]. *)
Definition right_turn (a b c : pt) : Prop :=
  (px b - px a) * (py c - py b) - (py b - py a) * (px c - px b) < 0.

(** * Tables *)

(** The value of a parameter, and the absence of it. *)
Definition given {K} (t : table K) (s : string) (v : K) : Prop := field s t = Some (Some v).
Definition absent {K} (t : table K) (s : string) : Prop := field s t = None.
(** No other keys. *)
Definition only {K} (t : table K) (names : list string) : Prop :=
  forall k v, In (k, v) t -> exists s, In s names /\ k = Name s.

Definition points (l : list (vec RNum * bool)) : list pt := map fst l.

(** A call that does not end with a Lua error. *)
Definition accepts {A} (o : outcome A) : Prop := forall e, o <> Err e.

(** A parameter is there and is a finite number in the range. *)
Definition in_range {K : Num} (t : table K) (s : string) (lo hi v : K) : Prop :=
  given t s v /\ nfinite v = true /\ nltb v lo = false /\ nltb hi v = false.

(** ... or is not there and [d] is taken. *)
Definition in_range_or {K : Num} (d : K) (t : table K) (s : string) (lo hi v : K) : Prop :=
  in_range t s lo hi v \/ absent t s /\ v = d.

(** Either N or dl. *)
Definition n_or_dl {K : Num} (lib : libm K) (t : table K) (n d : K) : Prop :=
  in_range t "N" (nofZ 1) (nofZ (2^63 - 1)) n /\ absent t "dl" /\ d = nofZ 0 \/
  absent t "N" /\ in_range t "dl" (dblmin lib) (dblinf lib) d /\ n = nofZ 0.

Definition pos {K : Num} (lib : libm K) (t : table K) (s : string) (v : K) : Prop :=
  in_range t s (dblmin lib) (dblinf lib) v.

(** A regular polygon with [n] corners at the distance [r] from the origin,
    clockwise from (r, 0). *)
Definition regular (r : R) (n : nat) (l : list pt) : Prop :=
  List.length l = n /\
  forall i, (i < n)%nat -> nth_error l i = Some (P (r * cos (2 * PI * INR i / INR n)) (- (r * sin (2 * PI * INR i / INR n)))).

(** The integer part of a number. *)
Definition whole (v : R) (z : Z) : Prop := IZR z <= v < IZR z + 1.
