(** What the maps of vvplot should show, stated without the functions of Model.v. *)

From Coq Require Import List Reals ZArith Permutation Arith.
From Verif.Base Require Import Num.
From Verif.Body Require Import Model.
From Verif.Vortex Require Import Model.
From Verif.Map Require Import Model.
Import ListNotations.
Local Open Scope R_scope.

Notation rvec := (vec RNum).
Notation rpart := (@part RNum).
Notation rwall := (@wall RNum).
Notation rshape := (@shape RNum).
Notation rspace := (@space RNum).

(** ** Angles *)

(** What the C library says about atan2: the angle of the point (x, y). *)
Definition is_angle (y x t : R) : Prop :=
  - PI < t <= PI /\ x = sqrt (x * x + y * y) * cos t /\ y = sqrt (x * x + y * y) * sin t.
Definition principal (f : R -> R -> R) : Prop := forall y x, x <> 0 \/ y <> 0 -> is_angle y x (f y x).

(** A function with this property. *)
Definition Ratan2 (y x : R) : R :=
  if Rlt_dec 0 x then atan (y / x)
  else if Rlt_dec 0 y then PI / 2 - atan (x / y)
  else if Rlt_dec y 0 then - (PI / 2) - atan (x / y)
  else if Rlt_dec x 0 then PI else 0.

(** The angle under which the step from [a] to [b] is seen from the origin. *)
Definition seen (a b : rvec) (t : R) : Prop :=
  - PI < t < PI /\
  sqrt (x a * x a + y a * y a) * sqrt (x b * x b + y b * y b) * cos t = x a * x b + y a * y b /\
  sqrt (x a * x a + y a * y a) * sqrt (x b * x b + y b * y b) * sin t = x a * y b - y a * x b.

(** ** Flow of vortices and sources *)

Definition sq (p a : rvec) : R := (x p - x a) * (x p - x a) + (y p - y a) * (y p - y a).
(** [e] is the square of the radius of the vortex. *)
Definition vortex_flow (a : rvec) (e g : R) (p : rvec) : rvec :=
  mkVec (K := RNum) (- (y p - y a) * (g / (2 * PI * (sq p a + e)))) ((x p - x a) * (g / (2 * PI * (sq p a + e)))).
Definition source_flow (a : rvec) (q : R) (p : rvec) : rvec :=
  mkVec (K := RNum) ((x p - x a) * (q / (2 * PI * sq p a))) ((y p - y a) * (q / (2 * PI * sq p a))).

Definition vplus (a b : rvec) : rvec := mkVec (K := RNum) (x a + x b) (y a + y b).
Definition vminus (a b : rvec) : rvec := mkVec (K := RNum) (x a - x b) (y a - y b).
Fixpoint vtotal {A} (f : A -> rvec) (l : list A) : rvec :=
  match l with [] => mkVec (K := RNum) 0 0 | a :: l => vplus (f a) (vtotal f l) end.
Fixpoint total {A} (f : A -> R) (l : list A) : R :=
  match l with [] => 0 | a :: l => f a + total f l end.

(** A point of a turning and moving body has this speed; a wall that moves
    carries the circulation and the source that keep the inside at that speed. *)
Definition moves (b : rshape) (q : rvec) : rvec :=
  mkVec (K := RNum) (x (r3 (speed b)) - o3 (speed b) * (y q - y (axis b)))
                    (y (r3 (speed b)) + o3 (speed b) * (x q - x (axis b))).
Definition wall_g (b : rshape) (w : rwall) : R :=
  let v := moves b (r (seg w)) in let d := dl (seg w) in - (x v * x d + y v * y d).
Definition wall_q (b : rshape) (w : rwall) : R :=
  let v := moves b (r (seg w)) in let d := dl (seg w) in y v * x d - x v * y d.

(** The flow of a body: the circulation on its walls and its movement. *)
Definition body_flow (still : rshape -> bool) (e : R) (p : rvec) (b : rshape) : rvec :=
  vplus (vtotal (fun w => vortex_flow (r (seg w)) e (wg w) p) (walls b))
        (if still b then mkVec (K := RNum) 0 0
         else vtotal (fun w => vplus (vortex_flow (r (seg w)) e (wall_g b w) p)
                                     (source_flow (r (seg w)) (wall_q b w) p)) (walls b)).
(** The flow seen from a frame with the speed [ref]: [e] is the squared radius of
    the vortices on the walls and of the far groups. *)
Definition flow_of (still : rshape -> bool) (S : rspace) (e : R) (ref : rvec) (near far : list rpart) (p : rvec) : rvec :=
  vplus (vtotal (body_flow still e p) (bodies S))
  (vplus (vtotal (fun o => source_flow (pr o) (pg o) p) (sources S))
  (vplus (vtotal (fun o => vortex_flow (pr o) e (pg o) p) far)
  (vplus (vtotal (fun o => vortex_flow (pr o) (x (pv o)) (pg o) p) near)
         (vminus (flow S) ref)))).

(** A body whose segments make a closed line. *)
Definition joined (w v : rwall) : Prop :=
  dl (seg w) = vminus (corner (seg v)) (corner (seg w)) /\
  r (seg w) = mkVec (K := RNum) ((x (corner (seg w)) + x (corner (seg v))) / 2) ((y (corner (seg w)) + y (corner (seg v))) / 2).
Definition closed (ws : list rwall) : Prop :=
  forall i w v, nth_error ws i = Some w -> nth_error ws (S i mod length ws) = Some v -> joined w v.

(** Points on the line from [a] to [b]. *)
Definition between (a b p : rvec) : Prop :=
  exists s, 0 <= s <= 1 /\ x p = x a + s * (x b - x a) /\ y p = y a + s * (y b - y a).
(** Where the stream function is smooth: outside the vortices, not on the line left
    of a source, and not between the middle of a moving body and its walls. *)
Definition smooth (still : rshape -> bool) (S : rspace) (e : R) (near far : list rpart) (p : rvec) : Prop :=
  (forall b w, In b (bodies S) -> In w (walls b) -> 0 < sq p (r (seg w)) + e) /\
  (forall b w, In b (bodies S) -> still b = false -> In w (walls b) -> ~ between (r (seg w)) (mid b) p) /\
  (forall o, In o (sources S) -> ~ (y p = y (pr o) /\ x p <= x (pr o))) /\
  (forall o, In o far -> 0 < sq p (pr o) + e) /\
  (forall o, In o near -> 0 < sq p (pr o) + x (pv o)).

(** The stream function grows across the flow: this is its rate of change on the
    way from [p] in the direction [d] when the flow is [u]. *)
Definition stream_of (psi : rvec -> R) (p u : rvec) : Prop :=
  forall d : rvec, derivable_pt_lim (fun t => psi (mkVec (K := RNum) (x p + t * x d) (y p + t * y d))) 0 (x u * y d - y u * x d).

(** ** Cells of the picture *)

Definition point (o : rvec) (step : R) (i j : nat) : rvec :=
  mkVec (K := RNum) (x o + INR i * step) (y o + INR j * step).
(** All nodes, in any order. *)
Definition all_nodes (xres yres : nat) (order : list (nat * nat)) : Prop :=
  Permutation order (list_prod (seq 0 xres) (seq 0 yres)).

(** The vortices with the given numbers. *)
Definition picked (nb : list nat) (l : list rpart) : list rpart :=
  flat_map (fun j => match nth_error l j with Some o => [o] | None => [] end) nb.

(** The corners of a cell in the order of XIsoline, and back to the first. *)
Definition cell_points (o : rvec) (step : R) (i j : nat) : list rvec :=
  [point o step i j; point o step i (S j); point o step (S i) (S j); point o step (S i) j; point o step i j].
(** No source is to the right of the picture beside one of its rows. *)
Definition none_right (o : rvec) (step : R) (xres yres : nat) (l : list rpart) : Prop :=
  forall s, In s l -> x (pr s) <= x o + INR xres * step \/ y (pr s) <= y o \/ y o + INR yres * step < y (pr s).
(** The same flow without its sources. *)
Definition without (S : rspace) : rspace := mkSpace (K := RNum) (bodies S) (vortices S) [] (flow S) (dt S).

(** ** Pressure *)

(** A quantity that becomes as small as wanted far away. *)
Definition vanishes (g : rvec -> R) : Prop :=
  forall eps, 0 < eps -> exists far, forall p : rvec, far < x p * x p + y p * y p -> Rabs (g p) < eps.

(** The same body with another wall first. *)
Definition turned (b c : rshape) : Prop :=
  speed c = speed b /\ axis c = axis b /\ mid c = mid b /\ exists l1 l2, walls b = l1 ++ l2 /\ walls c = l2 ++ l1.

(** The pressure of a sheet whose strength grows by [g w] at each wall [w], at the
    walls' middles. *)
Fixpoint sheet (step : R) (p : rvec) (g : rwall -> R) (sum : R) (ws : list rwall) : R :=
  match ws with
  | [] => 0
  | w :: ws =>
      let d := dl (seg w) in let a := r (seg w) in
      (y d * (x p - x a) - x d * (y p - y a)) / sq p a / step * (sum + g w) + sheet step p g (sum + g w) ws
  end.

(** ** Values *)

(** Every node has its own value, at its own place. *)
Definition holds_values {A} (value : nat -> nat -> A) (xres yres : nat) (m : list A) : Prop :=
  forall i j, (i < xres)%nat -> (j < yres)%nat -> nth_error m (j * xres + i) = Some (value i j).

(** ** Bodies for the examples *)

(** The wall between two corners with a circulation and the sum of circulations. *)
Definition wall_between (c d : rvec) (g gsum : R) : rwall :=
  mkWall (K := RNum) (mkAtt (K := RNum) c false (vminus d c) (mkVec (K := RNum) ((x c + x d) / 2) ((y c + y d) / 2)) 1) g gsum.
(** A square with corners at 1 and -1. *)
Definition at_ (a b : R) : rvec := mkVec (K := RNum) a b.
Definition square (g1 g2 g3 g4 s1 s2 s3 s4 : R) : list rwall :=
  [wall_between (at_ (-1) (-1)) (at_ (-1) 1) g1 s1; wall_between (at_ (-1) 1) (at_ 1 1) g2 s2;
   wall_between (at_ 1 1) (at_ 1 (-1)) g3 s3; wall_between (at_ 1 (-1)) (at_ (-1) (-1)) g4 s4].
Definition body_with (ws : list rwall) (v : rvec) : rshape := mkShape (K := RNum) ws (mkVec3 (K := RNum) v 0) (at_ 0 0) (at_ 0 0).
