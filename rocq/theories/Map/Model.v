(** Model of the maps drawn by vvplot: libvvhd/src/XVelocity.cpp, XVorticity.cpp,
    XPressure.cpp, XStreamfunction.cpp, and of [MConvectiveFast::velocity] with
    [body_list_influence] (MConvectiveFast.cpp:20-34, 172-215).

    Which vortices are near a point and which nodes are far is given as lists;
    building the tree and the radii are in Tree and Vortex.  The influence of a
    linear source (MConvectiveFast.cpp:440-457) and the functions of the C library
    are arguments.  The values of a map are kept as computed, not rounded to
    float. *)

From Coq Require Import List ZArith Bool Ascii.
From Verif.Base Require Import Num.
From Verif.Body Require Import Model.
From Verif.Vortex Require Import Model.
Import ListNotations.
Local Open Scope num_scope.

Section Map.
Context {K : Num}.
Notation vec := (vec K).
Notation part := (@part K).

(** A segment with its circulations, and a body: TBody.hpp:17-158. *)
Record wall := mkWall { seg : @att K; wg : K; wgsum : K }.
Record shape := mkShape { walls : list wall; speed : vec3 K; axis : vec; mid : vec }.

(** TSpace.hpp:20-46: the members used here. [flow]: inf_speed(). *)
Record space := mkSpace {
  bodies : list shape; vortices : list part; sources : list part; flow : vec; dt : K }.

Variables lnf : K -> K.                       (* log *)
Variables atan2f : K -> K -> K.               (* atan2 *)
Variables expf erff : K -> K.                 (* exp, erf *)
Variables tiny10 tiny4 : K.                   (* 1E-10, 1e-4 *)
Variables inv_4pi inv_2pi inv_pi : K.         (* C_1_4PI, C_1_2PI, C_1_PI *)
Variable linear_source : vec -> @att K -> K -> K -> vec.   (* SegmentInfluence_linear_source *)

(** TVec3D.hpp:17. *)
Definition at_rest (v : vec3 K) : bool := nabs (x (r3 v)) + nabs (y (r3 v)) + nabs (o3 v) <? tiny10.

(** Speed of the body at a point, and the vortex and source strength of a
    segment moving with it, e.g. XPressure.cpp:121-123. *)
Definition speed_at (b : shape) (q : vec) : vec := vadd (r3 (speed b)) (vscale (rotl (vsub q (axis b))) (o3 (speed b))).
Definition opposite (v : vec) : vec := mkVec (- x v) (- y v).
Definition strength_g (v d : vec) : K := dot (opposite v) d.
Definition strength_q (v d : vec) : K := dot (opposite (rotl v)) d.

(** ** Velocity, MConvectiveFast.cpp *)

(** 172-215. *)
Definition segment_speed (b : shape) (p : vec) (w : wall) : vec :=
  let a := seg w in
  let dr := vsub p (r a) in
  if abs2 dr <? abs2 (dl a) then
    let v1 := speed_at b (corner a) in
    let v2 := vadd (r3 (speed b)) (vscale (rotl (vsub (vadd (corner a) (dl a)) (axis b))) (o3 (speed b))) in
    vadd (rotl (linear_source p a (strength_g v1 (dl a)) (strength_g v2 (dl a))))
         (linear_source p a (strength_q v1 (dl a)) (strength_q v2 (dl a)))
  else
    let v := speed_at b (r a) in
    vdiv (vadd (vscale dr (strength_q v (dl a))) (vscale (rotl dr) (strength_g v (dl a)))) (abs2 dr).
Definition part_of (w : wall) : part := mkPart (r (seg w)) (wg w) vzero (eps1 (seg w)).
Definition body_influence (bs : list shape) (p : vec) : vec :=
  vscale (fold_left (fun s b =>
    let s := if existsb (fun w => slip (seg w)) (walls b)
             then fold_left (fun s w => if slip (seg w) then vadd s (biot_savart (part_of w) p) else s) (walls b) s
             else s in
    if at_rest (speed b) then s else fold_left (fun s w => vadd s (segment_speed b p w)) (walls b) s)
    bs vzero) inv_2pi.

(** 20-34: [node] is the node the point is in, given by the numbers of the vortices
    of its near nodes and the summaries of its far nodes. *)
Definition velocity (S : space) (node : option (list nat * list part)) (p : vec) : vec :=
  match node with
  | None => vzero
  | Some (near, far) =>
      let v := vadd vzero (near_influence inv_2pi near (vortices S) p) in
      let v := vadd v (far_influence inv_2pi far p) in
      let v := vadd v (sink_influence inv_2pi inv_pi (dt S) (sources S) p) in
      let v := vadd v (body_influence (bodies S) p) in
      vadd v (flow S)
  end.

(** ** Frames *)

Inductive outcome {A : Type} := Done (a : A) | Throw | Undefined.
Arguments outcome : clear implicits.

(** XVelocity.cpp:26-38 and the same switch in the others. *)
Definition frame_speed (S : space) (frame : ascii) : outcome vec :=
  if Ascii.eqb frame "o" then Done vzero
  else if Ascii.eqb frame "f" then Done (flow S)
  else if Ascii.eqb frame "b" then match bodies S with [] => Undefined | b :: _ => Done (r3 (speed b)) end
  else Throw.

(** ** The loops over the nodes *)

(** XField.hpp:59 and e.g. XVelocity.cpp:60-64: position of a node, and the place of
    its value. *)
Definition node (o : vec) (step : K) (i j : nat) : vec :=
  vadd o (vscale (mkVec (nofZ (Z.of_nat i)) (nofZ (Z.of_nat j))) step).
Definition place (xres i j : nat) : nat := j * xres + i.
(** [order]: the nodes in the order in which the threads reach them. *)
Definition fill {A} (value : nat -> nat -> A) (xres : nat) (order : list (nat * nat)) (m : list A) : list A :=
  fold_left (fun m n => set_nth (place xres (fst n) (snd n)) (value (fst n) (snd n)) m) order m.

(** ** evaluate: XVelocity.cpp:24-73, XVorticity.cpp:26-73, XPressure.cpp:32-100,
    XStreamfunction.cpp:47-118 *)

Inductive kind := Velocity | Vorticity | Pressure | Stream.
(** The settings of a map and what has been computed. *)
Record picture := mkPicture { eps_mult : K; frame : ascii; mode : ascii; evaluated : bool; vals : list K }.
Definition accept (S : space) (k : kind) (m : picture) : outcome vec :=
  match k with
  | Velocity =>
      match frame_speed S (frame m) with
      | Done ref => if Ascii.eqb (mode m) "x" || Ascii.eqb (mode m) "y" then Done ref else Throw
      | e => e
      end
  | Vorticity => if eps_mult m <=? nofZ 0 then Throw else Done vzero
  | Pressure => if eps_mult m <=? nofZ 0 then Throw
                else if Ascii.eqb (frame m) "s" then Done vzero else frame_speed S (frame m)
  | Stream => if eps_mult m <=? nofZ 0 then Throw else frame_speed S (frame m)
  end.
(** [value]: what is computed at a point outside the bodies, from the speed of the
    frame; [inside]: point_is_in_body. *)
Definition value_at (k : kind) (inside : vec -> bool) (value : vec -> K) (p : vec) : K :=
  match k with
  | Vorticity | Pressure => if inside p then nofZ 0 else value p
  | _ => value p
  end.
Definition evaluate (S : space) (k : kind) (inside : vec -> bool) (value : picture -> vec -> vec -> K) (o : vec) (step : K)
    (xres : nat) (order : list (nat * nat)) (m : picture) : outcome picture :=
  match accept S k m with
  | Throw => Throw
  | Undefined => Undefined
  | Done ref =>
      if evaluated m then Done m
      else Done (mkPicture (eps_mult m) (frame m) (mode m) true
                   (fill (fun i j => value_at k inside (value m ref) (node o step i j)) xres order (vals m)))
  end.

(** XVelocity.cpp:61-67. *)
Definition velocity_value (vel : vec -> vec) (m : picture) (ref p : vec) : K :=
  let u := vsub (vel p) ref in if Ascii.eqb (mode m) "x" then x u else y u.

(** ** Stream function, XStreamfunction.cpp *)

(** 27-45. *)
Definition psi_g (dr : vec) (rd2 g : K) : K := (- g) * lnf (abs2 dr + rd2).
Definition psi_q (dr : vec) (q : K) : K := q * atan2f (y dr) (x dr).
Definition psi_qatt (p a c : vec) (q : K) : K :=
  let v1 := vsub c p in let v2 := vsub a p in (- q) * atan2f (dot (rotl v2) v1) (dot v2 v1).

(** 167-184: the bodies; the two sums of 163-164. *)
Definition psi_body (rd2 : K) (p : vec) (s : K * K) (b : shape) : K * K :=
  let s := fold_left (fun s w => (fst s + psi_g (vsub p (r (seg w))) rd2 (wg w), snd s)) (walls b) s in
  if at_rest (speed b) then s
  else fold_left (fun s w =>
    let v := speed_at b (r (seg w)) in
    (fst s + psi_g (vsub p (r (seg w))) rd2 (strength_g v (dl (seg w))),
     snd s + psi_qatt p (r (seg w)) (mid b) (strength_q v (dl (seg w))))) (walls b) s.
(** 186-195: the sources and the gap. *)
Definition in_cell (p : vec) (step : K) (q : vec) : bool :=
  (x p <? x q) && (x q <=? x p + step) && (y p <? y q) && (y q <=? y p + step).
Definition psi_sources (l : list part) (p : vec) (s : K) : K :=
  fold_left (fun s o => s + psi_q (vsub p (pr o)) (pg o)) l s.
Definition gap_at (l : list part) (step : K) (p : vec) : K :=
  fold_left (fun s o => if in_cell p step (pr o) then s + pg o else s) l (nofZ 0).
(** 161-212. The near vortices have their squared radius in [x (pv _)] (line 89). *)
Definition psi (S : space) (rd2 : K) (ref : vec) (near far : list part) (p : vec) : K :=
  let s := fold_left (psi_body rd2 p) (bodies S) (nofZ 0, nofZ 0) in
  let q := psi_sources (sources S) p (snd s) in
  let g := fold_left (fun s o => s + psi_g (vsub p (pr o)) rd2 (pg o)) far (fst s) in
  let g := fold_left (fun s o => s + psi_g (vsub p (pr o)) (x (pv o)) (pg o)) near g in
  g * inv_4pi + q * inv_2pi + dot p (rotl (vsub (flow S) ref)).
(** 121-159: the static function. *)
Definition psi_exact (S : space) (rd2 : K) (p : vec) : K :=
  let s := fold_left (psi_body rd2 p) (bodies S) (nofZ 0, nofZ 0) in
  let q := psi_sources (sources S) p (snd s) in
  let g := fold_left (fun s o => s + psi_g (vsub p (pr o)) rd2 (pg o)) (vortices S) (fst s) in
  g * inv_4pi + q * inv_2pi + dot p (rotl (flow S)).

(** 104-112: the list of gaps, in the order of the nodes; XField.hpp:8-17. *)
Definition wrap16 (n : nat) : Z := (Z.of_nat n mod 2 ^ 16)%Z.
Definition gap_list (l : list part) (o : vec) (step : K) (order : list (nat * nat)) : list (Z * Z * K) :=
  flat_map (fun n => let g := gap_at l step (node o step (fst n) (snd n)) in
                     if g =? nofZ 0 then [] else [(wrap16 (fst n), wrap16 (snd n), g)]) order.

(** XIsoline.cpp:45-62: the corners of a cell with the gaps added. *)
Definition shifted (keep : Z -> bool) (gaps : list (Z * Z * K)) (j : nat) (v : K) : K :=
  fold_left (fun v g => if Z.eqb (snd (fst g)) (Z.of_nat j) && keep (fst (fst g)) then v + snd g else v) gaps v.
Definition cell_corners (value : nat -> nat -> K) (gaps : list (Z * Z * K)) (i j : nat) : list K :=
  let ge k := Z.leb (Z.of_nat i) k in let gt k := Z.ltb (Z.of_nat i) k in
  [shifted ge gaps j (value i j); value i (S j); value (S i) (S j);
   shifted gt gaps j (value (S i) j); shifted gt gaps j (value i j)].

(** ** Vorticity, XVorticity.cpp *)

(** MFlowmove.cpp:217-235; [remove]: remove_eps. Bodies belong to every copy of a
    space (TSpace.hpp:40), vortices to one. *)
Definition shed_wall (w : wall) : wall := mkWall (seg w) (wg w) (wgsum w + wg w).
Definition shed_bodies (bs : list shape) : list shape :=
  map (fun b => mkShape (map shed_wall (walls b)) (speed b) (axis b) (mid b)) bs.
Definition born (remove : K) (bs : list shape) : list part :=
  flat_map (fun b => flat_map (fun w =>
    if (remove <=? nabs (wg w)) && negb (slip (seg w))
    then [mkPart (vadd (corner (seg w)) (vscale (rotl (dl (seg w))) tiny4)) (wg w) vzero (nofZ 0)] else []) (walls b)) bs.
Definition shed (remove : K) (S : space) : space :=
  mkSpace (shed_bodies (bodies S)) (vortices S ++ born remove (bodies S)) (sources S) (flow S) (dt S).

(** 75-94; the near vortices have 1/eps^2 and g/eps^2 in [pv], [d2] is the squared
    distance to the nearest wall. *)
Definition vorticity (near : list part) (d2 size : K) (p : vec) : K :=
  let res := fold_left (fun s o =>
    let e := - (abs2 (vsub p (pr o)) * x (pv o)) in
    s + (if - nofZ 6 <? e then y (pv o) * expf e else nofZ 0)) near (nofZ 0) in
  let res := res * inv_pi in
  let e := d2 / (size * size) in
  res + (if e <? nofZ 3 then half * (nofZ 1 - erff e) else nofZ 0).

(** ** Pressure, XPressure.cpp *)

(** 102-107: operator/ multiplies with the inverse. *)
Definition kernel (o p : vec) : vec := let d := vsub p o in vdiv d (abs2 d).
(** 115-122. *)
Definition pressure_moving (b : shape) (p : vec) (s : K) : K :=
  fold_left (fun s w =>
    let a := seg w in
    let v := speed_at b (r a) in
    s + dot (vadd (vscale (rotl (kernel (r a) p)) (strength_g v (dl a))) (vscale (kernel (r a) p) (strength_q v (dl a)))) v)
    (walls b) s.
(** 124-131; [step]: S.dt. *)
Definition pressure_sheet (step : K) (b : shape) (p : vec) (s : K) : K :=
  snd (fold_left (fun s w =>
    let a := seg w in
    let g := fst s + wgsum w in
    (g, snd s - dot (vdiv (dl a) step) (rotl (kernel (r a) p)) * g)) (walls b) (nofZ 0, s)).
(** 109-146; [ref] is None for 's'. *)
Definition pressure (S : space) (vel : vec -> vec) (ref : option vec) (p : vec) : K :=
  let s := fold_left (fun s b => pressure_sheet (dt S) b p (pressure_moving b p s)) (bodies S) (nofZ 0) in
  let s := fold_left (fun s o => s + dot (pv o) (rotl (kernel (pr o) p)) * pg o) (vortices S) s in
  let u := vel p in
  let c := inv_2pi * s + half * (abs2 (flow S) - abs2 u) in
  match ref with None => c | Some v => c + half * abs2 (vsub u v) end.

(** ** Drawing several maps, vvplot.cpp:171-300 *)

(** The maps of vorticity and pressure both shed (XVorticity.cpp:38, XPressure.cpp:59)
    and leave the bodies as they are then to the next map. [G]: vorticity is
    drawn before. *)
Definition pressure_map (remove : K) (G : bool) (S : space) (vel : space -> vec -> vec) (ref : option vec) (p : vec) : K :=
  let S := if G then mkSpace (shed_bodies (bodies S)) (vortices S) (sources S) (flow S) (dt S) else S in
  let S := shed remove S in
  pressure S (vel S) ref p.

End Map.
Arguments outcome : clear implicits.
