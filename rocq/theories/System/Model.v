(** Model of the linear system for circulations, speeds and forces:
    libvvhd/src/MConvectiveFast.cpp:217-1017, [Space::EnumerateBodies]
    (TSpace.cpp:189-203) and the calls of vvflow.cpp:221-231. *)

From Coq Require Import ZArith Bool List.
From Verif.Base Require Import Num.
From Verif.Matrix Require Import Model.
From Verif.Body Require Import Model.
From Verif.Flow Require Import Model.
Import ListNotations.
Local Open Scope num_scope.

(** * Numbers of the unknowns *)

(** The memory cells that hold the solution: circulation of a segment, and the
    speed, hydrodynamic force and holder force of a body. *)
Inductive unk :=
| UG (b i : nat)
| UV (b : nat) (c : comp)
| UH (b : nat) (c : comp)
| UF (b : nat) (c : comp).

Definition comps : list comp := [CX; CY; CO].

(** The order in which MConvectiveFast.cpp:249-266 registers the cells of a body
    with [n] segments. *)
Definition body_unknowns (b n : nat) : list unk :=
  map (UG b) (seq 0 n) ++ map (UV b) comps ++ map (UH b) comps ++ map (UF b) comps.
Fixpoint unknowns_from (b : nat) (sizes : list nat) : list unk :=
  match sizes with
  | [] => []
  | n :: t => body_unknowns b n ++ unknowns_from (S b) t
  end.
Definition unknowns (sizes : list nat) : list unk := unknowns_from 0 sizes.

(** [total_segment_count()+BodyList.size()*9], line 243 and TSpace.hpp:124-132. *)
Definition system_size (sizes : list nat) : nat := fold_right Nat.add 0 sizes + length sizes * 9.

(** Lines 247-267; [addr] is the address of a cell. *)
Fixpoint register_from (addr : unk -> Z) (eq_no : nat) (l : list unk) (s : slots) : Matrix.Model.outcome slots :=
  match l with
  | [] => Ok s
  | u :: t => match set_solution s eq_no (addr u) with
              | Ok s' => register_from addr (S eq_no) t s'
              | Exit c => Exit c
              | Undefined => Undefined
              end
  end.
Definition register (addr : unk -> Z) (sizes : list nat) (s : slots) : Matrix.Model.outcome slots :=
  register_from addr 0 (unknowns sizes) s.

(** TSpace.cpp:189-203: the numbers of the segments of a body and eq_forces_no.
    The counters are [int] in the code; they do not overflow while the matrix
    fits in memory. *)
Fixpoint enumerate_from (eq_no : nat) (sizes : list nat) : list (list nat * nat) :=
  match sizes with
  | [] => []
  | n :: t => (seq eq_no n, eq_no + n)%nat :: enumerate_from (eq_no + n + 9) t
  end.
Definition enumerate (sizes : list nat) : list (list nat * nat) := enumerate_from 0 sizes.

(** * Plan of the equations, lines 880-980 *)

Inductive kind :=
| Slip | Zero | InfSteady | Steady
| Speed (c : comp) | Stop (c : comp) | Hooke (c : comp) (bounce : bool)
| Hydro (c : comp) | Newton (c : comp).

Record entry := mkEntry { erow : nat; ekind : kind; ebody : nat; eseg : nat }.

(** The collision pointer: null, address of a spring constant (left by the motion
    step) or address of a holder force. *)
Inductive ptr := PNull | PSpring (b : nat) (c : comp) | PHolder (b : nat) (c : comp).

Definition comp_eqb (c d : comp) : bool :=
  match c, d with CX, CX => true | CY, CY => true | CO, CO => true | _, _ => false end.
Definition ptr_eqb (p q : ptr) : bool :=
  match p, q with
  | PNull, PNull => true
  | PSpring b c, PSpring b' c' => Nat.eqb b b' && comp_eqb c c'
  | PHolder b c, PHolder b' c' => Nat.eqb b b' && comp_eqb c c'
  | _, _ => false
  end.

(** The equations for the segments of a body, lines 895-910.  [once]: the
    condition at infinity has been placed. *)
Fixpoint plan_segs (special : nat) (kutta : bool) (b : nat) (segs : list nat) (row : nat) (once : bool)
  : list entry * bool :=
  match segs with
  | [] => ([], once)
  | i :: t =>
      if negb (Nat.eqb i special) then
        let '(l, o) := plan_segs special kutta b t (S row) once in (mkEntry row Slip b i :: l, o)
      else if kutta then
        let '(l, o) := plan_segs special kutta b t (S row) once in (mkEntry row Zero b i :: l, o)
      else
        let '(l, o) := plan_segs special kutta b t (S row) true in
        (mkEntry row (if once then Steady else InfSteady) b i :: l, o)
  end.

(** Lines 912-961, one component.  [rigid] is [isrigid(kspring) || !(time>0)]. *)
Definition plan_spring (rigid : bool) (b : nat) (c : comp) (p : ptr) : kind * ptr :=
  if rigid then (Speed c, p)
  else if ptr_eqb p (PSpring b c) then (Stop c, PHolder b c)
  else (Hooke c (ptr_eqb p (PHolder b c)), PNull).

(** What the plan needs to know about a body. *)
Record shape := mkShape { nseg : nat; special : nat; kutta : bool; rigid : comp -> bool }.

(** Lines 893-969 for one body: first row, condition at infinity, pointer.
    [special_segment_no] outside the list is undefined behaviour (line 895);
    jobs and direct writes are listed together, in the order of their rows. *)
Definition plan_body (b : nat) (s : shape) (row : nat) (once : bool) (p : ptr) : option (list entry * bool * ptr) :=
  if Nat.leb (nseg s) (special s) then None
  else
    let '(l, o) := plan_segs (special s) (kutta s) b (seq 0 (nseg s)) row once in
    let '(kx, p) := plan_spring (rigid s CX) b CX p in
    let '(ky, p) := plan_spring (rigid s CY) b CY p in
    let '(ko, p) := plan_spring (rigid s CO) b CO p in
    let n := (row + nseg s)%nat in
    Some (l ++ [mkEntry n kx b 0; mkEntry (n + 1) ky b 0; mkEntry (n + 2) ko b 0;
                mkEntry (n + 3) (Hydro CX) b 0; mkEntry (n + 4) (Hydro CY) b 0; mkEntry (n + 5) (Hydro CO) b 0;
                mkEntry (n + 6) (Newton CX) b 0; mkEntry (n + 7) (Newton CY) b 0; mkEntry (n + 8) (Newton CO) b 0], o, p).

Fixpoint plan_from (b : nat) (l : list shape) (row : nat) (once : bool) (p : ptr) : option (list entry * ptr) :=
  match l with
  | [] => Some ([], p)
  | s :: t =>
      match plan_body b s row once p with
      | None => None
      | Some (es, once, p) =>
          match plan_from (S b) t (row + nseg s + 9) once p with
          | None => None
          | Some (es', p) => Some (es ++ es', p)
          end
      end
  end.
Definition plan (l : list shape) (p : ptr) : option (list entry * ptr) := plan_from 0 l 0 false p.

(** vvflow.cpp:221-228: with a collision the system is built and solved twice. *)
Definition plans (l : list shape) (p : ptr) : option (list (list entry) * ptr) :=
  match (if ptr_eqb p PNull then Some ([], p)
         else match plan l p with Some (es, p) => Some ([es], p) | None => None end) with
  | None => None
  | Some (first, p) => match plan l p with
                       | Some (es, p) => Some (first ++ [es], p)
                       | None => None
                       end
  end.

(** * Coefficients *)

Section Coefficients.
Context {K : Num}.
Notation vec := (vec K).
Notation vec3 := (vec3 K).

Variables lnf : K -> K.                  (* log *)
Variable atan2f : K -> K -> K.           (* atan2 *)
Variables two_pi inv_2pi : K.            (* C_2PI, C_1_2PI, elementary.h:4-5 *)
Variable quarter milli : K.              (* 0.25, 0.001 *)

Definition sqr (v : K) : K := v * v.

(** Flux of a vortex and of a source through a segment, lines 275-373. *)
Definition xi_g_near (p pc d : vec) (rd : K) : K := dot (vsub pc p) d / sqr rd.
Definition xi_g_dist (p p1 p2 : vec) : K := half * lnf (abs2 (vsub p p2) / abs2 (vsub p p1)).
Definition xi_q_near (p pc d : vec) (rd : K) : K := dot (vsub pc p) (rotl d) / sqr rd.
Definition xi_q_dist (p p1 p2 : vec) : K :=
  let d1 := vsub p p1 in let d2 := vsub p p2 in atan2f (dot d1 (rotl d2)) (dot d1 d2).

(** Lines 298-302 and 348-352: where the segment leaves the core. *)
Definition core_exit (p : vec) (s : att K) (rd : K) : vec :=
  let a0 := abs2 (dl s) in
  let b0 := dot (vsub p (r s)) (dl s) in
  let d := nsqrt (b0 * b0 - a0 * (abs2 (vsub p (r s)) - rd * rd)) in
  let k := (b0 + d) / a0 in
  let k := if (k <=? - half) || (half <=? k) then (b0 - d) / a0 else k in
  vadd (r s) (vscale (dl s) k).

Definition xi_g (p : vec) (s : att K) (rd : K) : K :=
  let rd2 := sqr rd in
  let p2 := vadd (corner s) (dl s) in
  let d1 := abs2 (vsub p (corner s)) in
  let d2 := abs2 (vsub (vsub p (corner s)) (dl s)) in
  if (rd2 <=? d1) && (rd2 <=? d2) then half * lnf (d2 / d1)
  else if (d1 <=? rd2) && (d2 <=? rd2) then xi_g_near p (r s) (dl s) rd
  else
    let p3 := core_exit p s rd in
    if d1 <? rd2 then
      xi_g_near p (vscale (vadd p3 (corner s)) half) (vsub p3 (corner s)) rd + xi_g_dist p p3 p2
    else xi_g_dist p (corner s) p3 + xi_g_near p (vscale (vadd p2 p3) half) (vsub p2 p3) rd.

(** Lines 325-373; the centre of the segment itself is moved off it first. *)
Definition xi_at (p : vec) (s : att K) (rd : K) : vec :=
  let rd2 := sqr rd in
  let p1 := corner s in
  let p2 := vadd (corner s) (dl s) in
  let d1 := abs2 (vsub p p1) in
  let d2 := abs2 (vsub p p2) in
  if (rd2 <=? d1) && (rd2 <=? d2) then
    mkVec (half * lnf (d2 / d1)) (atan2f (dot (vsub p p1) (rotl (vsub p p2))) (dot (vsub p p1) (vsub p p2)))
  else if (d1 <=? rd2) && (d2 <=? rd2) then
    let dp := vsub p (r s) in vdiv (mkVec (dot dp (dl s)) (dot dp (rotl (dl s)))) (sqr rd)
  else
    let p3 := core_exit p s rd in
    if d1 <? rd2 then
      vadd (mkVec (xi_g_near p (vscale (vadd p1 p3) half) (vsub p3 p1) rd) (xi_q_near p (vscale (vadd p1 p3) half) (vsub p3 p1) rd))
           (mkVec (xi_g_dist p p3 p2) (xi_q_dist p p3 p2))
    else
      vadd (mkVec (xi_g_dist p p1 p3) (xi_q_dist p p1 p3))
           (mkVec (xi_g_near p (vscale (vadd p3 p2) half) (vsub p2 p3) rd) (xi_q_near p (vscale (vadd p3 p2) half) (vsub p2 p3) rd)).
Definition xi (same : bool) (p : vec) (s : att K) (rd : K) : vec :=
  xi_at (if same then vadd p (vscale (rotl (dl s)) milli) else p) s rd.

(** A body of the system.  [own (fb b)] is [speed(S->time)], [torque] is
    [force_o.eval(S->time)]. *)
Record sbody := mkSBody {
  fb : fbody K;
  density : K; damping : vec3; bounce : K; torque : K;
  special_ : nat; kutta_ : bool;
  force_holder : vec3; friction_prev : vec3 }.

(** [late] is [S->time > 0], [gfree] is [S->gsum()]. *)
Record sspace := mkSSpace {
  sbodies : list sbody; late : bool; dt : K;
  gravity : vec; inf_speed : vec; inf_g : K; gfree : K }.

Definition g_of (b : sbody) : body K := geo (fb b).

Definition shape_of (late : bool) (b : sbody) : shape :=
  mkShape (length (alist (g_of b))) (special_ b) (kutta_ b)
    (fun c => isrigid (get c (Flow.Model.kspring (fb b))) || negb late).

Variable S : sspace.

(** Velocity of the sinks and flux of the free vortices, lines 153-170 and 392-411. *)
Variable sinks : vec -> vec.
Variable free_flux : att K -> K.

Definition indexed {A} (l : list A) : list (nat * A) := combine (seq 0 (length l)) l.

(** Lines 375-390.  [ib] is the body of the segment [s], number [is]. *)
Definition a3 (s : att K) (same_body : bool) (is : nat) (b : sbody) : K :=
  if isrigid (o3 (Flow.Model.kspring (fb b))) && (o3 (own (fb b)) =? nofZ 0)
     && match root (fb b) with None => true | Some _ => false end
  then nofZ 0
  else fold_left (fun a e =>
         let '(j, l) := e in
         let X := xi (same_body && Nat.eqb is j) (r l) s (vabs (dl l) * quarter) in
         let r0 := vsub (r l) (get_axis (g_of b)) in
         a - dot X (mkVec (dot (rotl r0) (dl l)) (dot (mkVec (- x (dl l)) (- y (dl l))) r0)))
       (indexed (alist (g_of b))) (nofZ 0).

(** An equation: coefficients in the order in which they are written and the
    right side. *)
Record eqn := mkEqn { coefs : list (unk * K); rhs : K }.

Definition bodies_i : list (nat * sbody) := indexed (sbodies S).

(** Lines 458-482. *)
Definition slip_eq (ib is : nat) (s : att K) : eqn :=
  mkEqn
    (flat_map (fun e =>
       let '(j, b) := e in
       let same := Nat.eqb ib j in
       map (fun el => let '(k, l) := el in (UG j k, xi_g (corner l) s (vabs (dl l) * quarter) * inv_2pi)) (indexed (alist (g_of b)))
       ++ [(UV j CX, (if same then two_pi * y (dl s) else nofZ 0) * inv_2pi);
           (UV j CY, (if same then (- two_pi) * x (dl s) else nofZ 0) * inv_2pi);
           (UV j CO, a3 s same is b * inv_2pi)]) bodies_i)
    (dot (rotl (inf_speed S)) (dl s) + dot (rotl (sinks (r s))) (dl s) - free_flux s).

(** Lines 484-493. *)
Definition zero_eq (ib is : nat) : eqn := mkEqn [(UG ib is, nofZ 1)] (nofZ 0).

Definition ones (j : nat) (b : sbody) : list (unk * K) :=
  map (fun k => (UG j k, nofZ 1)) (seq 0 (length (alist (g_of b)))) ++ [(UV j CO, nofZ 2 * area (g_of b))].

(** Lines 495-507. *)
Definition steady_eq (ib : nat) (b : sbody) : eqn :=
  mkEqn (ones ib b) (g_dead (fb b) + nofZ 2 * area (g_of b) * o3 (speed_slae_prev (g_of b))).

(** Lines 509-523. *)
Definition inf_eq : eqn :=
  mkEqn (flat_map (fun e => ones (fst e) (snd e)) bodies_i) ((- gfree S) - inf_g S).

(** Lines 533-617. *)
Definition hydro_eq (c : comp) (ib : nat) (b : sbody) : eqn :=
  let g := g_of b in
  let A := area g in
  let d1 := nofZ 1 / dt S in
  let d2 := half / dt S in
  let rc := vsub (cofm g) (get_axis g) in
  let v := speed_slae_prev g in
  let w := o3 v in
  let arm := rotl (vadd (vscale (cofm g) (nofZ 2)) rc) in
  let f := friction_prev b in
  let dead := fdt_dead (fb b) in
  match c with
  | CX => mkEqn
      (map (fun e => (UG ib (fst e), d1 * (- y (corner (snd e))))) (indexed (alist g))
       ++ [(UV ib CX, A * d1); (UV ib CY, nofZ 0); (UV ib CO, A * d1 * ((- nofZ 2) * y (cofm g) - y rc)); (UH ib CX, - nofZ 1)])
      (A * d1 * x (r3 v) + A * d1 * x arm * w + sqr w * A * x rc - x (r3 f) + x (r3 dead) * d1)
  | CY => mkEqn
      (map (fun e => (UG ib (fst e), d1 * x (corner (snd e)))) (indexed (alist g))
       ++ [(UV ib CX, nofZ 0); (UV ib CY, A * d1); (UV ib CO, A * d1 * (nofZ 2 * x (cofm g) + x rc)); (UH ib CY, - nofZ 1)])
      (A * d1 * y (r3 v) + A * d1 * y arm * w + sqr w * A * y rc - y (r3 f) + y (r3 dead) * d1)
  | CO => mkEqn
      (map (fun e => (UG ib (fst e), d2 * abs2 (vsub (corner (snd e)) (get_axis g)))) (indexed (alist g))
       ++ [(UV ib CX, A * d1 * (- y rc)); (UV ib CY, A * d1 * x rc); (UV ib CO, nofZ 2 * moi_axis g * d1); (UH ib CO, - nofZ 1)])
      (dot (vscale (rotl rc) (A * d1)) (r3 v) + nofZ 2 * moi_axis g * d1 * w - o3 f + o3 dead * d2)
  end.

(** The bodies held by body [ib]. *)
Definition children (ib : nat) : list (nat * sbody) :=
  filter (fun e => match root (fb (snd e)) with Some k => Nat.eqb k ib | None => false end) bodies_i.

(** Lines 628-743. *)
Definition newton_eq (c : comp) (ib : nat) (b : sbody) : eqn :=
  let g := g_of b in
  let A := area g in
  let d1 := nofZ 1 / dt S in
  let rc := vsub (cofm g) (get_axis g) in
  let v := speed_slae_prev g in
  let w := o3 v in
  let m := density b in
  match c with
  | CX => mkEqn
      ([(UV ib CX, (- A) * d1 * m); (UV ib CY, nofZ 0); (UV ib CO, A * d1 * m * y rc); (UH ib CX, nofZ 1); (UF ib CX, - nofZ 1)]
       ++ map (fun e => (UF (fst e) CX, nofZ 1)) (children ib))
      ((- A) * d1 * m * x (r3 v) + A * d1 * m * y rc * w - A * m * x rc * sqr w - (m - nofZ 1) * x (gravity S) * A)
  | CY => mkEqn
      ([(UV ib CX, nofZ 0); (UV ib CY, (- A) * d1 * m); (UV ib CO, (- A) * d1 * m * x rc); (UH ib CY, nofZ 1); (UF ib CY, - nofZ 1)]
       ++ map (fun e => (UF (fst e) CY, nofZ 1)) (children ib))
      ((- A) * d1 * m * y (r3 v) - A * d1 * m * x rc * w - A * m * y rc * sqr w - (m - nofZ 1) * y (gravity S) * A)
  | CO => mkEqn
      ([(UV ib CX, A * d1 * m * y rc); (UV ib CY, (- A) * d1 * m * x rc); (UV ib CO, (- moi_axis g) * d1 * m); (UH ib CO, nofZ 1); (UF ib CO, - nofZ 1)]
       ++ flat_map (fun e => let arm := vsub (get_axis (g_of (snd e))) (get_axis g) in
                             [(UF (fst e) CX, - y arm); (UF (fst e) CY, x arm); (UF (fst e) CO, nofZ 1)]) (children ib))
      ((- A) * d1 * m * dot (rotl rc) (r3 v) - moi_axis g * d1 * m * w - (m - nofZ 1) * dot (rotl rc) (gravity S) * A)
  end.

(** Lines 754-798 and 923-926: with [bounced], the impulse of the first solution. *)
Definition hooke_eq (c : comp) (bounced : bool) (ib : nat) (b : sbody) : eqn :=
  let k := get c (Flow.Model.kspring (fb b)) * get c (dpos (g_of b)) in
  let k := match c with CO => k + torque b | _ => k end in
  mkEqn [(UV ib c, - get c (damping b)); (UF ib c, nofZ 1)]
    (if bounced then k + (nofZ 1 + bounce b) * get c (force_holder b) else k).

Definition stop_eq (c : comp) (ib : nat) : eqn := mkEqn [(UV ib c, nofZ 1)] (nofZ 0).     (* 915-916 *)

(** Lines 809-865.  The root is looked up in the list of bodies; the address of
    one outside it is not registered. *)
Definition speed_eq (c : comp) (ib : nat) (b : sbody) : eqn :=
  let root_terms :=
    match root (fb b) with
    | None => []
    | Some j =>
        let axis := match nth_error (sbodies S) j with Some rt => get_axis (g_of rt) | None => vzero end in
        match c with
        | CX => [(UV j CX, - nofZ 1); (UV j CY, nofZ 0); (UV j CO, y (vsub (r3 (holder (g_of b))) axis))]
        | CY => [(UV j CX, nofZ 0); (UV j CY, - nofZ 1); (UV j CO, - x (vsub (get_axis (g_of b)) axis))]
        | CO => [(UV j CO, - nofZ 1)]
        end
    end in
  mkEqn ((UV ib c, nofZ 1) :: root_terms) (get c (own (fb b))).

Definition dummy_att : att K := mkAtt vzero false vzero vzero (nofZ 0).

(** The equation of a planned entry; the body and segment exist. *)
Definition eqn_of (e : entry) : option eqn :=
  match nth_error (sbodies S) (ebody e) with
  | None => None
  | Some b =>
      match ekind e with
      | Slip => option_map (slip_eq (ebody e) (eseg e)) (nth_error (alist (g_of b)) (eseg e))
      | Zero => Some (zero_eq (ebody e) (eseg e))
      | InfSteady => Some inf_eq
      | Steady => Some (steady_eq (ebody e) b)
      | Speed c => Some (speed_eq c (ebody e) b)
      | Stop c => Some (stop_eq c (ebody e))
      | Hooke c u => Some (hooke_eq c u (ebody e) b)
      | Hydro c => Some (hydro_eq c (ebody e) b)
      | Newton c => Some (newton_eq c (ebody e) b)
      end
  end.

(** * Writing the equations *)

(** The matrix by rows and the right side. *)
Record system := mkSystem { cell : nat -> K; right_ : nat -> K }.

Definition put (k : nat) (v : K) (A : nat -> K) : nat -> K := fun i => if Nat.eqb i k then v else A i.

Variable addr : unk -> Z.
Variable N : nat.

(** [*matrix.getCell(row, ptr) = v]. *)
Fixpoint write_coefs (sl : slots) (row : nat) (l : list (unk * K)) (A : nat -> K) : Matrix.Model.outcome (nat -> K) :=
  match l with
  | [] => Ok A
  | (u, v) :: t =>
      match get_cell (Z.of_nat N) sl (Z.of_nat row) (addr u) with
      | Ok k => write_coefs sl row t (put (Z.to_nat k) v A)
      | Exit c => Exit c
      | Undefined => Undefined
      end
  end.

(** Every equation but the one of lines 914-916 leaves the matrix alone when
    [right_only].  [getRightCol] exits when the row does not exist (TMatrix.cpp:65-69). *)
Definition write_entry (right_only : bool) (sl : slots) (M : system) (e : entry) : Matrix.Model.outcome system :=
  match eqn_of e with
  | None => Undefined
  | Some q =>
      if Nat.leb N (erow e) then Exit 3
      else
        let R := put (erow e) (rhs q) (right_ M) in
        match (if right_only && negb (match ekind e with Stop _ => true | _ => false end)
               then Ok (cell M) else write_coefs sl (erow e) (coefs q) (cell M)) with
        | Ok A => Ok (mkSystem A R)
        | Exit c => Exit c
        | Undefined => Undefined
        end
  end.

Fixpoint write_all (right_only : bool) (sl : slots) (l : list entry) (M : system) : Matrix.Model.outcome system :=
  match l with
  | [] => Ok M
  | e :: t => match write_entry right_only sl M e with
              | Ok M => write_all right_only sl t M
              | Exit c => Exit c
              | Undefined => Undefined
              end
  end.

(** Lines 880-1003.  [order] is the order in which the entries happen to be
    processed: the jobs are shared out to threads. *)
Definition fill_in (order : list entry) (right_only : bool) (sl : slots) (M : system) : Matrix.Model.outcome system :=
  write_all right_only sl order (if right_only then M else mkSystem (fun _ => nofZ 0) (right_ M)).

End Coefficients.
Arguments sbody : clear implicits.
Arguments sspace : clear implicits.
Arguments eqn : clear implicits.
Arguments system : clear implicits.

(** * Driver, MConvectiveFast.cpp:217-231, 235-245 *)

Section Driver.
Context {K : Num}.
Variable tiny : K.          (* 1E-10 *)

(** TVec3D.hpp:17. *)
Definition is_zero (v : vec3 K) : bool := nabs (x (r3 v)) + nabs (y (r3 v)) + nabs (o3 v) <? tiny.

(** Lines 218-231; the speed at [S->time]. *)
Definition can_use_inverse (l : list (sbody K)) : bool :=
  forallb (fun b => is_zero (own (fb b))
     && isrigid (get CX (Flow.Model.kspring (fb b))) && isrigid (get CY (Flow.Model.kspring (fb b)))
     && isrigid (get CO (Flow.Model.kspring (fb b)))) l.

(** Lines 241-270: the calls made on the matrix, [m] and [r] being what a full
    fill writes. *)
Definition circulation_ops (collision : ptr) (l : list (sbody K)) (late : bool) (addr : unk -> Z)
    (m rr : list Z) (junk : list Z) (M : matrix) : list op :=
  let sizes := map (fun b => length (alist (g_of b))) l in
  let n := system_size sizes in
  let use_inverse := ptr_eqb collision PNull && can_use_inverse l && late in
  Resize n junk ::
  (if ok_ (resize n junk M) && use_inverse then [FillRight rr]
   else map (fun e => Set_ (fst e) (addr (snd e))) (combine (seq 0 n) (unknowns sizes)) ++ [Fill m rr])
  ++ [Solve use_inverse].
End Driver.
