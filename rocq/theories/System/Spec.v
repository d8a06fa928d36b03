(** What the properties of the linear system refer to. *)

From Coq Require Import ZArith Bool List Reals Permutation.
From Verif.Base Require Import Num.
From Verif.Matrix Require Import Model.
From Verif.Body Require Import Model Spec.
From Verif.Flow Require Import Model.
From Verif.System Require Import Model.
Import ListNotations.

Definition sizes_of {K : Num} (S : sspace K) : list nat := map (fun b => length (alist (g_of b))) (sbodies S).
Definition shapes_of {K : Num} (S : sspace K) : list shape := map (shape_of (late S)) (sbodies S).

(** The cell belongs to a body of the list and a segment of that body. *)
Definition known (sizes : list nat) (u : unk) : Prop :=
  match u with
  | UG b i => exists n, nth_error sizes b = Some n /\ (i < n)%nat
  | UV b _ | UH b _ | UF b _ => (b < length sizes)%nat
  end.

Definition injective (addr : unk -> Z) : Prop := forall u v, addr u = addr v -> u = v.

(** Columns hold nothing, or foreign pointers, or what they are going to hold. *)
Definition no_clash (addr : unk -> Z) (sizes : list nat) (s : slots) : Prop :=
  length (ptrs s) = system_size sizes /\
  forall c p u, nth_error (ptrs s) c = Some p -> known sizes u -> p = addr u -> nth_error (unknowns sizes) c = Some u.

(** The number of equations of a kind. *)
Definition count (P : kind -> bool) (l : list entry) : nat := length (filter (fun e => P (ekind e)) l).
Definition is_inf (k : kind) : bool := match k with InfSteady => true | _ => false end.
Definition is_zero_row (k : kind) : bool := match k with Zero => true | _ => false end.
Definition is_steady (k : kind) : bool := match k with Steady => true | _ => false end.

(** The value of a coefficient: the last one written, else 0. *)
Definition unk_eqb (u w : unk) : bool :=
  match u, w with
  | UG b i, UG b' i' => Nat.eqb b b' && Nat.eqb i i'
  | UV b c, UV b' c' | UH b c, UH b' c' | UF b c, UF b' c' => Nat.eqb b b' && comp_eqb c c'
  | _, _ => false
  end.
Definition coef {K : Num} (l : list (unk * K)) (u : unk) : K :=
  fold_left (fun a e => if unk_eqb (fst e) u then snd e else a) l (nofZ 0).

(** Column number of a cell: bodies in order, each with its segments and then
    three speeds, three hydrodynamic and three holder forces. *)
Definition comp_no (c : comp) : nat := match c with CX => 0 | CY => 1 | CO => 2 end.
Definition start (sizes : list nat) (b : nat) : nat := fold_right (fun n t => n + 9 + t)%nat 0 (firstn b sizes).
Definition offset (n : nat) (u : unk) : nat :=
  match u with
  | UG _ i => i
  | UV _ c => n + comp_no c
  | UH _ c => n + 3 + comp_no c
  | UF _ c => n + 6 + comp_no c
  end.
Definition ubody (u : unk) : nat := match u with UG b _ | UV b _ | UH b _ | UF b _ => b end.
Definition col (sizes : list nat) (u : unk) : nat := start sizes (ubody u) + offset (nth (ubody u) sizes 0) u.

(** The roots are bodies of the list. *)
Definition roots_listed {K : Num} (S : sspace K) : Prop :=
  forall b j, In b (sbodies S) -> root (fb b) = Some j -> (j < length (sbodies S))%nat.

(** The cells are registered in their columns. *)
Definition registered (addr : unk -> Z) (sizes : list nat) (s : slots) : Prop :=
  forall u, known sizes u -> get_col s (addr u) = Z.of_nat (col sizes u).

(** The plan has an equation of this kind for the body. *)
Definition has (es : list entry) (b : nat) (k : kind) : Prop := exists e, In e es /\ ebody e = b /\ ekind e = k.

(** Order in which the degrees of freedom are visited. *)
Definition earlier (i : nat) (d : comp) (b : nat) (c : comp) : Prop := (i < b)%nat \/ (i = b /\ (comp_no d < comp_no c)%nat).

Local Open Scope R_scope.

(** [x] solves the [N] equations. *)
Definition solves (N : nat) (M : system RNum) (x : nat -> R) : Prop :=
  forall row, (row < N)%nat ->
    total (fun c => cell M (row * N + c)%nat * x c) (seq 0 N) = right_ M row.

(** Numbers by column. *)
Definition values (sizes : list nat) (v : unk -> R) (c : nat) : R := v (nth c (unknowns sizes) (UG 0 0)).

(** [v] is the exact solution of the system written for [S] when the collision
    pointer is [p], whatever the order of the jobs and the old content. *)
Definition solution (S : sspace RNum) (p : ptr) (v : unk -> R) : Prop :=
  exists atan2f two_pi inv_2pi sinks free_flux addr es q order sl M M',
    plan (shapes_of S) p = Some (es, q) /\ Permutation es order /\
    registered addr (sizes_of S) sl /\ roots_listed S /\
    fill_in (K:=RNum) ln atan2f two_pi inv_2pi (/ 4) (/ 1000) S sinks free_flux addr
      (system_size (sizes_of S)) order false sl M = Ok M' /\
    solves (system_size (sizes_of S)) M' (values (sizes_of S) v).

(** No body is its own root. *)
Definition no_self_root (S : sspace RNum) : Prop :=
  forall i b, nth_error (sbodies S) i = Some b -> root (fb b) <> Some i.

(** Speed of a body in the solution. *)
Definition speed_in (v : unk -> R) (i : nat) : vec3 RNum :=
  @mkVec3 RNum (P (v (UV i CX)) (v (UV i CY))) (v (UV i CO)).

(** Mass, arm of the centre of mass about the axis, velocity of the centre of mass. *)
Definition mass (b : sbody RNum) : R := area (g_of b) * density b.
Definition arm (b : sbody RNum) : pt := vsub (cofm (g_of b)) (get_axis (g_of b)).
Definition com_speed (b : sbody RNum) (s : vec3 RNum) : pt :=
  P (px (r3 s) - py (arm b) * o3 s) (py (r3 s) + px (arm b) * o3 s).
Definition cross2 (p q : pt) : R := px p * py q - py p * px q.
(** Angular momentum about the axis. *)
Definition spin (b : sbody RNum) (s : vec3 RNum) : R :=
  mass b * cross2 (arm b) (r3 s) + density b * moi_axis (g_of b) * o3 s.

(** Sum over the bodies, with their numbers. *)
Definition each (S : sspace RNum) (f : nat -> sbody RNum -> R) : R :=
  total (fun e : nat * sbody RNum => f (fst e) (snd e)) (indexed (sbodies S)).
(** A force that acts on the bodies without a root only. *)
Definition if_free (b : sbody RNum) (f : R) : R := match root (fb b) with None => f | Some _ => 0 end.

Definition rootless (e : nat * sbody RNum) : bool := match root (fb (snd e)) with None => true | Some _ => false end.

(** The bodies with the speeds of the solution. *)
Definition set_speed (s : vec3 RNum) (b : body RNum) : body RNum :=
  mkBody (alist b) (holder b) (dpos b) s (speed_slae_prev b) (slip_ b) (slen b) (area b)
    (cofm b) (moi b) (disc_r2 b) (rect_bl b) (rect_tr b) (heat_layer b).
Definition solved_bodies (S : sspace RNum) (v : unk -> R) : list (fbody RNum) :=
  map (fun e : nat * sbody RNum => set_geo (set_speed (speed_in v (fst e)) (g_of (snd e))) (fb (snd e))) (indexed (sbodies S)).

(** Circulation of a body: its segments and the rotating interior. *)
Definition body_circulation (v : unk -> R) (e : nat * sbody RNum) : R :=
  total (fun k => v (UG (fst e) k)) (seq 0 (length (alist (g_of (snd e))))) + 2 * area (g_of (snd e)) * v (UV (fst e) CO).

(** ** From one step to the next *)

(** What a step leaves alone. *)
Definition kept (b b' : sbody RNum) : Prop :=
  root (fb b') = root (fb b) /\ Flow.Model.kspring (fb b') = Flow.Model.kspring (fb b) /\
  density b' = density b /\ damping b' = damping b /\ special_ b' = special_ b /\ kutta_ b' = kutta_ b.

(** [S'] is [S] after a step with the speeds [v]: the bodies have moved; loads,
    vortices and prescribed speeds are new. *)
Definition next_step (inf : R) (S : sspace RNum) (v : unk -> R) (S' : sspace RNum) : Prop :=
  exists fuel bs', move_bodies (K:=RNum) inf cos sin fuel (dt S) (solved_bodies S v) = Some bs' /\
    map (fun b => geo (fb b)) (sbodies S') = map (fun b => geo b) bs' /\
    Forall2 kept (sbodies S) (sbodies S') /\ dt S' = dt S /\ late S' = late S.

(** Nothing is set in motion and nothing can yield. *)
Definition at_rest (b : sbody RNum) : Prop :=
  own (fb b) = @mkVec3 RNum (P 0 0) 0 /\ forall c, isrigid (get c (Flow.Model.kspring (fb b))) = true.

(** Derived data is up to date. *)
Definition fresh (inf : R) (b : sbody RNum) : Prop := refresh (K:=RNum) inf (g_of b) = g_of b.

(** The cells of [M] are the ones a full fill writes. *)
Definition filled (at2 : R -> R -> R) (tp ip : R) (S : sspace RNum) (addr : unk -> Z) (sl : slots) (M : system RNum) : Prop :=
  forall sk ff es q order M0 M1,
    plan (shapes_of S) PNull = Some (es, q) -> Permutation es order ->
    fill_in (K:=RNum) ln at2 tp ip (/ 4) (/ 1000) S sk ff addr (system_size (sizes_of S)) order false sl M0 = Ok M1 ->
    forall k, (k < system_size (sizes_of S) * system_size (sizes_of S))%nat -> cell M k = cell M1 k.

(** ** Influence of a vortex on a segment *)

(** Stream function of a vortex with a core of radius [rd], at squared distance [q]. *)
Definition stream (rd q : R) : R :=
  if Rle_dec (rd * rd) q then / 2 * ln (q / (rd * rd)) else / 2 * (q / (rd * rd) - 1).

Definition dist2 (p q : pt) : R := (px p - px q) * (px p - px q) + (py p - py q) * (py p - py q).

(** [r] of a segment is its centre. *)
Definition centred (s : att RNum) : Prop := r s = P (px (corner s) + px (dl s) / 2) (py (corner s) + py (dl s) / 2).

Definition seg_end (s : att RNum) : pt := P (px (corner s) + px (dl s)) (py (corner s) + py (dl s)).

(** ** Laws of a solution *)

(** As [solution], with the functions of the flow named. *)
Definition solution_with (at2 : R -> R -> R) (tp ip : R) (sk : pt -> pt) (ff : att RNum -> R)
    (S : sspace RNum) (p : ptr) (v : unk -> R) : Prop :=
  exists addr es q order sl M M',
    plan (shapes_of S) p = Some (es, q) /\ Permutation es order /\
    registered addr (sizes_of S) sl /\ roots_listed S /\
    fill_in (K:=RNum) ln at2 tp ip (/ 4) (/ 1000) S sk ff addr
      (system_size (sizes_of S)) order false sl M = Ok M' /\
    solves (system_size (sizes_of S)) M' (values (sizes_of S) v).

(** Flux of the uniform velocity [u] through a segment. *)
Definition flux (u : pt) (s : att RNum) : R := px u * py (dl s) - py u * px (dl s).

(** What a vortex of unit strength in the corner [a] of another segment, with a
    core a quarter of its length, sends through [s], times 2 pi. *)
Definition seg_len (a : att RNum) : R := sqrt (px (dl a) * px (dl a) + py (dl a) * py (dl a)).
Definition vortex_flux (a s : att RNum) : R :=
  stream (seg_len a / 4) (dist2 (corner a) (seg_end s)) - stream (seg_len a / 4) (dist2 (corner a) (corner s)).

(** Velocity of the wall at [q] when the body turns about [o] with unit speed. *)
Definition turning (o q : pt) : pt := P (- (py q - py o)) (px q - px o).
(** The moving wall is a layer of vortices [u . dl] and a layer of sources
    [u x dl]; the point is moved off the segment it acts on itself. *)
Definition layer_flux (at2 : R -> R -> R) (itself : bool) (o : pt) (a s : att RNum) : R :=
  let q := if itself then P (px (r a) - py (dl s) / 1000) (py (r a) + px (dl s) / 1000) else r a in
  let X := xi_at (K:=RNum) ln at2 q s (seg_len a / 4) in
  let u := turning o (r a) in
  px X * (px u * px (dl a) + py u * py (dl a)) + py X * flux u a.

(** The sum over the segments of a body, with their numbers. *)
Definition along (b : sbody RNum) (f : nat -> att RNum -> R) : R :=
  total (fun e : nat * att RNum => f (fst e) (snd e)) (indexed (alist (g_of b))).

(** Impulse of the vortices of the wall and of the fluid displaced by a body that
    moves with the speed [s]. *)
Definition turn (q : pt) : pt := P (- py q) (px q).
Definition wall_impulse (b : sbody RNum) (g : nat -> R) : pt :=
  P (along b (fun k a => g k * px (turn (corner a)))) (along b (fun k a => g k * py (turn (corner a)))).
Definition carried (b : sbody RNum) (s : vec3 RNum) : pt :=
  let c := cofm (g_of b) in
  P (area (g_of b) * (px (r3 s) + o3 s * px (turn (P (2 * px c + px (arm b)) (2 * py c + py (arm b))))))
    (area (g_of b) * (py (r3 s) + o3 s * py (turn (P (2 * px c + px (arm b)) (2 * py c + py (arm b)))))).
Definition wall_moment (b : sbody RNum) (g : nat -> R) : R :=
  along b (fun k a => g k * dist2 (corner a) (get_axis (g_of b)) / 2).
Definition carried_moment (b : sbody RNum) (s : vec3 RNum) : R :=
  area (g_of b) * cross2 (arm b) (r3 s) + 2 * moi_axis (g_of b) * o3 s.

(** ** The same state with another origin *)

Definition by_ (d q : pt) : pt := P (px q + px d) (py q + py d).
Definition moved_att (d : pt) (a : att RNum) : att RNum :=
  @mkAtt RNum (by_ d (corner a)) (slip a) (dl a) (by_ d (r a)) (eps1 a).
Definition moved_geo (d : pt) (g : body RNum) : body RNum :=
  @mkBody RNum (map (moved_att d) (alist g)) (@mkVec3 RNum (by_ d (r3 (holder g))) (o3 (holder g))) (dpos g)
    (speed_slae g) (speed_slae_prev g) (slip_ g) (slen g) (area g) (by_ d (cofm g)) (moi g)
    (disc_r2 g) (by_ d (rect_bl g)) (by_ d (rect_tr g)) (map (by_ d) (heat_layer g)).
(** [fdt_dead.r] is the sum of [g] times the turned positions of the vortices
    that died, [g_dead] the sum of their [g]. *)
Definition moved_fb (d : pt) (f : fbody RNum) : fbody RNum :=
  @mkFBody RNum (moved_geo d (geo f)) (segs f) (Flow.Model.kspring f) (cmin f) (cmax f) (own f) (root f) (cond f)
    (@mkVec3 RNum (P (px (r3 (fdt_dead f)) + g_dead f * px (turn d)) (py (r3 (fdt_dead f)) + g_dead f * py (turn d))) (o3 (fdt_dead f)))
    (g_dead f).
Definition moved_body (d : pt) (b : sbody RNum) : sbody RNum :=
  @mkSBody RNum (moved_fb d (fb b)) (density b) (damping b) (bounce b) (torque b) (special_ b) (kutta_ b) (force_holder b) (friction_prev b).
Definition moved (d : pt) (S : sspace RNum) : sspace RNum :=
  @mkSSpace RNum (map (moved_body d) (sbodies S)) (late S) (dt S) (gravity S) (inf_speed S) (inf_g S) (gfree S).
