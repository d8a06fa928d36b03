(** Model of [class MFlowmove], libvvhd/src/MFlowmove.cpp, and of
    [Space::zero_forces], libvvhd/src/TSpace.cpp:122-143.
    [None] stands for undefined behaviour or a loop that does not end. *)

From Coq Require Import ZArith Bool List.
From Verif.Base Require Import Num.
From Verif.Body Require Import Model.
Import ListNotations.
Local Open Scope num_scope.

Section Flow.
Context {K : Num}.
Notation vec := (vec K).
Notation vec3 := (vec3 K).

(** TObj, TObj.hpp:10-17. *)
Record obj := mkObj { pos : vec; og : K; vel : vec }.

Inductive heat_cond := Neglect | Isolate | ConstT | ConstW.       (* TBody.hpp:15 *)

(** The fields of TAtt that are not geometry, TBody.hpp:26-37. *)
Record seg := mkSeg { sg : K; gsum : K; hsum : K; heat_const : K; obj_no : option nat }.

(** The fields of TBody used here.  [own] is [speed(S->time)].  [root] is the
    number of the root body in the list of bodies. *)
Record fbody := mkFBody {
  geo : body K; segs : list seg;
  kspring : vec3; cmin : vec3; cmax : vec3;
  own : vec3; root : option nat; cond : heat_cond;
  fdt_dead : vec3; g_dead : K }.

Definition set_geo (x : body K) (b : fbody) : fbody :=
  mkFBody x (segs b) (kspring b) (cmin b) (cmax b) (own b) (root b) (cond b) (fdt_dead b) (g_dead b).
Definition set_segs (s : list seg) (b : fbody) : fbody :=
  mkFBody (geo b) s (kspring b) (cmin b) (cmax b) (own b) (root b) (cond b) (fdt_dead b) (g_dead b).
Definition set_dead (s : list seg) (f : vec3) (g : K) (b : fbody) : fbody :=
  mkFBody (geo b) s (kspring b) (cmin b) (cmax b) (own b) (root b) (cond b) f g.

Record space := mkSpace { bodies : list fbody; vort : list obj; heat : list obj; streak : list obj }.

Variables inf dbl_max : K.
Variables cosf sinf : K -> K.

(** ** Detection of collisions, MFlowmove.cpp:19-57 *)

Definition isrigid (k : K) : bool := negb ((nofZ 0 <=? k) && nfinite k).        (* TBody.hpp:137-139 *)

Inductive comp := CX | CY | CO.
Definition get (c : comp) (v : vec3) : K := match c with CX => x (r3 v) | CY => y (r3 v) | CO => o3 v end.

Definition cur_pos (b : fbody) (c : comp) : K := get c (holder (geo b)) + get c (dpos (geo b)).

(** Lines 44-49; [None] is the NaN, which is not smaller than anything. *)
Definition hit_time (dt : K) (b : fbody) (c : comp) : option K :=
  let cur := cur_pos b c in
  let v := get c (speed_slae (geo b)) in
  let new := cur + dt * v in
  if isrigid (get c (kspring b)) then None
  else if get c (cmax b) <? new then Some ((get c (cmax b) - cur) / v)
  else if new <? get c (cmin b) then Some ((get c (cmin b) - cur) / v)
  else None.

(** The collision pointer: address of the spring constant. *)
Definition pointer : Type := option (nat * comp).

Definition check (dt : K) (i : nat) (b : fbody) (st : K * pointer) (c : comp) : K * pointer :=
  match hit_time dt b c with
  | Some t => if t <? fst st then (t, Some (i, c)) else st
  | None => st
  end.

Fixpoint detect (dt : K) (i : nat) (l : list fbody) (st : K * pointer) : K * pointer :=
  match l with
  | [] => st
  | b :: t => detect dt (S i) t (fold_left (check dt i b) [CX; CY; CO] st)
  end.

(** ** Motion of bodies, lines 61-103 *)

Definition vadd3 (a b : vec3) : vec3 := mkVec3 (vadd (r3 a) (r3 b)) (o3 a + o3 b).

(** Lines 81-92.  The chain of roots is followed until a body without root. *)
Fixpoint chain_error (fuel : nat) (bs : list fbody) (dt : K) (child : fbody) : option vec :=
  match root child with
  | None => Some vzero
  | Some j =>
      match fuel, nth_error bs j with
      | S fuel, Some rt =>
          let dr := vsub (r3 (holder (geo child))) (get_axis (geo rt)) in
          let da := o3 (speed_slae (geo rt)) * dt in
          let error := vsub (vadd dr (vscale (rotl dr) da)) (vadd (vscale dr (cosf da)) (vscale (rotl dr) (sinf da))) in
          option_map (vadd error) (chain_error fuel bs dt rt)
      | _, _ => None
      end
  end.

(** Lines 66-95: displacement of the holder and of the body.  The errors are
    summed before they are subtracted, which is the same in exact arithmetic. *)
Definition deltas (fuel : nat) (bs : list fbody) (dt : K) (b : fbody) : option (vec3 * vec3) :=
  let dh := match root b with
            | None => Some (own b)
            | Some j => match nth_error bs j with
                        | Some rt => let dr := vsub (r3 (holder (geo b))) (get_axis (geo rt)) in
                                     let s := speed_slae (geo rt) in
                                     Some (mkVec3 (vadd (r3 (own b)) (vadd (r3 s) (vscale (rotl dr) (o3 s)))) (o3 (own b) + o3 s))
                        | None => None
                        end
            end in
  match dh, chain_error fuel bs dt b with
  | Some dh, Some e =>
      let s := speed_slae (geo b) in
      Some (mkVec3 (vsub (vscale (r3 dh) dt) e) (o3 dh * dt), mkVec3 (vsub (vscale (r3 s) dt) e) (o3 s * dt))
  | _, _ => None
  end.

Definition move_body (fuel : nat) (bs : list fbody) (dt : K) (b : fbody) : option fbody :=
  option_map (fun d => set_geo (move inf cosf sinf (fst d) (snd d) (geo b)) b) (deltas fuel bs dt b).

Fixpoint all_some {A B} (f : A -> option B) (l : list A) : option (list B) :=
  match l with
  | [] => Some []
  | a :: t => match f a, all_some f t with Some x, Some y => Some (x :: y) | _, _ => None end
  end.

(** All displacements are computed before the first body moves. *)
Definition move_bodies (fuel : nat) (dt : K) (bs : list fbody) : option (list fbody) :=
  all_some (move_body fuel bs dt) bs.

(** Lines 104-107. *)
Definition move_obj (dt : K) (o : obj) : obj := mkObj (vadd (pos o) (vscale (vel o) dt)) (og o) (vel o).

(** ** Removal, lines 109-206 *)

Variable remove_eps : K.

Definition small (g : K) : bool := nabs g <? remove_eps.

(** Lines 127-133: the first body that contains the point, and its segment. *)
Fixpoint first_hit (i : nat) (bs : list fbody) (p : vec) : option (option (nat * nat)) :=
  match bs with
  | [] => Some None
  | b :: t => match is_point_invalid dbl_max (geo b) p with
              | None => None
              | Some None => first_hit (S i) t p
              | Some (Some k) => Some (Some (i, k))
              end
  end.

Fixpoint change {A} (i : nat) (f : A -> A) (l : list A) : list A :=
  match l, i with
  | [], _ => []
  | a :: t, O => f a :: t
  | a :: t, S i => a :: change i f t
  end.

Definition take_g (g : K) (s : seg) : seg := mkSeg (sg s) (gsum s - g) (hsum s) (heat_const s) (obj_no s).
Definition take_h (g : K) (s : seg) : seg := mkSeg (sg s) (gsum s) (hsum s - g) (heat_const s) (obj_no s).

(** Lines 136-140: a vortex dies in segment [k] of a body. *)
Definition absorb (o : obj) (k : nat) (b : fbody) : fbody :=
  set_dead (change k (take_g (og o)) (segs b))
    (vadd3 (fdt_dead b) (mkVec3 (vscale (rotl (pos o)) (og o)) (abs2 (vsub (pos o) (get_axis (geo b))) * og o)))
    (g_dead b + og o) b.

(** Lines 122-144. *)
Fixpoint clean_vort (bs : list fbody) (l : list obj) : option (list fbody * list obj * nat) :=
  match l with
  | [] => Some (bs, [], O)
  | o :: t =>
      match first_hit 0 bs (pos o) with
      | None => None
      | Some None => match clean_vort bs t with Some (bs', l', n) => Some (bs', o :: l', n) | None => None end
      | Some (Some (i, k)) => match clean_vort (change i (absorb o k) bs) t with Some (bs', l', n) => Some (bs', l', S n) | None => None end
      end
  end.

(** Lines 164-168: the first body whose heat layer contains the point; the
    layers asked are remembered by their bodies. *)
Fixpoint first_layer (bs : list fbody) (p : vec) : option (list fbody * option (nat * nat)) :=
  match bs with
  | [] => Some ([], None)
  | b :: t =>
      let '(x, h) := is_point_in_heat_layer dbl_max (geo b) p in
      let b' := set_geo x b in
      match h with
      | None => None
      | Some (Some k) => Some (b' :: t, Some (O, k))
      | Some None => match first_layer t p with
                     | None => None
                     | Some (t', None) => Some (b' :: t', None)
                     | Some (t', Some (i, k)) => Some (b' :: t', Some (S i, k))
                     end
      end
  end.

Definition set_obj_no (n : nat) (s : seg) : seg := mkSeg (sg s) (gsum s) (hsum s) (heat_const s) (Some n).
Definition change_seg (i k : nat) (f : seg -> seg) (bs : list fbody) : list fbody :=
  change i (fun b => set_segs (change k f (segs b)) b) bs.

Definition layer_taken (i k : nat) (bs : list fbody) : option (option nat * heat_cond) :=
  match nth_error bs i with
  | Some b => match nth_error (segs b) k with Some s => Some (obj_no s, cond b) | None => None end
  | None => None
  end.

(** Lines 146-184; [n] is the number of objects kept so far. *)
Fixpoint clean_heat (n : nat) (bs : list fbody) (l : list obj) : option (list fbody * list obj) :=
  let keep o r := match r with Some (bs', l') => Some (bs', o :: l') | None => None end in
  match l with
  | [] => Some (bs, [])
  | o :: t =>
      match first_hit 0 bs (pos o) with
      | None => None
      | Some (Some (i, k)) => clean_heat n (change_seg i k (take_h (og o)) bs) t
      | Some None =>
          match first_layer bs (pos o) with
          | None => None
          | Some (bs, None) => keep o (clean_heat (S n) bs t)
          | Some (bs, Some (i, k)) =>
              match layer_taken i k bs with
              | Some (Some _, ConstT) => clean_heat n (change_seg i k (take_h (og o)) bs) t
              | Some (None, ConstT) => keep o (clean_heat (S n) (change_seg i k (set_obj_no n) bs) t)
              | Some (_, _) => keep o (clean_heat (S n) bs t)
              | None => None
              end
          end
      end
  end.

(** Lines 186-190. *)
Fixpoint clean_streak (bs : list fbody) (l : list obj) : option (list obj) :=
  match l with
  | [] => Some []
  | o :: t => match first_hit 0 bs (pos o), clean_streak bs t with
              | Some None, Some t' => Some (o :: t')
              | Some (Some _), Some t' => Some t'
              | _, _ => None
              end
  end.

Definition stop (o : obj) : obj := mkObj (pos o) (og o) vzero.          (* 192-197 *)

(** Lines 199-212: circulation of segments that is not shed. *)
Definition bury1 (axis : vec) (st : list seg * vec3 * K) (e : att K * seg) : list seg * vec3 * K :=
  let '(out, f, d) := st in
  let '(a, s) := e in
  if small (sg s) || slip a then
    (out ++ [take_g (sg s) s],
     vadd3 f (mkVec3 (vscale (rotl (corner a)) (sg s)) (abs2 (vsub (corner a) axis) * sg s)),
     d + sg s)
  else (out ++ [s], f, d).

Definition bury (b : fbody) : fbody :=
  let '(s, f, d) := fold_left (bury1 (get_axis (geo b))) (combine (alist (geo b)) (segs b)) ([], fdt_dead b, g_dead b) in
  set_dead s f d b.

(** [move_and_clean(true, &collision, &cleaned)]; the motion of inf_marker
    (line 59) is not modelled. *)
Definition move_and_clean (fuel : nat) (dt : K) (S : space) : option (space * K * pointer * nat) :=
  let '(cdt, ptr) := detect dt 0 (bodies S) (dt, None) in
  match move_bodies fuel cdt (bodies S) with
  | None => None
  | Some bs =>
      let keep := filter (fun o => negb (small (og o))) in
      let vl := keep (map (move_obj cdt) (vort S)) in
      let hl := keep (map (move_obj cdt) (heat S)) in
      match clean_vort bs vl with
      | None => None
      | Some (bs, vl, n) =>
          match clean_heat 0 bs hl with
          | None => None
          | Some (bs, hl) =>
              match clean_streak bs (map (move_obj cdt) (streak S)) with
              | None => None
              | Some sl => Some (mkSpace (map bury bs) (map stop vl) (map stop hl) (map stop sl), cdt, ptr, n)
              end
          end
      end
  end.

(** ** Shedding *)

Variable shed_gap : K.      (* 1e-4 *)

(** MFlowmove.cpp:215-233. *)
Definition shed1 (e : att K * seg) : list obj :=
  let '(a, s) := e in
  if (remove_eps <=? nabs (sg s)) && negb (slip a)
  then [mkObj (vadd (corner a) (vscale (rotl (dl a)) shed_gap)) (sg s) vzero] else [].
Definition count_g (s : seg) : seg := mkSeg (sg s) (gsum s + sg s) (hsum s) (heat_const s) (obj_no s).
Definition vortex_shed (S : space) : space :=
  mkSpace (map (fun b => set_segs (map count_g (segs b)) b) (bodies S))
    (vort S ++ flat_map (fun b => flat_map shed1 (combine (alist (geo b)) (segs b))) (bodies S))
    (heat S) (streak S).

(** MFlowmove.cpp:235-272, one segment. *)
Definition set_h (h : K) (s : seg) : seg := mkSeg (sg s) (gsum s) h (heat_const s) (obj_no s).
Definition heat_seg (c : heat_cond) (a : att K) (s : seg) (l : list obj) : option (seg * list obj) :=
  let place := vadd (r a) (vscale (rotl (dl a)) half) in
  let g := abs2 (dl a) * heat_const s in
  match c with
  | Neglect => Some (s, l)
  | Isolate => if hsum s =? nofZ 0 then Some (s, l)
               else Some (set_h (nofZ 0) s, l ++ [mkObj place (- hsum s) vzero])
  | ConstT => match obj_no s with
              | Some n => match nth_error l n with
                          | Some o => Some (set_h (hsum s + (g - og o)) s, change n (fun o => mkObj (pos o) g (vel o)) l)
                          | None => None
                          end
              | None => Some (set_h (hsum s + g) s, l ++ [mkObj place g vzero])
              end
  | ConstW => Some (set_h (hsum s + g) s, l ++ [mkObj place g vzero])
  end.

Fixpoint heat_segs (c : heat_cond) (al : list (att K)) (sl : list seg) (l : list obj) : option (list seg * list obj) :=
  match al, sl with
  | a :: al, s :: sl => match heat_seg c a s l with
                        | None => None
                        | Some (s', l) => match heat_segs c al sl l with Some (sl', l) => Some (s' :: sl', l) | None => None end
                        end
  | _, _ => Some (sl, l)
  end.

Fixpoint heat_bodies (bs : list fbody) (l : list obj) : option (list fbody * list obj) :=
  match bs with
  | [] => Some ([], l)
  | b :: t => match heat_segs (cond b) (alist (geo b)) (segs b) l with
              | None => None
              | Some (s, l) => match heat_bodies t l with Some (t', l) => Some (set_segs s b :: t', l) | None => None end
              end
  end.

Definition heat_shed (S : space) : option space :=
  match heat_bodies (bodies S) (heat S) with
  | Some (bs, l) => Some (mkSpace bs (vort S) l (streak S))
  | None => None
  end.

(** MFlowmove.cpp:274-281. *)
Definition heat_crop (scale : K) (S : space) : space :=
  mkSpace (bodies S) (vort S) (filter (fun o => negb (scale <? x (pos o))) (heat S)) (streak S).

(** MFlowmove.cpp:283-290; [due] is the test of line 285. *)
Definition streak_shed (due : bool) (sources : list obj) (S : space) : space :=
  if due then mkSpace (bodies S) (vort S) (heat S) (streak S ++ sources) else S.

(** The end of the loop of vvflow.cpp:217-265: lines 257-262.  Times are plain
    numbers here; TTime is modelled in Time/Model.v. *)
Definition finish (fuel : nat) (dt scale time : K) (S : space) : option (space * K) :=
  match move_and_clean fuel dt S with
  | Some (S', _, _, _) => Some (heat_crop scale S', time + dt)
  | None => None
  end.

(** TSpace.cpp:122-143. *)
Definition zero_seg (s : seg) : seg := mkSeg (sg s) (nofZ 0) (nofZ 0) (heat_const s) None.
Definition zero_forces (S : space) : space :=
  mkSpace (map (fun b => set_dead (map zero_seg (segs b)) (mkVec3 vzero (nofZ 0)) (nofZ 0) b) (bodies S))
    (vort S) (heat S) (streak S).

End Flow.
Arguments obj : clear implicits.
Arguments seg : clear implicits.
Arguments fbody : clear implicits.
Arguments space : clear implicits.
