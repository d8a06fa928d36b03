(** Model of [class TBody], libvvhd/src/TBody.cpp, and TVec.hpp. *)

From Coq Require Import ZArith Bool List String.
From Verif.Base Require Import Num.
Import ListNotations.
Local Open Scope num_scope.

(** * Vectors, TVec.hpp:5-37 *)

Section Vec.
Context {K : Num}.

Record vec := mkVec { x : K; y : K }.

Definition vadd (p q : vec) : vec := mkVec (x p + x q) (y p + y q).
Definition vsub (p q : vec) : vec := mkVec (x p - x q) (y p - y q).
Definition vscale (p : vec) (c : K) : vec := mkVec (x p * c) (y p * c).
Definition vdiv (p : vec) (c : K) : vec := vscale p (nofZ 1 / c).
Definition dot (p q : vec) : K := x p * x q + y p * y q.
Definition abs2 (p : vec) : K := x p * x p + y p * y p.
Definition vabs (p : vec) : K := nsqrt (x p * x p + y p * y p).
Definition rotl (p : vec) : vec := mkVec (- y p) (x p).
Definition vzero : vec := mkVec (nofZ 0) (nofZ 0).

(** TVec3D.hpp: a vector and an angle. *)
Record vec3 := mkVec3 { r3 : vec; o3 : K }.
End Vec.
Arguments vec : clear implicits.
Arguments vec3 : clear implicits.

(** * Bodies *)

Section Body.
Context {K : Num}.
Notation vec := (vec K).
Notation vec3 := (vec3 K).

Definition half : K := nofZ 1 / nofZ 2.

(** TAtt, TBody.hpp:17-55: the fields used here. *)
Record att := mkAtt { corner : vec; slip : bool; dl : vec; r : vec; eps1 : K }.

(** TBody, TBody.hpp:57-158: the fields used here. *)
Record body := mkBody {
  alist : list att;
  holder : vec3; dpos : vec3;
  speed_slae : vec3; speed_slae_prev : vec3;
  slip_ : bool; slen : K; area : K; cofm : vec; moi : K;
  disc_r2 : K; rect_bl : vec; rect_tr : vec;
  heat_layer : list vec
}.

Definition get_axis (b : body) : vec := vadd (r3 (holder b)) (r3 (dpos b)).     (* TBody.hpp:124 *)
(* TBody.hpp:129-132 *)
Definition moi_axis (b : body) : K := moi b + abs2 (vsub (get_axis b) (cofm b)) * area b.

(** ** Segments, TBody.cpp:200-215 *)

(** An element with its successor; the last one is followed by the first,
    the copy pushed to the end of the list. *)
Definition nexts {A} (l : list A) : list (A * A) :=
  match l with
  | [] => []
  | a :: t => combine l (t ++ [a])
  end.

(** The loop writes dl, _1_eps, r and reads corners only. *)
Definition segment (p : att * att) : att :=
  let d := vsub (corner (snd p)) (corner (fst p)) in
  mkAtt (corner (fst p)) (slip (fst p)) d (vscale (vadd (corner (snd p)) (corner (fst p))) half)
    (nofZ 3 / vabs d).

Definition update_segments (l : list att) : list att := map segment (nexts l).

(** ** Properties, TBody.cpp:283-343 *)

Definition sum (f : att * att -> K) (l : list att) : K :=
  fold_left (fun a p => a + f p) (nexts l) (nofZ 0).
(** [x -= f] *)
Definition dif (f : att * att -> K) (l : list att) : K :=
  fold_left (fun a p => a - f p) (nexts l) (nofZ 0).

Definition cross (p : att * att) : K := dot (rotl (corner (fst p))) (corner (snd p)).

Definition fill_slen (l : list att) : K := sum (fun p => vabs (dl (fst p))) l.           (* 297 *)
Definition fill_area (l : list att) : K := sum (fun p => y (r (fst p)) * x (dl (fst p))) l.   (* 298 *)

(** Lines 303-323. *)
Definition fill_cofm (l : list att) : vec * K :=
  let A := fill_area l in
  if A =? nofZ 0 then
    (vdiv (mkVec (sum (fun p => x (r (fst p)) * vabs (dl (fst p))) l)
                 (sum (fun p => y (r (fst p)) * vabs (dl (fst p))) l)) (fill_slen l), nofZ 0)
  else
    let S3 := mkVec (dif (fun p => x (r (fst p)) * cross p) l) (dif (fun p => y (r (fst p)) * cross p) l) in
    let m12 := dif (fun p => (abs2 (corner (fst p)) + dot (corner (fst p)) (corner (snd p)) + abs2 (corner (snd p))) * cross p) l in
    let c := vdiv S3 (nofZ 3 * A) in
    (c, m12 / nofZ 12 - A * abs2 c).

Variable inf : K.           (* numeric_limits<double>::infinity() *)

(** Lines 327-342; [c] is the centre of mass. *)
Definition fill_disc (c : vec) (l : list att) : K :=
  fold_left (fun m a => let r2 := abs2 (vsub (corner a) c) in if m <? r2 then r2 else m) l (nofZ 0).
Definition fill_tr (f : vec -> K) (l : list att) : K :=
  fold_left (fun m a => if m <? f (corner a) then f (corner a) else m) l (- inf).
Definition fill_bl (f : vec -> K) (l : list att) : K :=
  fold_left (fun m a => if f (corner a) <? m then f (corner a) else m) l inf.

(** Lines 283-343.  On an empty list only slip, length and area are reset. *)
Definition fill_properties (b : body) : body :=
  let l := alist b in
  match l with
  | [] => mkBody l (holder b) (dpos b) (speed_slae b) (speed_slae_prev b) false (nofZ 0) (nofZ 0)
            (cofm b) (moi b) (disc_r2 b) (rect_bl b) (rect_tr b) (heat_layer b)
  | _ =>
      let '(c, m) := fill_cofm l in
      mkBody l (holder b) (dpos b) (speed_slae b) (speed_slae_prev b)
        (existsb slip l) (fill_slen l) (fill_area l) c m
        (fill_disc c l) (mkVec (fill_bl x l) (fill_bl y l)) (mkVec (fill_tr x l) (fill_tr y l)) (heat_layer b)
  end.

Definition set_alist (l : list att) (b : body) : body :=
  mkBody l (holder b) (dpos b) (speed_slae b) (speed_slae_prev b) (slip_ b) (slen b) (area b)
    (cofm b) (moi b) (disc_r2 b) (rect_bl b) (rect_tr b) (heat_layer b).

(** What every change of corners ends with, e.g. lines 196-197 and 375-376. *)
Definition refresh (b : body) : body := fill_properties (set_alist (update_segments (alist b)) b).

(** ** Motion, TBody.cpp:179-198 *)

Variables cosf sinf : K -> K.

Definition move_corner (axis dr : vec) (c s : K) (p : vec) : vec :=
  let d := vsub p axis in
  vadd (vadd (vadd axis dr) (vscale d c)) (vscale (rotl d) s).

Definition move (deltaHolder deltaBody : vec3) (b : body) : body :=
  let axis := get_axis b in
  let c := cosf (o3 deltaBody) in
  let s := sinf (o3 deltaBody) in
  let l := map (fun a => mkAtt (move_corner axis (r3 deltaBody) c s (corner a)) (slip a) (dl a) (r a) (eps1 a)) (alist b) in
  let h := mkVec3 (vadd (r3 (holder b)) (r3 deltaHolder)) (o3 (holder b) + o3 deltaHolder) in
  let d := mkVec3 (vadd (r3 (dpos b)) (vsub (r3 deltaBody) (r3 deltaHolder))) (o3 (dpos b) + (o3 deltaBody - o3 deltaHolder)) in
  refresh (mkBody l h d (speed_slae b) (speed_slae b) (slip_ b) (slen b) (area b)
    (cofm b) (moi b) (disc_r2 b) (rect_bl b) (rect_tr b) (heat_layer b)).

(** ** Point in contour, TBody.cpp:217-281 *)

(** Lines 258-264, the edge from [vj] to its successor [vi] as the loop pairs them. *)
Definition crosses (p vi vj : vec) : bool :=
  ((y vi <? y vj) && (y vi <? y p) && (y p <=? y vj) &&
   ((x vj - x vi) * (y p - y vi) <? (y vj - y vi) * (x p - x vi)))
  || ((y vj <? y vi) && (y p <? y vi) && (y vj <=? y p) &&
      ((y vj - y vi) * (x p - x vi) <? (x vj - x vi) * (y p - y vi))).

(** Line 253: every element [i] with its predecessor [j], the last for the first. *)
Definition prevs (l : list vec) : list (vec * vec) :=
  match l with
  | [] => []
  | _ => combine l (List.last l vzero :: l)
  end.

Definition parity (p : vec) (l : list vec) (start : bool) : bool :=
  fold_left (fun a e => if crosses p (fst e) (snd e) then negb a else a) (prevs l) start.

Definition outside_box (b : body) (p : vec) : bool :=
  (x p <? x (rect_bl b)) || (y p <? y (rect_bl b)) || (x (rect_tr b) <? x p) || (y (rect_tr b) <? y p)
  || (disc_r2 b <? abs2 (vsub p (cofm b))).

Variable dbl_max : K.

(** Lines 270-278: number of the nearest segment. *)
Fixpoint nearest (p : vec) (k : nat) (l : list att) (best : option nat) (d : K) : option nat :=
  match l with
  | [] => best
  | a :: t => let dr2 := abs2 (vsub (r a) p) in
              if dr2 <? d then nearest p (S k) t (Some k) dr2 else nearest p (S k) t best d
  end.

(** Lines 238-281.  [None] for an empty contour, where [list.end()-1] is undefined. *)
Definition in_contour (b : body) (p : vec) (contour : list vec) : option (option nat) :=
  let inside_valid := area b <=? nofZ 0 in
  if negb inside_valid && outside_box b p then Some None
  else match contour with
  | [] => None
  | _ => if parity p contour inside_valid then Some (nearest p 0 (alist b) None dbl_max) else Some None
  end.

(** Lines 217-220. *)
Definition is_point_invalid (b : body) (p : vec) : option (option nat) :=
  in_contour b p (map corner (alist b)).

(** Lines 222-233: the contour is computed at the first call only. *)
Definition layer (b : body) : list vec := map (fun a => vadd (r a) (rotl (dl a))) (alist b).
Definition is_point_in_heat_layer (b : body) (p : vec) : body * option (option nat) :=
  let hl := match heat_layer b with [] => layer b | l => l end in
  let b' := mkBody (alist b) (holder b) (dpos b) (speed_slae b) (speed_slae_prev b) (slip_ b) (slen b) (area b)
              (cofm b) (moi b) (disc_r2 b) (rect_bl b) (rect_tr b) hl in
  (b', in_contour b' p hl).

(** A new body, TBody.cpp:10-54 (the null vectors). *)
Definition new : body :=
  let z3 := mkVec3 vzero (nofZ 0) in
  mkBody [] z3 z3 z3 z3 false (nofZ 0) (nofZ 0) vzero (nofZ 0) (nofZ 0) vzero vzero [].
(** A body with given corners. *)
Definition of_corners (l : list vec) : body :=
  refresh (set_alist (map (fun c => mkAtt c false vzero vzero (nofZ 0)) l) new).

End Body.
Arguments att : clear implicits.
Arguments body : clear implicits.

(** * Validation, TBody.cpp:97-168 *)

Section Validate.
Context {K : Num}.
Variable inf : K.

(** The nine parameters, three per degree of freedom. *)
Record params := mkParams {
  damping : K * K * K; kspring : K * K * K; collision_min : K * K * K; collision_max : K * K * K }.

Inductive outcome := Accepted (p : params) | Throws (what : string).

(** Messages of the non-critical mode are not modelled. *)
Definition bad_damping (v : K) : bool := negb (nfinite v).           (* 105 *)

(** Lines 124-141. *)
Definition fix_kspring (v : K) : K := if v <? nofZ 0 then inf else v.
Definition bad_kspring (v : K) : bool := nnan v || (v <? nofZ 0).
Definition bad_range (lo hi : K) : bool := hi <=? lo.

Local Open Scope string_scope.

(** The order of the tests. *)
Definition first_error (p : params) : option string :=
  let '(dx, dy, da) := damping p in
  let '(kx, ky, ka) := kspring p in
  let '(lx, ly, la) := collision_min p in
  let '(hx, hy, ha) := collision_max p in
  if bad_damping dx then Some "spring_damping.r.x"
  else if bad_damping dy then Some "spring_damping.r.y"
  else if bad_damping da then Some "spring_damping.o"
  else if bad_kspring kx then Some "spring_const.r.x"
  else if bad_kspring ky then Some "spring_const.r.y"
  else if bad_kspring ka then Some "spring_const.o"
  else if bad_range lx hx then Some "collision_max.r.x"
  else if bad_range ly hy then Some "collision_max.r.y"
  else if bad_range la ha then Some "collision_max.o"
  else None.

Definition validate (critical : bool) (p : params) : outcome :=
  if critical then
    match first_error p with
    | Some e => Throws e
    | None => Accepted p
    end
  else
    let '(kx, ky, ka) := kspring p in
    Accepted (mkParams (damping p) (fix_kspring kx, fix_kspring ky, fix_kspring ka) (collision_min p) (collision_max p)).
End Validate.
Arguments params : clear implicits.
Arguments outcome : clear implicits.

(** * Reading a text file, TBody.cpp:351-379 *)

Section LoadTxt.
Context {K : Num}.
(** [sscanf(line, "%lf %lf %u", ...)]: the fields converted; the others keep their value. *)
Variable scan : string -> option K * option K * option Z.

(** The number of conversions is the return value; %u needs both others before it. *)
Record loaded := mkLoaded { corners : list (K * K * bool); failed : bool }.

(** Lines 358-366; the file is given as the pieces [fgets] returns.  [cx], [cy]
    and [sl] are the variables [corner] and [slip] of the function. *)
Fixpoint load_lines (lines : list string) (cx cy : K) (sl : Z) : loaded :=
  match lines with
  | [] => mkLoaded [] false
  | line :: t =>
      let '(fx, fy, fs) := scan line in
      let cx := match fx with Some v => v | None => cx end in
      let cy := match fy with Some v => v | None => cy end in
      let sl := match fs with Some v => v | None => sl end in
      let here := (cx, cy, negb (sl =? 0)%Z) in
      match fx, fy with
      | Some _, Some _ => let rest := load_lines t cx cy sl in mkLoaded (here :: corners rest) (failed rest)
      | _, _ => mkLoaded [here] true
      end
  end.

Definition load_txt (lines : list string) : loaded := load_lines lines (nofZ 0) (nofZ 0) 0%Z.
End LoadTxt.
