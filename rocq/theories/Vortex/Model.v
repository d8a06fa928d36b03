(** Model of the particle methods: core radii and merging
    (libvvhd/src/MEpsilonFast.cpp), diffusive velocities
    (libvvhd/src/MDiffusiveFast.cpp) and induced velocities
    (libvvhd/src/MConvectiveFast.cpp:21-170). *)

From Coq Require Import ZArith Bool List.
From Verif.Base Require Import Num.
From Verif.Body Require Import Model.
Import ListNotations.
Local Open Scope num_scope.

Section Particles.
Context {K : Num}.
Notation vec := (vec K).
Notation att := (att K).

(** TObj, TObj.hpp:10-35; [pe] is [_1_eps]. *)
Record part := mkPart { pr : vec; pg : K; pv : vec; pe : K }.

Definition sign (g : K) : Z := if nofZ 0 <? g then 1%Z else if g <? nofZ 0 then (-1)%Z else 0%Z.   (* TObj.hpp:8 *)

Definition cmax (a b : K) : K := if a <? b then b else a.     (* std::max *)
Definition cmin (a b : K) : K := if b <? a then b else a.     (* std::min *)

(** A bottom node: centre, the numbers of its particles, the numbers of the
    particles of its near nodes, and the segments of its near nodes.  Which those
    are is the matter of the tree (Tree/Model.v). *)
Record cell := mkCell { centre : vec; mine : list nat; near : list nat; walls : list att }.

Variables big tiny : K.          (* numeric_limits max, min *)
Variables third merge_c : K.     (* 1./3., 0.16 *)

(** * Core radii *)

(** ** The two nearest neighbours, MEpsilonFast.cpp:131-153 and 182-203 *)

Record best := mkBest { res1 : K; lv1 : option nat; res2 : K; lv2 : option nat }.

Definition dist2 (p q : vec) : K := abs2 (vsub p q).

Definition look (vs : list part) (i : nat) (s : best) (j : nat) : best :=
  match nth_error vs i, nth_error vs j with
  | Some a, Some b =>
      if (pg b =? nofZ 0) || Nat.eqb i j then s
      else
        let d := dist2 (pr a) (pr b) in
        if d <? res1 s then mkBest d (Some j) (res1 s) (lv1 s)
        else if d <? res2 s then mkBest (res1 s) (lv1 s) d (Some j)
        else s
  | _, _ => s
  end.
Definition scan (nb : list nat) (vs : list part) (i : nat) : best :=
  fold_left (look vs i) nb (mkBest big None big None).

(** ** Merging, lines 110-126 *)

Fixpoint set_nth {A} (n : nat) (a : A) (l : list A) : list A :=
  match n, l with
  | _, [] => []
  | O, _ :: t => a :: t
  | S n, b :: t => b :: set_nth n a t
  end.

Definition merged (a b : part) : part :=
  let r :=
    if Z.eqb (sign (pg a)) (sign (pg b)) then
      vdiv (vadd (vscale (pr a) (pg a)) (vscale (pr b) (pg b))) (pg a + pg b)
    else if nabs (pg a) <? nabs (pg b) then pr b
    else pr a in
  mkPart r (pg a + pg b) (pv a) (pe a).
Definition emptied (b : part) : part := mkPart (pr b) (nofZ 0) (pv b) (pe b).

Definition merge (vs : list part) (i j : nat) : list part :=
  match nth_error vs i, nth_error vs j with
  | Some a, Some b => set_nth j (emptied b) (set_nth i (merged a b) vs)
  | _, _ => vs
  end.

(** ** Radius of one particle *)

(** Lines 155-160 with no merging asked for. *)
Definition radius (s : best) : K :=
  match lv1 s, lv2 s with
  | None, _ => tiny
  | Some _, None => nsqrt (res1 s)
  | Some _, Some _ => nsqrt (res2 s)
  end.

(** Lines 128-172.  [crit] is the squared merging distance; [None] is NaN.  The
    recursive call has NaN, so it ends at once.  The last component counts merges. *)
Definition epsv (nb : list nat) (vs : list part) (i : nat) (crit : option K) : K * list part * nat :=
  let s := scan nb vs i in
  match lv1 s, lv2 s, crit with
  | Some j, Some k, Some c =>
      match nth_error vs i, nth_error vs j, nth_error vs k with
      | Some a, Some b, Some d =>
          if (res1 s <? c) || (Z.eqb (sign (pg b)) (sign (pg d)) && negb (Z.eqb (sign (pg b)) (sign (pg a)))) then
            let vs' := merge vs i j in (radius (scan nb vs' i), vs', 1%nat)
          else (nsqrt (res2 s), vs, 0%nat)
      | _, _, _ => (radius s, vs, 0%nat)
      end
  | _, _, _ => (radius s, vs, 0%nat)
  end.

(** Lines 174-216, for the heat particles; here the distances themselves are
    compared with the largest number. *)
Definition hradius (s : best) : K :=
  if res1 s =? big then tiny else if res2 s =? big then nsqrt (res1 s) else nsqrt (res2 s).
Definition epsh (nb : list nat) (vs : list part) (i : nat) (crit : option K) : K * list part * nat :=
  let s := scan nb vs i in
  if (res1 s =? big) || (res2 s =? big) then (hradius s, vs, 0%nat)
  else
    match crit, lv1 s with
    | Some c, Some j =>
        if res1 s <? c then let vs' := merge vs i j in (hradius (scan nb vs' i), vs', 1%nat)
        else (nsqrt (res2 s), vs, 0%nat)
    | _, _ => (nsqrt (res2 s), vs, 0%nat)
    end.

(** ** The nearest segment, lines 218-256 *)

Definition nearer (p : vec) (s : K * option att) (a : att) : K * option att :=
  let d := dist2 p (r a) in if d <? fst s then (d, Some a) else s.

(** Lines 240-252: after a segment that is not nearer nine more are passed over. *)
Fixpoint skim (p : vec) (skip : nat) (s : K * option att) (l : list att) : K * option att :=
  match l with
  | [] => s
  | a :: t =>
      match skip with
      | S k => skim p k s t
      | O => let d := dist2 p (r a) in
             if d <? fst s then skim p 0 (d, Some a) t else skim p 9 s t
      end
  end.

(** [bodies]: the segment lists of all bodies. *)
Definition nearest (bodies : list (list att)) (c : cell) (p : vec) : option att :=
  match snd (fold_left (nearer p) (walls c) (big, None)) with
  | Some a => Some a
  | None => snd (fold_left (skim p 0) bodies (big, None))
  end.

(** ** All particles, lines 11-63 *)

(** Lines 29-42; NaN when no merging is wanted or the number is none. *)
Definition criterion (do_merge : bool) (near_wall : option att) (p : vec) : option K :=
  if do_merge then
    let c := match near_wall with
             | Some a => merge_c * abs2 (dl a) * (nofZ 1 + vabs (vsub p (r a)))
             | None => nofZ 0
             end in
    if nnan c then None else Some c
  else None.

Definition restriction (near_wall : option att) : K :=
  match near_wall with Some a => vabs (dl a) * third | None => nofZ 0 end.        (* 44-46 *)

(** Lines 48-60 with [eps] one of [epsv], [epsh]. *)
Definition calc_one (eps : list nat -> list part -> nat -> option K -> K * list part * nat)
    (nb : list nat) (crit : option K) (low : K) (st : list part * nat) (i : nat) : list part * nat :=
  let '(vs, n) := st in
  match nth_error vs i with
  | None => st
  | Some a =>
      if pg a =? nofZ 0 then st
      else
        let '(e, vs', m) := eps nb vs i crit in
        match nth_error vs' i with
        | None => (vs', (n + m)%nat)
        | Some a' => (set_nth i (mkPart (pr a') (pg a') (pv a') (nofZ 1 / cmax e low)) vs', (n + m)%nat)
        end
  end.

(** The vortices; the loop for the heat particles is the same with [epsh] and
    their own lists. *)
Definition calc_cell eps (bodies : list (list att)) (do_merge : bool) (st : list part * nat) (c : cell) : list part * nat :=
  let w := nearest bodies c (centre c) in
  fold_left (calc_one eps (near c) (criterion do_merge w (centre c)) (restriction w)) (mine c) st.
Definition calc_epsilon eps (bodies : list (list att)) (do_merge : bool) (cells : list cell) (vs : list part) : list part * nat :=
  fold_left (calc_cell eps bodies do_merge) cells (vs, 0%nat).

(** ** Squared distances used by the fields, lines 66-106 *)

Variable infinity lowest : K.

Definition eps2h_step (vs : list part) (p : vec) (s : K * K) (j : nat) : K * K :=
  match nth_error vs j with
  | None => s
  | Some b =>
      let d := dist2 p (pr b) in
      if d =? nofZ 0 then s
      else if d <? fst s then (d, fst s)
      else if d <? snd s then (fst s, d)
      else s
  end.
Definition eps2h (nb : list nat) (vs : list part) (p : vec) : K :=
  let '(a, b) := fold_left (eps2h_step vs p) nb (infinity, infinity) in
  if nfinite b then b else if nfinite a then a else lowest.
Definition h2 (l : list att) (p : vec) : K :=
  fold_left (fun res a => cmin res (dist2 p (r a))) l infinity.

(** * Diffusive velocity *)

Variable expf : K -> K.
Variables tenth eight pi_ two_pi tiny10 : K.    (* 0.1, 8., C_PI, C_2PI, 1E-10 *)

Definition vzero_ (v : vec) : bool := nabs (x v) + nabs (y v) <? tiny10.     (* TVec.hpp:18 *)

(** MDiffusiveFast.cpp:98-109; sums (S2, S1). *)
Definition vortex_influence (v vj : part) (s : vec * K) : vec * K :=
  if negb (Z.eqb (sign (pg v)) (sign (pg vj))) then s
  else
    let dr := vsub (pr v) (pr vj) in
    if vzero_ dr then s
    else
      let d := vabs dr in
      let a := (- d) * pe v in
      if a <? - eight then s
      else
        let t := pg vj * expf a in
        (vadd (fst s) (vscale dr (t / d)), snd s + t).

(** Lines 111-127; sums (S3, S0) and the addition to [fric]. *)
Definition segment_influence (v : part) (w : att) (s : vec * K) : vec * K * K :=
  let dr := vsub (pr v) (r w) in
  let d2 := abs2 dr in
  let d := nsqrt d2 in
  let a := (- d) * pe v in
  if a <? - eight then (s, nofZ 0)
  else
    let e := expf a in
    let dS := rotl (dl w) in
    (vadd (fst s) (vscale dS e), snd s + (d * pe v + nofZ 1) / d2 * dot dr dS * e,
     pe v * pe v * pg v * e * vabs dS).

(** Line 40 and 84. *)
Definition guard (S1 g : K) : K :=
  if negb (Z.eqb (sign S1) (sign g)) || (nabs S1 <? nabs (tenth * g)) then tenth * g else S1.
Definition cap (S0 : K) : K := if pi_ <? S0 then pi_ else S0.     (* 43 *)

(** The sums over the near nodes; a node's particles and its segments alternate in
    the code, but each pair of sums sees only its own kind. *)
Definition sums (nb : list nat) (walls : list att) (vs : list part) (v : part) : vec * K * (vec * K) :=
  let z := (mkVec (nofZ 0) (nofZ 0), nofZ 0) in
  (fold_left (fun s j => match nth_error vs j with
                         | None => s
                         | Some b => if pg b =? nofZ 0 then s else vortex_influence v b s
                         end) nb z,
   fold_left (fun s w => fst (segment_influence v w s)) walls z).

(** Lines 16-45 for one vortex with circulation. *)
Definition vort_denominators (re : K) (nb : list nat) (walls : list att) (vs : list part) (v : part) : K * K :=
  let '(S2, S1, (S3, S0)) := sums nb walls vs v in
  (re * guard S1 (pg v), re * (two_pi - cap S0)).
Definition vort_velocity (re : K) (nb : list nat) (walls : list att) (vs : list part) (v : part) : vec :=
  let '(S2, S1, (S3, S0)) := sums nb walls vs v in
  let w := vadd (pv v) (vscale S2 (pe v / (re * guard S1 (pg v)))) in
  vadd w (vscale S3 (pe v * pe v / (re * (two_pi - cap S0)))).

(** Lines 58-90 for one heat particle. *)
Definition heat_denominator (nb : list nat) (walls : list att) (vs : list part) (v : part) : K :=
  let '(S2, S1, (S3, S0)) := sums nb walls vs v in guard S1 (pg v) + S0 / (pe v * pe v).
Definition heat_velocity (pr_ re : K) (nb : list nat) (walls : list att) (vs : list part) (v : part) : vec :=
  let '(S2, S1, (S3, S0)) := sums nb walls vs v in
  vadd (pv v) (vdiv (vdiv (vadd (vscale S2 (pe v)) S3) (guard S1 (pg v) + S0 / (pe v * pe v))) (pr_ * re)).

(** Friction added to segment [w] by the vortices, line 125; the loop over a
    vortex' near nodes reaches [w] from every node that has it near. *)
Definition friction (vs : list part) (w : att) : K :=
  fold_left (fun f v => if pg v =? nofZ 0 then f else f + snd (segment_influence v w (mkVec (nofZ 0) (nofZ 0), nofZ 0))) vs (nofZ 0).

(** * Induced velocity *)

Variables inv_2pi inv_pi : K.     (* C_1_2PI, C_1_PI *)

(** MConvectiveFast.cpp:116-120. *)
Definition biot_savart (o : part) (p : vec) : vec :=
  let dr := vsub p (pr o) in
  let e := nofZ 1 / pe o in
  vscale (rotl dr) (pg o / (abs2 dr + e * e)).

(** Lines 122-137. *)
Definition near_influence (nb : list nat) (vs : list part) (p : vec) : vec :=
  vscale (fold_left (fun s j => match nth_error vs j with
                                | None => s
                                | Some o => if pg o =? nofZ 0 then s else vadd s (biot_savart o p)
                                end) nb (mkVec (nofZ 0) (nofZ 0))) inv_2pi.

(** Lines 139-151: the summaries of the far nodes, one of each sign per node. *)
Definition far_influence (cm : list part) (p : vec) : vec :=
  vscale (fold_left (fun s o => vadd s (biot_savart o p)) cm (mkVec (nofZ 0) (nofZ 0))) inv_2pi.

(** Lines 153-170. *)
Definition sink_influence (dt : K) (l : list part) (p : vec) : vec :=
  let k := dt * inv_pi in
  vscale (fold_left (fun s o =>
            let dr := vsub p (pr o) in vadd s (vscale dr (pg o / (abs2 dr + k * nabs (pg o))))) l (mkVec (nofZ 0) (nofZ 0))) inv_2pi.

(** The far field in process_all_lists, lines 45-71: terms at the centre [c] of
    the node.  [cm] is the list of (CMp, CMm) of the far nodes. *)
Record taylor := mkTaylor { t1 : K; t2 : K; t3 : K; t4 : K }.
Definition taylor_step (c : vec) (t : taylor) (m : part * part) : taylor :=
  let '(P, M) := m in
  let dp := vsub c (pr P) in let dm := vsub c (pr M) in
  let p1 := pg P / abs2 dp in let m1 := pg M / abs2 dm in
  let p2 := pg P / (abs2 dp * abs2 dp) in let m2 := pg M / (abs2 dm * abs2 dm) in
  mkTaylor (t1 t - (p1 * y dp + m1 * y dm))
           (t2 t + (p1 * x dp + m1 * x dm))
           (t3 t + (p2 * y dp * x dp + m2 * y dm * x dm))
           (t4 t + (p2 * (y dp * y dp - x dp * x dp) + m2 * (y dm * y dm - x dm * x dm))).
Definition taylor_of (c : vec) (cm : list (part * part)) : taylor :=
  let t := fold_left (taylor_step c) cm (mkTaylor (nofZ 0) (nofZ 0) (nofZ 0) (nofZ 0)) in
  mkTaylor (t1 t * inv_2pi) (t2 t * inv_2pi) (t3 t * inv_pi) (t4 t * inv_2pi).
(** Lines 83-85 and 97-98. *)
Definition far_taylor (c : vec) (cm : list (part * part)) (p : vec) : vec :=
  let t := taylor_of c cm in
  let d := vsub p c in
  vadd (mkVec (t1 t) (t2 t)) (mkVec (dot (mkVec (t3 t) (t4 t)) d) (dot (mkVec (t4 t) (- t3 t)) d)).

(** What one vortex or heat particle gets, lines 77-86, in the order of the code.
    [bodies_at] stands for body_list_influence. *)
Definition advected (inf_speed : vec) (nb : list nat) (vs : list part) (dt : K) (sources : list part)
    (bodies_at : vec -> vec) (c : vec) (cm : list (part * part)) (o : part) : part :=
  let t := taylor_of c cm in
  let d := vsub (pr o) c in
  let v := vadd (pv o) inf_speed in
  let v := vadd v (near_influence nb vs (pr o)) in
  let v := vadd v (sink_influence dt sources (pr o)) in
  let v := vadd v (bodies_at (pr o)) in
  let v := vadd v (mkVec (t1 t) (t2 t)) in
  let v := vadd v (mkVec (dot (mkVec (t3 t) (t4 t)) d) (dot (mkVec (t4 t) (- t3 t)) d)) in
  mkPart (pr o) (pg o) v (pe o).
End Particles.
Arguments part : clear implicits.
Arguments cell : clear implicits.
Arguments best : clear implicits.
Arguments taylor : clear implicits.
