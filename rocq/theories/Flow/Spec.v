(** What the properties of the motion step refer to. *)

From Coq Require Import ZArith Bool List Reals Permutation.
From Verif.Base Require Import Num.
From Verif.Body Require Import Model Spec.
From Verif.Flow Require Import Model.
Import ListNotations.
Local Open Scope R_scope.

(** The point is inside some body, whatever segment is nearest. *)
Definition in_body {K : Num} (dbl_max : K) (bs : list (fbody K)) (p : vec K) : bool :=
  existsb (fun b => match is_point_invalid dbl_max (geo b) p with Some (Some _) => true | _ => false end) bs.

(** A body has one record of circulation and heat per segment. *)
Definition wf {K : Num} (b : fbody K) : Prop := length (segs b) = length (alist (geo b)).

(** Sums over objects and segments. *)
Definition circ (l : list (obj RNum)) : R := total (fun o : obj RNum => og o) l.
Definition gsums (b : fbody RNum) : R := total (fun s : seg RNum => gsum s) (segs b).
Definition hsums (b : fbody RNum) : R := total (fun s : seg RNum => hsum s) (segs b).
Definition G (S : space RNum) : R := total gsums (bodies S).
Definition H (S : space RNum) : R := total hsums (bodies S).

(** A degree of freedom with a spring, possibly of no strength, moves freely. *)
Definition free (b : fbody RNum) (c : comp) : Prop := 0 <= (get c (kspring b) : R).

(** Objects too weak to be kept. *)
Definition weak (eps : R) (l : list (obj RNum)) : list (obj RNum) :=
  filter (fun o : obj RNum => if Rlt_dec (Rabs (og o)) eps then true else false) l.

(** One step of the simulation as far as circulation and heat are concerned
    (vvflow.cpp:215-264).  The linear system replaces the circulations of the
    segments, sorting and merging change the objects but not their sums, and
    the velocities are arbitrary. *)
Definition solved (S S' : space RNum) : Prop :=
  vort S' = vort S /\ Permutation (heat S) (heat S') /\
  Forall2 (fun b b' => alist (geo b') = alist (geo b) /\ cond b' = cond b /\
     Forall2 (fun s s' => gsum s' = gsum s /\ hsum s' = hsum s) (segs b) (segs b')) (bodies S) (bodies S').
Definition evolved (S S' : space RNum) : Prop :=
  circ (vort S') = circ (vort S) /\ circ (heat S') = circ (heat S) /\ bodies S' = bodies S.

Section Step.
Variables inf dbl_max eps gap : R.
Variable fuel : nat.

Record account := mkAccount { lost_g : R; lost_h : R; read_g : R; read_h : R }.

(** What a step drops and what the force calculation reads off. *)
Inductive step (dt scale : R) (S : space RNum) : account -> space RNum -> Prop :=
| Step S1 S2 S4 S5 cdt ptr n :
    solved S S1 ->
    heat_shed (K:=RNum) S1 = Some S2 ->
    let S3 := vortex_shed (K:=RNum) eps gap S2 in
    evolved (zero_forces S3) S4 ->
    move_and_clean (K:=RNum) inf dbl_max cos sin eps fuel dt S4 = Some (S5, cdt, ptr, n) ->
    let S6 := heat_crop (K:=RNum) scale S5 in
    step dt scale S
      (mkAccount (circ (weak eps (vort S4))) (circ (weak eps (heat S4)) + (circ (heat S5) - circ (heat S6)))
         (G S3) (H S3)) S6.

Inductive steps (dt scale : R) : space RNum -> list account -> space RNum -> Prop :=
| Steps0 S : steps dt scale S [] S
| StepsS S a S1 l S2 : step dt scale S a S1 -> steps dt scale S1 l S2 -> steps dt scale S (a :: l) S2.
End Step.

(** The segment in whose heat layer a point is: the first body that says so. *)
Fixpoint owner {K : Num} (dbl_max : K) (i : nat) (bs : list (fbody K)) (p : vec K) : option (nat * nat) :=
  match bs with
  | [] => None
  | b :: t => match snd (is_point_in_heat_layer dbl_max (geo b) p) with
              | Some (Some k) => Some (i, k)
              | _ => owner dbl_max (S i) t p
              end
  end.

(** Segment [k] of body [i]. *)
Definition at_seg {K : Num} (bs : list (fbody K)) (i k : nat) (b : fbody K) (s : seg K) : Prop :=
  nth_error bs i = Some b /\ nth_error (segs b) k = Some s.
