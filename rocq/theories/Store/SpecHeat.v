(** What resuming may add to the heat particles. *)

From Coq Require Import List ZArith Bool Permutation.
From Verif.Base Require Import Num F64 F32.
From Verif.Body Require Model.
From Verif.Flow Require Model.
From Verif.Store Require Import Model Spec.
Import ListNotations.

(** Place and heat of a particle. *)
Definition particle : Type := f64 * f64 * f64.
Definition stored (o : tobj) : particle := (ox o, oy o, og o).
Definition seen (o : Flow.Model.obj F64) : particle :=
  (Body.Model.x (Flow.Model.pos o), Body.Model.y (Flow.Model.pos o), Flow.Model.og o).

(** A body that gives off heat at every step whatever it received: one of given
    temperature or given flux. *)
Definition hot (b : body) : bool := match heat_condition b with ConstT | ConstW => true | _ => false end.

(** The heat of the segment from [p] to [q]: temperature times the square of its length. *)
Definition heat_of (t : f32) (p q : vec) : f64 :=
  let dx := @nsub F64 (fst q) (fst p) in
  let dy := @nsub F64 (snd q) (snd p) in
  @nmul F64 (@nadd F64 (@nmul F64 dx dx) (@nmul F64 dy dy)) (f32_to_f64 t).

(** The corners of a body with the ones that follow them. *)
Definition sides (b : body) : list (att * att) :=
  match alist b with [] => [] | a :: t => combine (alist b) (t ++ [a]) end.

(** The heat of all its segments. *)
Definition heats (b : body) : list f64 :=
  map (fun p => heat_of (heat_const (fst p)) (corner (fst p)) (corner (snd p))) (sides b).

(** The number of segments of the bodies in [l] that give off heat. *)
Definition hot_segments (l : list body) : nat := list_sum (map (fun b => if hot b then List.length (alist b) else 0) l).
