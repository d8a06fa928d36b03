(** Model of the plot dimensions of vvplot: utils/vvplot/optparse.cpp, 396-441,
    utils/vvplot/vvplot.cpp, 101-122.

    Names of the missing options, printed with the error, are left out. *)

From Coq Require Import List ZArith Bool.
From Verif Require Import Base.Num.
Import ListNotations.
Local Open Scope Z_scope.

Section Dims.
Context {K : Num}.
(** Conversion of a double to [int], [None]: undefined; [ceil] of the C library. *)
Variable to_int : K -> option Z.
Variable ceil : K -> K.

(** opt::width, height, rect. *)
Record view := mkView { width : Z; height : Z; xmin : K; xmax : K; ymin : K; ymax : K }.
(** optparse.hpp mesh_t. *)
Record mesh := mkMesh { dxdy : K; xres : Z; yres : Z }.

(** The end of [opt::parse]: exit(1), undefined behaviour, or the view, the
    meshes [lo] and [hi] and [Vcirc]. *)
Inductive result := ExitError | Undefined | Done (v : view) (lo hi : mesh) (vcirc : K).

Definition set_width (v : view) (w : Z) := mkView w (height v) (xmin v) (xmax v) (ymin v) (ymax v).
Definition set_height (v : view) (h : Z) := mkView (width v) h (xmin v) (xmax v) (ymin v) (ymax v).
Definition set_x (v : view) (a b : K) := mkView (width v) (height v) a b (ymin v) (ymax v).
Definition set_y (v : view) (a b : K) := mkView (width v) (height v) (xmin v) (xmax v) a b.

(** 397-398. *)
Definition swapped (v : view) : view :=
  let v := if nltb (xmax v) (xmin v) then set_x v (xmax v) (xmin v) else v in
  if nltb (ymax v) (ymin v) then set_y v (ymax v) (ymin v) else v.

Definition one (b : bool) : Z := if b then 1 else 0.
(** 403-413. *)
Definition var_cnt (v : view) : Z :=
  one (width v =? 0) + one (height v =? 0) + one (neqb (xmin v) (xmax v)) + one (neqb (ymin v) (ymax v)) +
  one (nnan (xmin v)) + one (nnan (xmax v)) + one (nnan (ymin v)) + one (nnan (ymax v)).

Definition even_part (n : Z) : Z := n - Z.rem n 2.

(** 425-426. *)
Definition fix_width (v : view) : option view :=
  if width v =? 0 then
    match to_int (nofZ (height v) * (xmax v - xmin v) / (ymax v - ymin v))%num with
    | Some w => Some (set_width v (even_part w))
    | None => None
    end
  else Some v.
Definition fix_height (v : view) : option view :=
  if height v =? 0 then
    match to_int (nofZ (width v) * (ymax v - ymin v) / (xmax v - xmin v))%num with
    | Some h => Some (set_height v (even_part h))
    | None => None
    end
  else Some v.

(** (ymax-ymin)*width/height and (xmax-xmin)*height/width. *)
Definition x_span (v : view) : K := ((ymax v - ymin v) * nofZ (width v) / nofZ (height v))%num.
Definition y_span (v : view) : K := ((xmax v - xmin v) * nofZ (height v) / nofZ (width v))%num.
(** 427-432. *)
Definition fix_x (v : view) : view :=
  if neqb (xmin v) (xmax v) then
    let xc := xmin v in let dx := (x_span v / nofZ 2)%num in set_x v (xc - dx)%num (xc + dx)%num
  else v.
Definition fix_y (v : view) : view :=
  if neqb (ymin v) (ymax v) then
    let yc := ymin v in let dy := (y_span v / nofZ 2)%num in set_y v (yc - dy)%num (yc + dy)%num
  else v.
Definition fix_xmin (v : view) : view := if nnan (xmin v) then set_x v (xmax v - x_span v)%num (xmax v) else v.
Definition fix_xmax (v : view) : view := if nnan (xmax v) then set_x v (xmin v) (xmin v + x_span v)%num else v.
Definition fix_ymin (v : view) : view := if nnan (ymin v) then set_y v (ymax v - y_span v)%num (ymax v) else v.
Definition fix_ymax (v : view) : view := if nnan (ymax v) then set_y v (ymin v) (ymin v + y_span v)%num else v.
Definition fix_range (v : view) : view :=
  fix_ymax (fix_ymin (fix_xmax (fix_xmin (fix_y (fix_x v))))).

(** 434-438. *)
Definition make_mesh (v : view) (xres : Z) : option mesh :=
  let d := ((xmax v - xmin v) / nofZ xres)%num in
  match to_int (ceil ((ymax v - ymin v) / d)%num) with
  | Some yres => Some (mkMesh d xres yres)
  | None => None
  end.

(** 396-441. *)
Definition complete (v : view) (lo_res hi_res vsize : Z) : result :=
  let v := swapped v in
  let n := var_cnt v in
  if 1 <? n then ExitError
  else
    let v := if n <? 1 then set_height v 0 else v in
    match fix_width v with
    | None => Undefined
    | Some v =>
        match fix_height v with
        | None => Undefined
        | Some v =>
            let v := fix_range v in
            match make_mesh v lo_res, make_mesh v hi_res with
            | Some lo, Some hi =>
                Done v lo hi ((xmax v - xmin v) / nofZ (width v) * nofZ vsize / nofZ 2)%num
            | _, _ => Undefined
            end
        end
    end.

(** vvplot.cpp, 101-122. [None]: [front()] of an empty list. *)
Inductive ref := RefO | RefF | RefB | RefX | RefY.
Definition moved (r : ref) (marker : K * K) (axis : option (K * K)) (v : view) : option view :=
  let dx p := set_x v (xmin v + fst p)%num (xmax v + fst p)%num in
  match r with
  | RefO => Some v
  | RefF => Some (set_y (dx marker) (ymin v + snd marker)%num (ymax v + snd marker)%num)
  | RefB =>
      match axis with
      | Some p => Some (set_y (dx p) (ymin v + snd p)%num (ymax v + snd p)%num)
      | None => None
      end
  | RefX => match axis with Some p => Some (dx p) | None => None end
  | RefY => match axis with Some p => Some (set_y v (ymin v + snd p)%num (ymax v + snd p)%num) | None => None end
  end.

End Dims.
