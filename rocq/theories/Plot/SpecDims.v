(** Independent statements about the dimensions of a plot. *)

From Coq Require Import List ZArith Bool Reals.
From Verif Require Import Base.Num Base.NumNaN Plot.ModelDims.
Local Open Scope R_scope.

Definition rview := @view RNaN.

(** The eight things that can be missing. *)
Inductive item := W | H | X | Y | Xmin | Xmax | Ymin | Ymax.
Definition missing (v : rview) (i : item) : Prop :=
  match i with
  | W => width v = 0%Z
  | H => height v = 0%Z
  | X => exists c, xmin v = Some c /\ xmax v = Some c
  | Y => exists c, ymin v = Some c /\ ymax v = Some c
  | Xmin => xmin v = None
  | Xmax => xmax v = None
  | Ymin => ymin v = None
  | Ymax => ymax v = None
  end.
Definition only (v : rview) (i : item) : Prop := forall j, missing v j <-> j = i.

(** A complete view of [w] by [h] pixels showing [a,b] by [c,d]. *)
Definition shows (v : rview) (w h : Z) (a b c d : R) : Prop :=
  width v = w /\ height v = h /\ xmin v = Some a /\ xmax v = Some b /\ ymin v = Some c /\ ymax v = Some d /\
  a < b /\ c < d.

(** The greatest even number of pixels up to [x]. *)
Definition even_pixels (n : Z) (x : R) : Prop := Z.even n = true /\ IZR n <= x < IZR n + 2.

(** The same scale in both directions. *)
Definition to_scale (w h : Z) (a b c d : R) : Prop := (b - a) * IZR h = (d - c) * IZR w.

(** The bounds in order. *)
Definition bounds (x y : option R) (a b : R) : Prop :=
  a < b /\ (x = Some a /\ y = Some b \/ x = Some b /\ y = Some a).

(** The view [v'] of [a,b] by [c,d] completes [v] in which [i] is missing. *)
Definition completes (i : item) (v v' : rview) (a b c d : R) : Prop :=
  shows v' (width v') (height v') a b c d /\
  match i with
  | W => height v' = height v /\ bounds (xmin v) (xmax v) a b /\ bounds (ymin v) (ymax v) c d /\
         even_pixels (width v') (IZR (height v) * ((b - a) / (d - c)))
  | H => width v' = width v /\ bounds (xmin v) (xmax v) a b /\ bounds (ymin v) (ymax v) c d /\
         even_pixels (height v') (IZR (width v) * ((d - c) / (b - a)))
  | _ =>
      width v' = width v /\ height v' = height v /\ to_scale (width v) (height v) a b c d /\
      match i with
      | X => bounds (ymin v) (ymax v) c d /\ xmin v = Some ((a + b) / 2)
      | Y => bounds (xmin v) (xmax v) a b /\ ymin v = Some ((c + d) / 2)
      | Xmin => bounds (ymin v) (ymax v) c d /\ xmax v = Some b
      | Xmax => bounds (ymin v) (ymax v) c d /\ xmin v = Some a
      | Ymin => bounds (xmin v) (xmax v) a b /\ ymax v = Some d
      | _ => bounds (xmin v) (xmax v) a b /\ ymin v = Some c
      end
  end.

(** A mesh of squares with [res] columns and just enough rows. *)
Definition covers (q : @mesh RNaN) (res : Z) (a b c d : R) : Prop :=
  xres q = res /\ exists e, dxdy q = Some e /\ 0 < e /\ e * IZR res = b - a /\
  e * (IZR (yres q) - 1) < d - c <= e * IZR (yres q).

(** Height by width of the picture. *)
Definition slope (i : item) (v : rview) (r : R) : Prop :=
  match i with
  | W | H => exists a b c d, bounds (xmin v) (xmax v) a b /\ bounds (ymin v) (ymax v) c d /\ r = (d - c) / (b - a)
  | _ => r = IZR (height v) / IZR (width v)
  end.

(** A number of pixels or of mesh rows is beyond the range of [int]. *)
Definition too_long (i : item) (v : rview) (lo hi : Z) : Prop :=
  exists r, slope i v r /\
  (i = H /\ IZR (2 ^ 31) <= IZR (width v) * r \/ i = W /\ IZR (2 ^ 31) <= IZR (height v) * / r \/
   IZR (2 ^ 31 - 1) < IZR lo * r \/ IZR (2 ^ 31 - 1) < IZR hi * r).
