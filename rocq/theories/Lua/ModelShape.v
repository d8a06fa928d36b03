(** Model of the shape of a body under a script: the methods of lua_tbody.cpp:64-146
    and the corners, which [totable] gives as vectors inside the body
    (lua_tbody.cpp:138-146, lua_tvec.cpp:106-111).  The length, area, centre and
    moment are those stored in the body (TBody.hpp:120-132). *)

From Coq Require Import List ZArith Bool.
From Verif.Base Require Import Num.
From Verif.Body Require Import Model.
From Verif.Lua Require ModelMembers.
Import ListNotations.

Section Shape.
Context {K : Num}.
Variable inf : K.
Variables cosf sinf : K -> K.
Variable pi : K.

(** One call of a script.  [CornerX k v] is [b:totable()[k].x = v]; [Holder] and
    [Delta] are assignments to [holder_pos] and [delta_pos]. *)
Inductive shape_call :=
| CornerX (k : nat) (v : K) | CornerY (k : nat) (v : K)
| MoveR (p : vec K) | MoveO (v : K) | MoveD (v : K)
| Holder (p : vec3 K) | Delta (p : vec3 K).

(** The assignment through the pointer: lua_tvec.cpp:50-68.  Nothing else is
    computed.  A number beyond the corners is an error of Lua. *)
Definition edit (f : vec K -> vec K) (a : att K) : att K := mkAtt (f (corner a)) (slip a) (dl a) (r a) (eps1 a).
Definition set_corner (k : nat) (f : vec K -> vec K) (b : body K) : body K :=
  match k with
  | O => b
  | S i =>
      match nth_error (alist b) i with
      | None => b
      | Some a => set_alist (firstn i (alist b) ++ edit f a :: skipn (S i) (alist b)) b
      end
  end.

Definition turn (p : vec3 K) (b : body K) : body K := move inf cosf sinf p p b.

(** lua_tbody.cpp:64-98 for the motions. *)
Definition shape_step (c : shape_call) (b : body K) : body K :=
  match c with
  | CornerX k v => set_corner k (fun p => mkVec v (y p)) b
  | CornerY k v => set_corner k (fun p => mkVec (x p) v) b
  | MoveR p => turn (mkVec3 p (nofZ 0)) b
  | MoveO v => turn (mkVec3 vzero v) b
  | MoveD v => turn (mkVec3 vzero (ModelMembers.to_radians pi v)) b
  | Holder p => mkBody (alist b) p (dpos b) (speed_slae b) (speed_slae_prev b) (slip_ b) (slen b) (area b) (cofm b) (moi b) (disc_r2 b) (rect_bl b) (rect_tr b) (heat_layer b)
  | Delta p => mkBody (alist b) (holder b) p (speed_slae b) (speed_slae_prev b) (slip_ b) (slen b) (area b) (cofm b) (moi b) (disc_r2 b) (rect_bl b) (rect_tr b) (heat_layer b)
  end.
Definition shape_run (cs : list shape_call) (b : body K) : body K := fold_left (fun b c => shape_step c b) cs b.

End Shape.
Arguments shape_call : clear implicits.
