(** What assigning a member promises: the names and types of the manual
    (utils/vvflow/vvflow.1.md) and what reading gives afterwards. *)

From Coq Require Import List ZArith Bool Ascii String Reals.
From Flocq Require Import Core.Raux IEEE754.BinarySingleNaN.
From Verif Require Import Base.Int Base.Num Lua.ModelMembers.
From Verif Require Time.ModelRun.
Import ListNotations.
Local Open Scope string_scope.

(** vvflow.1.md, "TBody". *)
Definition doc_body : list (string * kind) :=
  [ ("label", KStr); ("density", KDbl); ("holder_pos", KVec3);
    ("holder_vx", KExpr); ("holder_vy", KExpr); ("holder_vo", KExpr); ("holder_mo", KExpr);
    ("speed", KVec3); ("delta_pos", KVec3); ("spring_const", KVec3); ("spring_damping", KVec3);
    ("collision_min", KVec3); ("collision_max", KVec3); ("bounce", KDbl); ("slip", KSlip);
    ("special_segment", KInt); ("root", KRoot) ].

(** vvflow.1.md, "Space". *)
Definition doc_space : list (string * kind) :=
  [ ("caption", KStr); ("re", KDbl); ("inf_g", KDbl); ("inf_vx", KExpr); ("inf_vy", KExpr);
    ("gravity", KVec); ("time", KTime); ("dt", KTime); ("dt_save", KTime); ("dt_streak", KTime);
    ("dt_profile", KTime); ("finish", KDbl); ("body_list", KList); ("vort_list", KList);
    ("sink_list", KList); ("streak_source_list", KList); ("streak_domain_list", KList) ].

(** vvflow.1.md, "TVec" and "TObj". *)
Definition doc_tvec : list (string * kind) := [ ("x", KDbl); ("y", KDbl) ].
Definition doc_tobj : list (string * kind) := [ ("r", KVec); ("v", KVec); ("g", KDbl) ].

(** vvflow.1.md, "TVec3D". *)
Definition doc_tvec3d : list (string * kind) := [ ("r", KVec); ("o", KDbl); ("d", KDegree) ].

(** The type at the end of a path. *)
Fixpoint at_path (doc : list (string * kind)) (path : list string) (k : kind) : Prop :=
  match path with
  | [] => False
  | [n] => In (n, k) doc
  | n :: path => (In (n, KVec) doc /\ at_path doc_tvec path k) \/
                 (In (n, KVec3) doc /\ at_path doc_tvec3d path k)
  end.

(** Two paths part at two names; [o] and [d] are the same angle. *)
Inductive apart : list string -> list string -> Prop :=
| apart_here a p b q : a <> b -> ~ (a = "o" /\ b = "d") -> ~ (a = "d" /\ b = "o") ->
    apart (a :: p) (b :: q)
| apart_later a p q : apart p q -> apart (a :: p) (a :: q).

(** The memory behind a member has the type of its accessors. *)
Definition typed (k : kind) (m : mem) : Prop :=
  match k, m with
  | KStr, MStr _ | KDbl, MDbl _ | KInt, MInt _ | KVec, MVec _ _ | KVec3, MVec3 _ _ _
  | KExpr, MExpr _ | KTime, MTime _ | KSlip, MSlips _ | KRoot, MRoot _ | KDegree, MDbl _
  | KList, MList => True
  | _, _ => False
  end.
Definition typed_object (t : list row) (o : object) : Prop :=
  forall r, In r t -> typed (rkind r) (o (rfield r)).

Section Spec.
Variable str2num : string -> option f64.
Variable accepts : string -> bool.
Variable scan : string -> Time.ModelRun.scan.

(** A number: itself or a text that spells one. *)
Definition number (v : lval) (x : f64) : Prop :=
  v = LNum x \/ exists s, v = LStr s /\ str2num s = Some x.
(** Its whole part, if 64 bits hold it. *)
Definition whole_part (x : f64) (z : Z) : Prop :=
  is_finite x = true /\ z = Ztrunc (B2R x) /\ (- 2 ^ 63 <= z < 2 ^ 63)%Z.

(** Times: a number of seconds, two numbers of which the whole parts count, or
    a text. *)
Definition time (v : lval) (r : Time.ModelRun.outcome) : Prop :=
  (exists x, v = LNum x /\ Time.ModelRun.set_ttime (Time.ModelRun.LNumber x) = r) \/
  (exists a b x y p q, v = LTab [a; b] /\ number a x /\ number b y /\ whole_part x p /\ whole_part y q /\
     Time.ModelRun.set_ttime (Time.ModelRun.LTable 2 (Some p) (Some q)) = r) \/
  (exists s, v = LStr s /\ Time.ModelRun.set_ttime (Time.ModelRun.LString (scan s)) = r).
(** A number whose whole part does not fit; an undefined assignment. *)
Definition too_large (v : lval) : Prop := exists x, number v x /\ forall z, ~ whole_part x z.
Definition undefined (k : kind) (v : lval) : Prop :=
  match k with
  | KInt => too_large v
  | KTime => time v Time.ModelRun.Undefined \/ exists a b, v = LTab [a; b] /\ (too_large a \/ too_large b)
  | _ => False
  end.

(** [reads k v u]: assigning [v] is accepted and the member reads [u] then. *)
Definition reads (k : kind) (v u : lval) : Prop :=
  match k with
  | KDbl => exists x, number v x /\ u = LNum x
  | KInt => exists x z, number v x /\ whole_part x z /\ u = LNum (f64_ofZ (i32 z))
  | KStr => exists s, v = LStr s /\ u = LStr (c_str s)
  | KVec => exists x y, u = LVec x y /\
      (v = LVec x y \/ exists a b, v = LTab [a; b] /\ number a x /\ number b y)
  | KVec3 => exists x y o, u = LVec3 x y o /\
      (v = LVec3 x y o \/
       exists a b c, v = LTab [a; b; c] /\ number a x /\ number b y /\ number c o)
  | KExpr => exists s, u = LEval s /\ accepts s = true /\
      (v = LEval s \/ exists s', v = LStr s' /\ s = c_str s')
  | KTime => exists t, u = LNum (Time.ModelRun.to_double t) /\ time v (Time.ModelRun.Stored t)
  | KSlip => exists b, v = LBool b /\ u = LBool b
  | KRoot => (v = LNil \/ exists b, v = LBody b) /\ u = v
  | KDegree => exists x, number v x /\ u = LNum (@to_degrees F64 c_pi (@to_radians F64 c_pi x))
  | KList => False
  end.

End Spec.
