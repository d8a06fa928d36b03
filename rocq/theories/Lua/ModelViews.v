(** Model of the vectors a script takes out of bodies: utils/vvflow/lua_tvec.cpp,
    lua_tvec3d.cpp, lua_tbody.cpp.  The userdata of a vector is a bare pointer
    into the body (lua_tvec.cpp:106-111, lua_tvec3d.cpp:118-123); it does not
    keep the body alive.  Expressions ([TEval]) are read as texts here. *)

From Coq Require Import List ZArith Bool Arith String.
From Verif Require Import Base.Num.
From Verif Require Lua.Model.
From Verif Require Import Lua.ModelMembers.
From Verif Require Time.ModelRun.
Import ListNotations.
Local Open Scope string_scope.
Local Open Scope nat_scope.

(** Where the pointer leads: a member of a body, or the [r] of a member of the
    class TVec3D. *)
Record view := mkView { vbody : nat; vfield : string; vsub : bool }.

(** The bodies with their owners, what their members hold, the vectors taken so
    far.  A body without owners is freed, see [Lua.Model.uses]. *)
Record vworld := mkV { base : Lua.Model.world; objs : nat -> object; views : list view }.

(** What is at the place; [None] when the type is another one. *)
Definition deref (o : object) (v : view) : option mem :=
  match vsub v, o (vfield v) with
  | false, m => Some m
  | true, MVec3 x y _ => Some (MVec x y)
  | true, _ => None
  end.
Definition restore (o : object) (v : view) (m : mem) : object :=
  match vsub v, o (vfield v), m with
  | false, _, _ => put o (vfield v) m
  | true, MVec3 _ _ a, MVec x y => put o (vfield v) (MVec3 x y a)
  | true, _, _ => o
  end.

Definition put_body (b : nat) (o : object) (w : vworld) : vworld :=
  mkV (base w) (fun c => if c =? b then o else objs w c) (views w).
Definition push_view (v : view) (w : vworld) : vworld :=
  mkV (base w) (objs w) (views w ++ [v])%list.

(** The value given to an assignment: a plain one or a vector taken before. *)
Inductive varg := Val (v : lval) | Taken (i : nat).

(** [Seen a n]: the answer, and the number of the vector when it is one.
    [Freed] is reading or writing memory that was given back. *)
Inductive vresult := Plain (r : Lua.Model.result) | Seen (a : answer) (n : option nat) | Freed.

Section Views.
Variable str2num : string -> option f64.
Variable accepts : string -> bool.
Variable scan : string -> Time.ModelRun.scan.
(** The members of a body just made. *)
Variable fresh : object.
Notation newindex := (newindex str2num accepts scan).

(** [luavvd_toTVecx], [luavvd_toTVec3Dx] look through the pointer
    (lua_tvec.cpp:141-147, lua_tvec3d.cpp:155-161). *)
Definition through (w : vworld) (a : varg) : option lval :=
  match a with
  | Val v => Some v
  | Taken i =>
      match nth_error (views w) i with
      | None => Some LNil
      | Some v =>
          if Lua.Model.uses (base w) (vbody v) =? 0 then None
          else match deref (objs w (vbody v)) v with
               | Some (MVec x y) => Some (LVec x y)
               | Some (MVec3 x y o) => Some (LVec3 x y o)
               | _ => None
               end
      end
  end.

(** [b.name]: lua_tbody.cpp:248-275 with lua_tvec3d.cpp:186-190.  The root has
    its own call, [Lua.Model.GetRoot]. *)
Definition body_get (h : nat) (name : string) (w : vworld) : vworld * vresult :=
  match Lua.Model.check (base w) h with
  | None => (w, Plain Lua.Model.not_body)
  | Some b =>
      match find (fun r => String.eqb (rname r) name) tbody_members with
      | Some r =>
          match rkind r with
          | KVec3 => (push_view (mkView b (rfield r) false) w,
                      Seen (getindex tbody_members tbody_methods (objs w b) name) (Some (List.length (views w))))
          | KRoot => (w, Seen Elsewhere None)
          | _ => (w, Seen (getindex tbody_members tbody_methods (objs w b) name) None)
          end
      | None => (w, Seen (getindex tbody_members tbody_methods (objs w b) name) None)
      end
  end.

(** [b.name = value]: lua_tbody.cpp:227-246. *)
Definition body_set (h : nat) (name : string) (a : varg) (w : vworld) : vworld * vresult :=
  match Lua.Model.check (base w) h with
  | None => (w, Plain Lua.Model.not_body)
  | Some b =>
      if String.eqb name "root" then (w, Seen Elsewhere None)
      else match through w a with
           | None => (w, Freed)
           | Some v =>
               let '(o, r) := newindex tbody_members (objs w b) name v in
               (put_body b o w, Seen r None)
           end
  end.

(** [p.name] for a vector [p]: lua_tvec.cpp:70-90, lua_tvec3d.cpp:82-102.  The
    [r] of a TVec3D is a vector again, inside the first one. *)
Definition view_get (i : nat) (name : string) (w : vworld) : vworld * vresult :=
  match nth_error (views w) i with
  | None => (w, Seen (LuaError "attempt to index a nil value") None)
  | Some v =>
      if Lua.Model.uses (base w) (vbody v) =? 0 then (w, Freed)
      else match deref (objs w (vbody v)) v with
           | None => (w, Freed)
           | Some m =>
               match open_vec m with
               | None => (w, Freed)
               | Some (t, o) =>
                   let a := getindex t (methods_of m) o name in
                   match a with
                   | Value (LVec _ _) =>
                       (push_view (mkView (vbody v) (vfield v) true) w, Seen a (Some (List.length (views w))))
                   | _ => (w, Seen a None)
                   end
               end
           end
  end.

(** [p.name = value]: lua_tvec.cpp:50-68, lua_tvec3d.cpp:62-80. *)
Definition view_set (i : nat) (name : string) (a : varg) (w : vworld) : vworld * vresult :=
  match nth_error (views w) i with
  | None => (w, Seen (LuaError "attempt to index a nil value") None)
  | Some v =>
      if Lua.Model.uses (base w) (vbody v) =? 0 then (w, Freed)
      else match deref (objs w (vbody v)) v, through w a with
           | Some m, Some x =>
               match open_vec m with
               | None => (w, Freed)
               | Some (t, o) =>
                   let '(o', r) := newindex t o name x in
                   (put_body (vbody v) (restore (objs w (vbody v)) v (close_vec m o')) w, Seen r None)
               end
           | _, _ => (w, Freed)
           end
  end.

(** One call of a script.  A new body has new members. *)
Inductive vcall :=
| VCall (c : Lua.Model.call)
| Get (h : nat) (name : string) | Set_ (h : nat) (name : string) (a : varg)
| VGet (i : nat) (name : string) | VSet (i : nat) (name : string) (a : varg).

Definition vstep (c : vcall) (w : vworld) : vworld * vresult :=
  match c with
  | VCall c =>
      let '(b, r) := Lua.Model.step c (base w) in
      (mkV b (fun k => if Lua.Model.made (base w) <=? k then fresh else objs w k) (views w), Plain r)
  | Get h name => body_get h name w
  | Set_ h name a => body_set h name a w
  | VGet i name => view_get i name w
  | VSet i name a => view_set i name a w
  end.

Definition vstart : vworld := mkV Lua.Model.start (fun _ => fresh) [].

(** A script goes on after an error, but not after undefined behaviour. *)
Definition lost (r : vresult) : bool :=
  match r with Plain Lua.Model.Undefined | Freed | Seen Ub _ => true | _ => false end.
Fixpoint vrun (cs : list vcall) (w : vworld) : option vworld :=
  match cs with
  | [] => Some w
  | c :: cs => let '(w, r) := vstep c w in if lost r then None else vrun cs w
  end.

End Views.
