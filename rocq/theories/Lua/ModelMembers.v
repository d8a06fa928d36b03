(** Model of reading and assigning members from Lua: utils/vvflow/getset.cpp,
    lua_tvec.cpp, lua_tvec3d.cpp, lua_tobj.cpp, lua_tbody.cpp, lua_space.cpp,
    lua_teval.cpp.

    An object is a function from the names of its C++ members to what they
    hold.  Which texts are numbers and which are expressions is left to
    arguments.  Lua is version 5.2.4 (ExternalProjects.cmake:3), where every
    number is a double, built for a 64-bit machine. *)

From Coq Require Import List ZArith Bool Ascii String.
From Flocq Require Import IEEE754.BinarySingleNaN.
From Verif Require Import Base.Int Base.Num.
From Verif Require Store.Model Time.Model Time.ModelRun.
Import ListNotations.
Local Open Scope string_scope.

Definition c_str := Store.Model.c_str.
Definition ttime := Time.Model.ttime.

(** * Lua values *)

(** [LTab] are the elements 1, 2, ... of a table; [LVec], [LVec3], [LEval],
    [LBody], [LList] are userdata of the classes, with what they lead to. *)
Inductive lval :=
| LNil | LBool (b : bool) | LNum (x : f64) | LStr (s : string)
| LTab (l : list lval)
| LVec (x y : f64) | LVec3 (x y o : f64) | LEval (s : string) | LBody (b : nat) | LList
| LFunction | LOther.

(** lua_tvec3d.cpp:39 and 45. *)
Definition to_radians {K : Num} (pi x : K) : K := (x * pi / nofZ 180)%num.
Definition to_degrees {K : Num} (pi x : K) : K := (x * nofZ 180 / pi)%num.
(** elementary.h:3: C_PI is the double 884279719003555 / 2^48. *)
Definition c_pi : f64 := @ndiv F64 (f64_ofZ 884279719003555) (f64_ofZ (2 ^ 48)).

Section Members.
(** The number a text spells, if any. *)
Variable str2num : string -> option f64.
(** TEval::operator=, see Eval.Model. *)
Variable accepts : string -> bool.
(** sscanf(s, "%d/%u %n"), see Time.ModelRun. *)
Variable scan : string -> Time.ModelRun.scan.

(** lua_tonumberx. *)
Definition tonumber (v : lval) : option f64 :=
  match v with
  | LNum x => Some x
  | LStr s => str2num s
  | _ => None
  end.
(** lua_tointegerx: no number, or the number converted to 64 bits by a cast of
    C, which is undefined out of range. *)
Inductive whole := NoNumber | Outside | Whole (z : Z).
Definition cast64 (x : f64) : whole :=
  if is_finite x then
    let z := Btrunc x in
    if ((- 2 ^ 63 <=? z) && (z <? 2 ^ 63))%Z then Whole z else Outside
  else Outside.
Definition tointeger (v : lval) : whole :=
  match tonumber v with Some x => cast64 x | None => NoNumber end.

(** lua_tvec.cpp:120-154. *)
Definition to_vec (v : lval) : option (f64 * f64) :=
  match v with
  | LTab [a; b] => match tonumber a, tonumber b with
                   | Some x, Some y => Some (x, y)
                   | _, _ => None
                   end
  | LVec x y => Some (x, y)
  | _ => None
  end.
(** lua_tvec3d.cpp:132-168. *)
Definition to_vec3 (v : lval) : option (f64 * f64 * f64) :=
  match v with
  | LTab [a; b; c] => match tonumber a, tonumber b, tonumber c with
                      | Some x, Some y, Some o => Some (x, y, o)
                      | _, _, _ => None
                      end
  | LVec3 x y o => Some (x, y, o)
  | _ => None
  end.

(** What [luavvd_setTTime] sees, getset.cpp:69-95; [None]: undefined.  Tables of
    another length are not looked into. *)
Definition time_table (a b : lval) : option Time.ModelRun.lua_value :=
  match tointeger a, tointeger b with
  | Outside, _ | _, Outside => None
  | Whole x, Whole y => Some (Time.ModelRun.LTable 2 (Some x) (Some y))
  | Whole x, NoNumber => Some (Time.ModelRun.LTable 2 (Some x) None)
  | NoNumber, Whole y => Some (Time.ModelRun.LTable 2 None (Some y))
  | NoNumber, NoNumber => Some (Time.ModelRun.LTable 2 None None)
  end.
Definition time_value (v : lval) : option Time.ModelRun.lua_value :=
  match v with
  | LNum x => Some (Time.ModelRun.LNumber x)
  | LTab [a; b] => time_table a b
  | LTab l => Some (Time.ModelRun.LTable (List.length l) None None)
  | LStr s => Some (Time.ModelRun.LString (scan s))
  | _ => Some Time.ModelRun.LOther
  end.

(** * Members *)

(** What a C++ member holds.  [MSlips] is the flag of every segment, [MRoot] a
    weak pointer (here to a living body, see Lua.Model for the others). *)
Inductive mem :=
| MStr (s : string) | MDbl (x : f64) | MInt (z : Z)
| MVec (x y : f64) | MVec3 (x y o : f64) | MExpr (s : string) | MTime (t : ttime)
| MSlips (l : list Z) | MRoot (r : option nat) | MList.

(** A getter with its setter. *)
Inductive kind := KStr | KDbl | KInt | KVec | KVec3 | KExpr | KTime | KSlip | KRoot | KDegree | KList.

Inductive stored := Stored (m : mem) | Refused (message : string) | Undefined.

(** The setters: getset.cpp:6-116, lua_tvec.cpp:157-169, lua_tvec3d.cpp:29-41,
    171-183, lua_teval.cpp:61-98, lua_tbody.cpp:11-24, 40-50.  A setter on
    memory of another type is undefined. *)
Definition set (k : kind) (old : mem) (v : lval) : stored :=
  match k, old with
  | KDbl, MDbl _ => match tonumber v with Some x => Stored (MDbl x) | None => Refused "number expected" end
  | KInt, MInt _ =>
      match tointeger v with
      | Whole z => Stored (MInt (i32 z))
      | Outside => Undefined
      | NoNumber => Refused "integer expected"
      end
  | KStr, MStr _ => match v with LStr s => Stored (MStr (c_str s)) | _ => Refused "string expected" end
  | KVec, MVec _ _ => match to_vec v with Some (x, y) => Stored (MVec x y) | None => Refused "TVec needs table with two numbers" end
  | KVec3, MVec3 _ _ _ => match to_vec3 v with Some (x, y, o) => Stored (MVec3 x y o) | None => Refused "TVec3D needs table with three numbers" end
  | KDegree, MDbl _ =>
      match tonumber v with
      | Some x => Stored (MDbl (@to_radians F64 c_pi x))
      | None => Refused "number expected"
      end
  | KExpr, MExpr _ =>
      match v with
      | LStr s => if accepts (c_str s) then Stored (MExpr (c_str s)) else Refused "invalid expression"
      | LEval s => if accepts s then Stored (MExpr s) else Refused "invalid expression"
      | _ => Refused "string or TEval expected"
      end
  | KTime, MTime _ =>
      match time_value v with
      | None => Undefined
      | Some w =>
          match Time.ModelRun.set_ttime w with
          | Time.ModelRun.Stored t => Stored (MTime t)
          | Time.ModelRun.Rejected => Refused "TTime"
          | Time.ModelRun.Undefined => Undefined
          end
      end
  | KSlip, MSlips l =>
      match v with
      | LBool b => Stored (MSlips (map (fun _ => if b then 1%Z else 0%Z) l))
      | _ => Refused "boolean expected"
      end
  | KRoot, MRoot _ =>
      match v with
      | LNil => Stored (MRoot None)
      | LBody b => Stored (MRoot (Some b))
      | _ => Refused "TBody expected"
      end
  | _, _ => Undefined
  end.

(** The getters: getset.cpp:46-62, 118-122, lua_tvec3d.cpp:43-47, 186-190 and
    the rest.  [None] is undefined behaviour. *)
Definition get (k : kind) (m : mem) : option lval :=
  match k, m with
  | KDbl, MDbl x => Some (LNum x)
  | KInt, MInt z => Some (LNum (f64_ofZ z))
  | KStr, MStr s => Some (LStr (c_str s))
  | KVec, MVec x y => Some (LVec x y)
  | KVec3, MVec3 x y o => Some (LVec3 x y o)
  | KDegree, MDbl x => Some (LNum (@to_degrees F64 c_pi x))
  | KExpr, MExpr s => Some (LEval s)
  | KTime, MTime t => Some (LNum (Time.ModelRun.to_double t))
  | KSlip, MSlips l =>
      match l with
      | [] => None
      | s :: _ => Some (if forallb (Z.eqb s) l then LBool (negb (Z.eqb s 0)) else LNil)
      end
  | KRoot, MRoot None => Some LNil
  | KRoot, MRoot (Some b) => Some (LBody b)
  | KList, MList => Some LList
  | _, _ => None
  end.

(** * Tables of members *)

(** A row of a table: name, getter and setter, whether there is a setter, the
    member at the offset. *)
Record row := mkRow { rname : string; rkind : kind; rset : bool; rfield : string }.

Definition object := string -> mem.
Definition put (o : object) (f : string) (m : mem) : object :=
  fun g => if String.eqb g f then m else o g.

(** lua_space.cpp:46-68. *)
Definition space_members : list row :=
  [ mkRow "caption" KStr true "caption"; mkRow "re" KDbl true "re";
    mkRow "finish" KDbl true "finish"; mkRow "inf_g" KDbl true "inf_g";
    mkRow "inf_vx" KExpr true "inf_vx"; mkRow "inf_vy" KExpr true "inf_vy";
    mkRow "gravity" KVec true "gravity";
    mkRow "time" KTime true "time"; mkRow "dt" KTime true "dt";
    mkRow "dt_save" KTime true "dt_save"; mkRow "dt_streak" KTime true "dt_streak";
    mkRow "dt_profile" KTime true "dt_profile";
    mkRow "body_list" KList false "BodyList"; mkRow "vort_list" KList false "VortexList";
    mkRow "sink_list" KList false "SourceList";
    mkRow "streak_source_list" KList false "StreakSourceList";
    mkRow "streak_domain_list" KList false "StreakList" ].
Definition space_methods : list string := ["load"; "save"; "XStreamfunction"].

(** lua_tvec.cpp:36-40, lua_tvec3d.cpp:49-54, lua_tobj.cpp:13-18. *)
Definition tvec_members : list row := [ mkRow "x" KDbl true "x"; mkRow "y" KDbl true "y" ].
Definition tvec_methods : list string := ["abs"; "abs2"; "tostring"; "totable"].
Definition tvec3d_members : list row :=
  [ mkRow "r" KVec true "r"; mkRow "o" KDbl true "o"; mkRow "d" KDegree true "o" ].
Definition tvec3d_methods : list string := ["tostring"; "totable"].
Definition tobj_members : list row :=
  [ mkRow "r" KVec true "r"; mkRow "g" KDbl true "g"; mkRow "v" KVec true "v" ].
Definition tobj_methods : list string := ["tostring"].

(** lua_tbody.cpp:165-184: names, getters and setters; 186-211: the members
    bound to the names.  [slip] works on the whole body, here on its list of
    segments. *)
Definition tbody_kinds : list (string * kind) :=
  [ ("label", KStr); ("holder_pos", KVec3); ("delta_pos", KVec3); ("speed", KVec3);
    ("collision_min", KVec3); ("collision_max", KVec3); ("spring_const", KVec3);
    ("spring_damping", KVec3); ("holder_vx", KExpr); ("holder_vy", KExpr);
    ("holder_vo", KExpr); ("holder_mo", KExpr); ("density", KDbl); ("bounce", KDbl);
    ("special_segment", KInt); ("slip", KSlip); ("root", KRoot) ].
Definition push_member : list (string * string) :=
  [ ("label", "label"); ("holder_pos", "holder"); ("delta_pos", "dpos");
    ("speed", "speed_slae"); ("collision_min", "collision_min");
    ("collision_max", "collision_max"); ("spring_const", "kspring");
    ("spring_damping", "damping"); ("holder_vx", "speed_x"); ("holder_vy", "speed_y");
    ("holder_vo", "speed_o"); ("holder_mo", "force_o"); ("density", "density");
    ("bounce", "bounce"); ("special_segment", "special_segment_no");
    ("slip", "alist"); ("root", "root_body") ].
Definition tbody_methods : list string :=
  [ "move_r"; "move_o"; "move_d"; "get_slen"; "get_area"; "get_moi_cofm"; "get_moi_axis";
    "get_cofm"; "get_axis"; "totable" ].

(** A name without binding pushes nothing: the setter gets the wrong
    arguments, written here as a member that does not exist. *)
Definition tbody_members : list row :=
  map (fun e => mkRow (fst e) (snd e) true
         (match find (fun b => String.eqb (fst b) (fst e)) push_member with
          | Some b => snd b | None => "" end)) tbody_kinds.

(** * Access *)

(** [Elsewhere]: the object belongs to something this model does not follow. *)
Inductive answer := Value (v : lval) | LuaError (message : string) | Ub | Elsewhere.

(** [__newindex]: lua_space.cpp:77-97, lua_tvec.cpp:50-68, lua_tvec3d.cpp:62-80,
    lua_tobj.cpp:25-43, lua_tbody.cpp:227-246. *)
Definition newindex (t : list row) (o : object) (name : string) (v : lval) : object * answer :=
  match find (fun r => String.eqb (rname r) name) t with
  | Some r =>
      if rset r then
        match set (rkind r) (o (rfield r)) v with
        | Stored m => (put o (rfield r) m, Value LNil)
        | Refused e => (o, LuaError ("bad value for " ++ name ++ " (" ++ e ++ ")"))
        | Undefined => (o, Ub)
        end
      else (o, LuaError ("can not assign '" ++ name ++ "'"))
  | None => (o, LuaError ("can not assign '" ++ name ++ "'"))
  end.

(** [__index]: lua_space.cpp:99-120 and the others. *)
Definition getindex (t : list row) (methods : list string) (o : object) (name : string) : answer :=
  match find (fun r => String.eqb (rname r) name) t with
  | Some r => match get (rkind r) (o (rfield r)) with Some v => Value v | None => Ub end
  | None => if existsb (String.eqb name) methods then Value LFunction else Value LNil
  end.

(** ** Members of members *)

(** The userdata of a vector is a pointer to the member: an assignment through
    it changes the member.  A vector as an object and back. *)
Definition open_vec (m : mem) : option (list row * object) :=
  match m with
  | MVec x y => Some (tvec_members, fun f => if String.eqb f "x" then MDbl x else MDbl y)
  | MVec3 x y o => Some (tvec3d_members, fun f => if String.eqb f "r" then MVec x y else MDbl o)
  | _ => None
  end.
Definition close_vec (m : mem) (o : object) : mem :=
  match m with
  | MVec x y =>
      match o "x", o "y" with MDbl x', MDbl y' => MVec x' y' | _, _ => m end
  | MVec3 x y a =>
      match o "r", o "o" with MVec x' y', MDbl a' => MVec3 x' y' a' | _, _ => m end
  | _ => m
  end.

(** [o.n1.n2...nk = v] for an object with the table [t]; through [root] it is an
    assignment to another body, the lists have their own model. *)
Fixpoint assign (t : list row) (o : object) (path : list string) (v : lval) : object * answer :=
  match path with
  | [] => (o, Ub)
  | [name] => newindex t o name v
  | name :: path =>
      match find (fun r => String.eqb (rname r) name) t with
      | None => (o, LuaError ("attempt to index a nil value (field '" ++ name ++ "')"))
      | Some r =>
          match rkind r, open_vec (o (rfield r)) with
          | KVec, Some (t', o') | KVec3, Some (t', o') =>
              let '(o', a) := assign t' o' path v in
              (put o (rfield r) (close_vec (o (rfield r)) o'), a)
          | KRoot, _ | KList, _ => (o, Elsewhere)
          | _, _ => (o, LuaError ("can not assign '" ++ name ++ "'"))
          end
      end
  end.

(** [o.n1.n2...nk]. *)
Definition methods_of (m : mem) : list string :=
  match m with MVec _ _ => tvec_methods | _ => tvec3d_methods end.
Fixpoint look (t : list row) (methods : list string) (o : object) (path : list string) : answer :=
  match path with
  | [] => Ub
  | [name] => getindex t methods o name
  | name :: path =>
      match find (fun r => String.eqb (rname r) name) t with
      | None => LuaError ("attempt to index a nil value (field '" ++ name ++ "')")
      | Some r =>
          match rkind r, open_vec (o (rfield r)) with
          | KVec, Some (t', o') | KVec3, Some (t', o') => look t' (methods_of (o (rfield r))) o' path
          | KDbl, _ | KInt, _ | KTime, _ | KSlip, _ | KDegree, _ =>
              LuaError ("attempt to index field '" ++ name ++ "'")
          | _, _ => Elsewhere
          end
      end
  end.

End Members.
