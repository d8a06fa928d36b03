(** Model of the lines with settings that vvxtract -i prints, vvxtract.cpp:90-147,
    as far as Xtract.Model leaves them out.  An object is as in Lua.ModelMembers
    a function from the names of its C++ members to what they hold. *)

From Coq Require Import ZArith Bool List String Ascii.
From Verif.Base Require Import Num.
From Verif.Lua Require Import ModelMembers.
From Verif.Time Require ModelRun.
From Verif.Print Require Import Model.
Import ListNotations.
Local Open Scope string_scope.

(** [%lg]. *)
Definition num (x : f64) : string := show_g 6 (of_double x).
(** [%d] and [%u]. *)
Definition int (z : Z) : string :=
  minus (z <? 0)%Z ++ text (digits (S (Z.to_nat (size10 (Z.to_nat (Z.log2 (Z.abs z) + 1)) (Z.abs z)))) (Z.abs z)).

Definition shown (m : mem) : string :=
  match m with
  | MStr s | MExpr s => "'" ++ c_str s ++ "'"
  | MDbl x => num x
  | MVec x y => "{" ++ num x ++ ", " ++ num y ++ "}"
  | MVec3 x y o => "{" ++ num x ++ ", " ++ num y ++ ", " ++ num o ++ "}"
  | MTime t => "'" ++ int (Time.Model.value t) ++ "/" ++ int (Time.Model.timescale t) ++ "'"
  | MInt z => int z
  | _ => ""
  end.

(** What follows a value: nothing, a time in seconds (97-98), an angle in degrees (S4D, 123). *)
Inductive note := Plain | Seconds | Degrees.
Definition comment (k : note) (m : mem) : string :=
  match k, m with
  | Seconds, MTime t => " -- " ++ num (Time.ModelRun.to_double t)
  | Degrees, MVec3 _ _ o => " -- .d = " ++ num (@to_degrees F64 c_pi o)
  | _, _ => ""
  end.

(** Lines 92-102: name, C++ member. *)
Definition space_rows : list (string * string * note) :=
  [("re", "re", Plain); ("inf_g", "inf_g", Plain); ("inf_vx", "inf_vx", Plain); ("inf_vy", "inf_vy", Plain);
   ("gravity", "gravity", Plain); ("time", "time", Seconds); ("dt", "dt", Seconds); ("dt_save", "dt_save", Plain);
   ("dt_streak", "dt_streak", Plain); ("dt_profile", "dt_profile", Plain); ("finish", "finish", Plain)].
(** Lines 124-137 and 147. *)
Definition body_rows : list (string * string * note) :=
  [("label", "label", Plain); ("density", "density", Plain); ("holder_pos", "holder", Degrees);
   ("holder_vx", "speed_x", Plain); ("holder_vy", "speed_y", Plain); ("holder_vo", "speed_o", Plain); ("holder_mo", "force_o", Plain);
   ("speed", "speed_slae", Plain); ("delta_pos", "dpos", Degrees); ("spring_const", "kspring", Plain);
   ("spring_damping", "damping", Plain); ("collision_min", "collision_min", Degrees); ("collision_max", "collision_max", Degrees);
   ("bounce", "bounce", Plain); ("special_segment", "special_segment_no", Plain)].

Definition info_line (owner : string) (o : object) (r : string * string * note) : string :=
  let '(n, f, k) := r in owner ++ "." ++ n ++ " = " ++ shown (o f) ++ comment k (o f).
Definition info_space (s : object) : list string := map (info_line "S" s) space_rows.
Definition info_body (label : string) (b : object) : list string := map (info_line label b) body_rows.
