(** Model of saving and loading a space: libvvhd/src/TSpace.cpp,
    TSpace_save_hdf.cpp, TSpace_load_hdf.cpp, vvhdf.cpp.  The HDF5 file is a list of
    attributes and a list of named datasets.  Failures of the HDF5 library itself,
    the size of arrays on the stack and the old text format (load_v13) are not
    modelled; an attribute or dataset of another type than expected makes the
    reading throw. *)

From Coq Require Import List Arith ZArith Bool String Ascii DecimalString DecimalNat.
From Flocq Require Import IEEE754.BinarySingleNaN.
From Verif.Base Require Import Num F64 F32.
From Verif.Time Require Model ModelRun.
From Verif.Body Require Model.
From Verif.Forces Require Model.
Import ListNotations.
Local Open Scope string_scope.
Local Open Scope list_scope.

(** [Throw]: an exception.  [Undefined]: undefined behaviour. *)
Inductive outcome (A : Type) := Ok (a : A) | Throw | Undefined.
Arguments Ok {A}. Arguments Throw {A}. Arguments Undefined {A}.
Definition bind {A B} (o : outcome A) (f : A -> outcome B) : outcome B :=
  match o with Ok a => f a | Throw => Throw | Undefined => Undefined end.
Notation "x <- a ; b" := (bind a (fun x => b)) (at level 80, a at next level, right associativity).

Definition ttime := Verif.Time.Model.ttime.
Definition mkTime := Verif.Time.Model.mkTime.
Definition vec := (f64 * f64)%type.                      (* TVec.hpp *)
Definition vec3 := (f64 * f64 * f64)%type.               (* TVec3D.hpp: r.x, r.y, o *)
Definition fzero : f64 := f64_ofZ 0.
Definition finf : f64 := B754_infinity false.
Definition vzero : vec := (fzero, fzero).
Definition vzero3 : vec3 := (fzero, fzero, fzero).
Definition vnan3 : vec3 := (B754_nan, B754_nan, B754_nan).

(** * The space *)

(** TObj.hpp:13-16. *)
Record tobj := mkObj { ox : f64; oy : f64; og : f64; ovx : f64; ovy : f64; oeps : f64 }.
(** TObj.hpp:19-21. *)
Definition obj0 : tobj := mkObj fzero fzero fzero fzero fzero fzero.

(** TBody.hpp:18-54.  The centre, [dl] and [_1_eps] are functions of the corners
    and not repeated here, see Body.Model. *)
Record att := mkAtt {
  corner : vec; ag : f64; agsum : f64; slip : Z; heat_const : f32;
  hsum : f64; fric : f64; acp : f64; afr : f64; anu : f64; layer : Z }.
(** TBody.hpp:40-48. *)
Definition att0 (c : vec) : att :=
  mkAtt c fzero fzero 0 (f32_ofZ 0) fzero fzero fzero fzero fzero (-1).

Inductive bc := Steady | Kutta.                           (* TBody.hpp:14 *)
Inductive hc := Neglect | Isolate | ConstT | ConstW.      (* TBody.hpp:15 *)

(** [weak_ptr<TBody> root_body]: expired, the body at a position of the list of the
    same space, or a living body outside of it.  A list that holds one body twice
    is not modelled. *)
Inductive root := NoRoot | RootAt (n : nat) | Foreign.

(** TBody.hpp:70-113.  [area], [cofm] and [moi] are the values kept by
    doFillProperties. *)
Record body := mkBody {
  label : string; alist : list att; root_body : root;
  holder : vec3; dpos : vec3; kspring : vec3; damping : vec3;
  speed_slae : vec3; speed_slae_prev : vec3;
  collision_min : vec3; collision_max : vec3; bounce : f64; density : f64;
  special_segment_no : Z; boundary_condition : bc; heat_condition : hc;
  friction : vec3; friction_prev : vec3; force_hydro : vec3; force_holder : vec3;
  nusselt : f64; fdt_dead : vec3; g_dead : f64;
  speed_x : string; speed_y : string; speed_o : string; force_o : string;
  area : f64; cofm : vec; moi : f64 }.

(** TSpace.hpp:26-55.  Expressions are their texts. *)
Record space := mkSpace {
  caption : string; re : f64; pr : f64; inf_g : f64; inf_vx : string; inf_vy : string;
  inf_marker : vec; gravity : vec; time : ttime; dt : ttime; dt_save : ttime;
  dt_streak : ttime; dt_profile : ttime; finish : f64;
  bodies : list body; vortices : list tobj; heat : list tobj; sources : list tobj;
  streak_sources : list tobj; streak : list tobj }.

(** * The file *)

Inductive attr :=
| AStr (s : string) | AD (x : f64) | AV (v : vec) | A3 (v : vec3)
| AU (n : Z) | AI (n : Z) | AT (t : ttime) | AUs (l : list Z).
Definition attrs := list (string * attr).

Inductive dataset :=
| DList (rows : list (f64 * f64 * f64))
| DBody (rows : list (vec * f64 * f64)) (a : attrs).

Record file := mkFile { fattrs : attrs; objects : list (string * dataset) }.

Fixpoint assoc {A} (name : string) (l : list (string * A)) : option A :=
  match l with
  | [] => None
  | (n, a) :: tl => if String.eqb n name then Some a else assoc name tl
  end.

(** * Attributes, vvhdf.cpp *)

(** [std::string::c_str] read as a C string stops at the first NUL. *)
Fixpoint c_str (s : string) : string :=
  match s with
  | EmptyString => EmptyString
  | String c tl => if Ascii.eqb c Ascii.zero then EmptyString else String c (c_str tl)
  end.

(** Lines 120-128: nothing is written for the empty string. *)
Definition w_str (name s : string) : attrs :=
  if String.eqb s "" then [] else [(name, AStr (c_str s))].

(** Lines 130-155. *)
Definition bc_code (b : bc) : Z := match b with Steady => 0 | Kutta => 1 end.
Definition hc_code (h : hc) : Z :=
  match h with Neglect => 0 | Isolate => 1 | ConstT => 2 | ConstW => 3 end.

(** Lines 24-51: a missing attribute reads as the value of the type's default
    constructor. *)
Definition r_str (a : attrs) (name : string) : outcome string :=
  match assoc name a with None => Ok "" | Some (AStr s) => Ok s | _ => Throw end.
Definition r_d (a : attrs) (name : string) : outcome f64 :=
  match assoc name a with None => Ok fzero | Some (AD x) => Ok x | _ => Throw end.
Definition r_vec (a : attrs) (name : string) : outcome vec :=
  match assoc name a with None => Ok vzero | Some (AV x) => Ok x | _ => Throw end.
Definition r_vec3 (a : attrs) (name : string) : outcome vec3 :=
  match assoc name a with None => Ok vzero3 | Some (A3 x) => Ok x | _ => Throw end.
Definition r_u (a : attrs) (name : string) : outcome Z :=
  match assoc name a with None => Ok 0%Z | Some (AU x) => Ok x | _ => Throw end.
Definition r_i (a : attrs) (name : string) : outcome Z :=
  match assoc name a with None => Ok 0%Z | Some (AI x) => Ok x | _ => Throw end.
Definition r_time (a : attrs) (name : string) : outcome ttime :=
  match assoc name a with None => Ok (mkTime 0 1) | Some (AT x) => Ok x | _ => Throw end.

(** Lines 53-84. *)
Definition r_bc (a : attrs) (name : string) : outcome bc :=
  n <- r_u a name; Ok (if Z.eqb n 1 then Kutta else Steady).
Definition r_hc (a : attrs) (name : string) : outcome hc :=
  n <- r_u a name;
  Ok (if Z.eqb n 1 then Isolate else if Z.eqb n 2 then ConstT else if Z.eqb n 3 then ConstW else Neglect).

(** * Saving, TSpace_save_hdf.cpp *)

(** [snprintf(body_name, 32, "body%02zd", i)], line 199. *)
Definition decimal (n : nat) : string := NilEmpty.string_of_uint (Nat.to_uint n).
Definition body_name (i : nat) : string :=
  ("body" ++ (if Nat.ltb i 10 then "0" else "") ++ decimal i)%string.

(** Lines 11-49. *)
Definition write_list (name : string) (l : list tobj) : list (string * dataset) :=
  match l with
  | [] => []
  | _ => [(name, DList (map (fun o => (ox o, oy o, og o)) l))]
  end.

(** TBody.hpp:127-131. *)
Definition moi_axis (b : body) : f64 :=
  let '(hx, hy, _) := holder b in
  let '(px, py, _) := dpos b in
  let dx := (@nsub F64 (@nadd F64 hx px) (fst (cofm b))) in
  let dy := (@nsub F64 (@nadd F64 hy py) (snd (cofm b))) in
  @nadd F64 (moi b) (@nmul F64 (@nadd F64 (@nmul F64 dx dx) (@nmul F64 dy dy)) (area b)).

(** Lines 51-163.  The first element of an empty body is read at lines 61-64. *)
Definition write_body (root_name : string) (b : body) : outcome dataset :=
  match alist b with
  | [] => Undefined
  | first :: _ =>
    let same_slip := forallb (fun a => Z.eqb (slip a) (slip first)) (alist b) in
    let same_heat := forallb (fun a => Beqb (heat_const a) (heat_const first)) (alist b) in
    if negb same_heat then Throw                                         (* 115-116 *)
    else Ok (DBody
      (map (fun a => (corner a, ag a, agsum a)) (alist b))
      ((if same_slip then [("general_slip", AU (slip first))]            (* 111-113 *)
        else [("slip", AUs (map slip (alist b)))])
       ++ [("general_heat_const", AD (f32_to_f64 (heat_const first)));
           ("simplified_dataset", AU 2)]
       ++ w_str "label" (label b) ++ w_str "root_body" root_name
       ++ [("holder_position", A3 (holder b)); ("delta_position", A3 (dpos b))]
       ++ w_str "speed_x" (speed_x b) ++ w_str "speed_y" (speed_y b)
       ++ w_str "speed_o" (speed_o b) ++ w_str "force_o" (force_o b)
       ++ [("speed_slae", A3 (speed_slae b)); ("speed_slae_prev", A3 (speed_slae_prev b));
           ("spring_const", A3 (kspring b)); ("spring_damping", A3 (damping b));
           ("density", AD (density b)); ("force_hydro", A3 (force_hydro b));
           ("force_holder", A3 (force_holder b)); ("friction_prev", A3 (friction_prev b));
           ("fdt_dead", A3 (fdt_dead b)); ("g_dead", AD (g_dead b));
           ("collision_min", A3 (collision_min b)); ("collision_max", A3 (collision_max b));
           ("bounce", AD (bounce b)); ("area", AD (area b)); ("cofm", AV (cofm b));
           ("moi_cofm", AD (moi b)); ("moi_axis", AD (moi_axis b));
           ("special_segment_no", AI (special_segment_no b));
           ("boundary_condition", AU (bc_code (boundary_condition b)));
           ("heat_condition", AU (hc_code (heat_condition b)))]))
  end.

(** Lines 204-217.  [n] is the number of bodies. *)
Definition root_name (n : nat) (r : root) : outcome string :=
  match r with
  | NoRoot => Ok ""
  | RootAt i => if Nat.ltb i n then Ok (body_name i) else Throw
  | Foreign => Throw
  end.
Fixpoint write_bodies (n i : nat) (l : list body) : outcome (list (string * dataset)) :=
  match l with
  | [] => Ok []
  | b :: tl =>
      r <- root_name n (root_body b);
      d <- write_body r b;
      rest <- write_bodies n (S i) tl;
      Ok ((body_name i, d) :: rest)
  end.

(** TBody.cpp:97-167. *)
Definition params (b : body) : Body.Model.params F64 :=
  @Body.Model.mkParams F64 (damping b) (kspring b) (collision_min b) (collision_max b).
Definition invalid (b : body) : bool :=
  match Body.Model.first_error (params b) with Some _ => true | None => false end.

(** The part of load that mends a body, TBody.cpp:124-137 with [critical] false. *)
Definition mend (b : body) : body :=
  let '(kx, ky, ka) := kspring b in
  let fix_k := @Body.Model.fix_kspring F64 finf in
  mkBody (label b) (alist b) (root_body b) (holder b) (dpos b) (fix_k kx, fix_k ky, fix_k ka) (damping b)
    (speed_slae b) (speed_slae_prev b) (collision_min b) (collision_max b) (bounce b) (density b)
    (special_segment_no b) (boundary_condition b) (heat_condition b)
    (friction b) (friction_prev b) (force_hydro b) (force_holder b) (nusselt b) (fdt_dead b) (g_dead b)
    (speed_x b) (speed_y b) (speed_o b) (force_o b) (area b) (cofm b) (moi b).

Section Store.
(** git_rev, git_info, git_diff, time_local: lines 178-186. *)
Variable meta : attrs.
(** Whether an expression is accepted, TEval.cpp:123-163, see Eval.Model. *)
Variable accepts : string -> bool.
(** doUpdateSegments and doFillProperties, see Body.Model: area, centre of mass,
    moment of inertia. *)
Variable properties : list vec -> f64 * vec * f64.

(** TSpace.cpp:64-83 without the name of the file, see [result_name];
    TSpace_save_hdf.cpp:165-222. *)
Definition save (s : space) : outcome file :=
  if existsb invalid (bodies s) then Throw
  else
    bs <- write_bodies (List.length (bodies s)) 0 (bodies s);
    Ok (mkFile
      (w_str "caption" (caption s)
       ++ [("time", AT (time s)); ("dt", AT (dt s)); ("dt_save", AT (dt_save s));
           ("dt_streak", AT (dt_streak s)); ("dt_profile", AT (dt_profile s));
           ("re", AD (re s)); ("pr", AD (pr s)); ("inf_marker", AV (inf_marker s))]
       ++ w_str "inf_speed_x" (inf_vx s) ++ w_str "inf_speed_y" (inf_vy s)
       ++ [("inf_circulation", AD (inf_g s)); ("gravity", AV (gravity s)); ("time_to_finish", AD (finish s))]
       ++ meta)
      (write_list "vort" (vortices s) ++ write_list "heat" (heat s)
       ++ write_list "ink" (streak s) ++ write_list "ink_source" (streak_sources s)
       ++ write_list "source" (sources s) ++ bs)).

(** * Loading, TSpace_load_hdf.cpp *)

(** [std::vector::resize], then x, y and g of every element are overwritten;
    lines 11-45.  A missing dataset leaves the list as it is. *)
Fixpoint fill (rows : list (f64 * f64 * f64)) (l : list tobj) : list tobj :=
  match rows with
  | [] => []
  | (x, y, g) :: tl =>
      let o := match l with [] => obj0 | o :: _ => o end in
      mkObj x y g (ovx o) (ovy o) (oeps o) :: fill tl (match l with [] => [] | _ :: l' => l' end)
  end.
Definition read_list (f : file) (name : string) (l : list tobj) : outcome (list tobj) :=
  match assoc name (objects f) with
  | None => Ok l
  | Some (DList rows) => Ok (fill rows l)
  | Some _ => Throw
  end.

(** TEval::operator=. *)
Definition r_expr (a : attrs) (name : string) : outcome string :=
  s <- r_str a name; if String.eqb s "" || accepts s then Ok s else Throw.

(** The order of [std::map<std::string, ...>]. *)
Fixpoint insert (x : string) (l : list string) : list string :=
  match l with
  | [] => [x]
  | y :: tl => if String.leb x y then x :: l else y :: insert x tl
  end.
Fixpoint sort (l : list string) : list string :=
  match l with [] => [] | x :: tl => insert x (sort tl) end.

Fixpoint index (x : string) (l : list string) : option nat :=
  match l with
  | [] => None
  | y :: tl => if String.eqb y x then Some 0 else option_map S (index x tl)
  end.

(** Lines 82-92. *)
Definition read_root (names : list string) (name : string) : root :=
  if String.eqb name "" then NoRoot
  else match index name names with Some i => RootAt i | None => NoRoot end.

(** What the two branches of lines 110-153 read: slip of every segment, the special
    segment, the conditions and the temperature of the wall.  Without a branch the
    values are those of the constructor, TBody.cpp:8-54.  An array "slip" longer
    than the body is written past the end of [slip_array]. *)
Definition old_bc (n : Z) : bc := if Z.eqb n 122 then Kutta else Steady.
Definition old_hc (n : Z) : hc :=
  if Z.eqb n 105 then Isolate else if Z.eqb n 116 then ConstT else if Z.eqb n 119 then ConstW else Neglect.
Definition r_slips (a : attrs) (n : nat) : outcome (list Z) :=
  match assoc "slip" a with
  | Some (AUs l) => if Nat.ltb n (List.length l) then Undefined else Ok (l ++ repeat 0%Z (n - List.length l))
  | Some _ => Undefined
  | None => g <- r_u a "general_slip"; Ok (repeat g n)
  end.
Definition read_conditions (a : attrs) (n : nat) : outcome (list Z * Z * bc * hc * f64) :=
  version <- r_u a "simplified_dataset";
  if Z.ltb version 2 then
    g <- r_u a "general_bc";
    h <- r_d a "heat_const";
    sp <- r_i a "special_bc_segment";
    b <- r_i a "special_bc";
    c <- r_i a "heat_condition";
    Ok (repeat (if Z.eqb g 108 then 1%Z else 0%Z) n, sp, old_bc b, old_hc c, h)
  else if Z.eqb version 2 then
    l <- r_slips a n;
    sp <- r_i a "special_segment_no";
    b <- r_bc a "boundary_condition";
    c <- r_hc a "heat_condition";
    h <- r_d a "general_heat_const";
    Ok (l, sp, b, c, h)
  else Ok (repeat 0%Z n, 0%Z, Steady, Neglect, fzero).

(** Lines 155-163. *)
Fixpoint read_atts (h : f32) (rows : list (vec * f64 * f64)) (slips : list Z) : list att :=
  match rows, slips with
  | (c, g, gs) :: tl, s :: ss => mkAtt c g gs s h fzero fzero fzero fzero fzero (-1) :: read_atts h tl ss
  | _, _ => []
  end.

(** Lines 47-171.  A dataset of no rows gives arrays of length 0. *)
Definition read_body (f : file) (names : list string) (name : string) : outcome body :=
  match assoc name (objects f) with
  | Some (DBody rows a) =>
    lb <- r_str a "label";
    ho <- r_vec3 a "holder_position";
    dp <- r_vec3 a "delta_position";
    sx <- r_expr a "speed_x"; sy <- r_expr a "speed_y"; so <- r_expr a "speed_o"; fo <- r_expr a "force_o";
    ss <- r_vec3 a "speed_slae";
    sp <- r_vec3 a "speed_slae_prev";
    ks <- r_vec3 a "spring_const";
    da <- r_vec3 a "spring_damping";
    de <- r_d a "density";
    fh <- r_vec3 a "force_hydro";
    fl <- r_vec3 a "force_holder";
    fp <- r_vec3 a "friction_prev";
    fd <- r_vec3 a "fdt_dead";
    gd <- r_d a "g_dead";
    cmin <- r_vec3 a "collision_min";
    cmax <- r_vec3 a "collision_max";
    bo <- r_d a "bounce";
    rn <- r_str a "root_body";
    cond <- read_conditions a (List.length rows);
    (let '(slips, special, b, h, hv) := cond in
     let al := read_atts (f64_to_f32 hv) rows slips in
     let '(ar, cm, mo) := properties (map corner al) in
     match rows with
     | [] => Undefined
     | _ => Ok (mkBody lb al (read_root names rn) ho dp ks da ss sp cmin cmax bo de special b h
                  vzero3 fp fh fl fzero fd gd sx sy so fo ar cm mo)
     end)
  | _ => Throw
  end.
Fixpoint read_bodies (f : file) (names todo : list string) : outcome (list body) :=
  match todo with
  | [] => Ok []
  | n :: tl => b <- read_body f names n; rest <- read_bodies f names tl; Ok (b :: rest)
  end.

(** Lines 173-180. *)
Definition body_names (f : file) : list string :=
  filter (fun n => String.prefix "body" n) (map fst (objects f)).

(** TSpace.cpp:38-62, TSpace_load_hdf.cpp:182-235.  [s] is the space before; its
    list of sources is not cleared. *)
Definition load (f : file) (s : space) : outcome space :=
  let a := fattrs f in
  ca <- r_str a "caption";
  ti <- r_time a "time"; d <- r_time a "dt"; ds <- r_time a "dt_save";
  dst <- r_time a "dt_streak"; dp <- r_time a "dt_profile";
  r <- r_d a "re"; p <- r_d a "pr"; im <- r_vec a "inf_marker";
  vx <- r_expr a "inf_speed_x"; vy <- r_expr a "inf_speed_y";
  ig <- r_d a "inf_circulation"; gr <- r_vec a "gravity"; fi <- r_d a "time_to_finish";
  v <- read_list f "vort" [];
  h <- read_list f "heat" [];
  st <- read_list f "ink" [];
  sst <- read_list f "ink_source" [];
  so <- read_list f "source" (sources s);
  (let names := sort (body_names f) in
   bs <- read_bodies f names names;
   Ok (mkSpace ca r p ig vx vy im gr ti d ds dst dp fi (map mend bs) v h so sst st)).
End Store.

(** * What a step does with a loaded body *)

(** The segments as [calc_forces] sees them, TBody.cpp:200-215. *)
Definition walls_of (b : body) : list (Forces.Model.wall F64) :=
  let bare := map (fun a => @Body.Model.mkAtt F64 (@Body.Model.mkVec F64 (fst (corner a)) (snd (corner a)))
                    (negb (Z.eqb (slip a) 0)) (@Body.Model.vzero F64) (@Body.Model.vzero F64) fzero) (alist b) in
  map (fun p => @Forces.Model.mkWall F64 (fst p) (agsum (snd p)) (fric (snd p)) (hsum (snd p))
                  (acp (snd p)) (afr (snd p)) (anu (snd p)))
    (combine (Body.Model.update_segments bare) (alist b)).
Definition forces_of (b : body) : Forces.Model.fbody F64 :=
  let v (q : vec3) := let '(x, y, o) := q in @Body.Model.mkVec3 F64 (@Body.Model.mkVec F64 x y) o in
  @Forces.Model.mkF F64 (walls_of b) (v (friction b)) (v (friction_prev b)) (nusselt b).

(** * The name of the file, TSpace.cpp:71-72 and utils/vvflow/vvflow.cpp:194,234 *)

(** [snprintf] with one argument of type int, for the formats that occur: text,
    "%%", "%06d", "%d".  Another directive, a directive that ends the text and a
    second argument are undefined. *)
Definition pad (w : nat) (s : string) : string :=
  (string_of_list_ascii (repeat "0"%char (w - String.length s)) ++ s)%string.
Definition int_text (w : nat) (n : Z) : string :=
  if Z.ltb n 0 then ("-" ++ pad (w - 1) (decimal (Z.to_nat (- n))))%string else pad w (decimal (Z.to_nat n)).
Fixpoint print (format : string) (args : list Z) : outcome string :=
  match format with
  | EmptyString => Ok ""
  | String c tl =>
    if Ascii.eqb c "%" then
      match tl, args with
      | String "%" tl', _ => r <- print tl' args; Ok (String "%" r)
      | String "d" tl', n :: args' => r <- print tl' args'; Ok (int_text 0 n ++ r)%string
      | String "0" (String "6" (String "d" tl')), n :: args' => r <- print tl' args'; Ok (int_text 6 n ++ r)%string
      | _, _ => Undefined
      end
    else r <- print tl args; Ok (String c r)
  end.

(** A buffer of [n] bytes with the final NUL. *)
Definition cut (n : nat) (s : string) : string := substring 0 (n - 1) s.

(** The format given to [save]: vvflow.cpp:194 and 234, where the caption goes
    through "%s" twice. *)
Definition save_format (cap : string) : string :=
  (cut 256 (cut 240 ("results_" ++ c_str cap) ++ "/%06d.h5"))%string.

(** [int(time/dt+0.5)] is [file_number] of Time.ModelRun; a value that does not fit
    into an int is undefined. *)
Definition result_name (s : space) : outcome string :=
  match Verif.Time.ModelRun.file_number (time s) (dt s) with
  | None => Undefined
  | Some n => r <- print (save_format (caption s)) [n]; Ok (cut 64 r)
  end.
