(** Model of the command lines: utils/vvflow/optparse.cpp, utils/vvxtract/optparse.cpp
    and utils/vvplot/optparse.cpp up to line 394; the rest is modelled in
    Plot/ModelDims.v. Texts printed by --help and --version and messages are left out. *)

From Coq Require Import List ZArith Bool String Ascii.
From Verif Require Import Base.Num Opt.Getopt.
Import ListNotations.
Local Open Scope string_scope.

(** The end of [opt::parse]. *)
Inductive parsed (A : Type) := Exit (code : Z) | Go (a : A).
Arguments Exit {A}. Arguments Go {A}.

Definition flag_opt (n v : string) (x : Z) : lopt := mkLong n false (Some v) x.
Definition plain_opt (n : string) (x : Z) : lopt := mkLong n false None x.
Definition arg_opt (n : string) (x : Z) : lopt := mkLong n true None x.
Definition code (c : ascii) : Z := Z.of_nat (nat_of_ascii c).

(** ** vvflow/optparse.cpp *)

Record flow := mkFlow { save_profile : Z; show_progress : Z; sensors_file : option string }.
(** The options, opt::input and opt::argv. *)
Record flow_line := mkFlowLine { flow_opts : flow; script : string; passed : list string }.

(** 36-48. *)
Definition flow_long : list lopt :=
  [plain_opt "version" (code "v"); plain_opt "help" (code "h"); arg_opt "sensors" (code "s");
   flag_opt "no-progress" "show_progress" 0; flag_opt "progress" "show_progress" 1;
   flag_opt "no-profile" "save_profile" 0; flag_opt "profile" "save_profile" 1].
(** 53. *)
Definition flow_letters : letters := [("v"%char, false); ("h"%char, false); ("s"%char, true)].

(** The value [c] of a call: the letter, the [val] of the long option, or 0
    with the flag set. *)
Definition flow_case (c : Z) (optarg : option string) (f : flow) : parsed flow :=
  if Z.eqb c (code "v") then Exit 0
  else if Z.eqb c (code "h") then Exit 0
  else if Z.eqb c (code "s") then Go (mkFlow (save_profile f) (show_progress f) optarg)
  else Exit 1.
Definition flow_flag (v : string) (x : Z) (f : flow) : flow :=
  if String.eqb v "show_progress" then mkFlow (save_profile f) x (sensors_file f) else mkFlow x (show_progress f) (sensors_file f).
(** 59-80. *)
Definition flow_event (e : event) (f : flow) : parsed flow :=
  match e with
  | Unknown => Exit 1
  | Short c a => flow_case (code c) a f
  | Long i a =>
      match nth_error flow_long i with
      | None => Exit 1
      | Some o => match flag o with Some v => Go (flow_flag v (val o) f) | None => flow_case (val o) a f end
      end
  end.
Fixpoint each {A} (step : event -> A -> parsed A) (evs : list event) (a : A) : parsed A :=
  match evs with
  | [] => Go a
  | e :: evs => match step e a with Exit n => Exit n | Go a => each step evs a end
  end.
(** vvflow.cpp:126-135. *)
Definition flow_start : flow := mkFlow 0 0 None.
(** 34-94. *)
Definition flow_parse (args : list string) : parsed flow_line :=
  let '(evs, others) := getopt flow_letters flow_long args in
  match each flow_event evs flow_start with
  | Exit n => Exit n
  | Go f => match others with [] => Exit 1 | input :: _ => Go (mkFlowLine f input others) end
  end.
(** vvflow.cpp:146-151: the table [arg] of the script. *)
Definition arg_table (l : flow_line) : list (nat * string) := numbered 0 (passed l).

(** ** vvxtract/optparse.cpp *)

Record xtract := mkXtract { b_info : Z; b_list : Z }.
Record xtract_line := mkXtractLine { xtract_opts : xtract; file : string; datasets : list string }.
(** 33-40. *)
Definition xtract_long : list lopt :=
  [plain_opt "version" (code "v"); plain_opt "help" (code "h"); flag_opt "info" "b_info" 1; flag_opt "list" "b_list" 1].
Definition xtract_letters : letters := [("v"%char, false); ("h"%char, false); ("i"%char, false); ("l"%char, false)].
Definition xtract_case (c : Z) (x : xtract) : parsed xtract :=
  if Z.eqb c (code "v") then Exit 0
  else if Z.eqb c (code "h") then Exit 0
  else if Z.eqb c (code "i") then Go (mkXtract 1 (b_list x))
  else if Z.eqb c (code "l") then Go (mkXtract (b_info x) 1)
  else Exit 1.
Definition xtract_flag (v : string) (n : Z) (x : xtract) : xtract :=
  if String.eqb v "b_info" then mkXtract n (b_list x) else mkXtract (b_info x) n.
Definition xtract_event (e : event) (x : xtract) : parsed xtract :=
  match e with
  | Unknown => Exit 1
  | Short c _ => xtract_case (code c) x
  | Long i _ =>
      match nth_error xtract_long i with
      | None => Exit 1
      | Some o => match flag o with Some v => Go (xtract_flag v (val o) x) | None => xtract_case (val o) x end
      end
  end.
(** 31-88, vvxtract.cpp:59-61, 175-177: the datasets are the arguments behind the
    first, without any --info is implied. *)
Definition xtract_parse (args : list string) : parsed xtract_line :=
  let '(evs, others) := getopt xtract_letters xtract_long args in
  match each xtract_event evs (mkXtract 0 0) with
  | Exit n => Exit n
  | Go x =>
      match others with
      | [] => Exit 1
      | input :: names => Go (mkXtractLine (match names with [] => mkXtract 1 (b_list x) | _ => x end) input names)
      end
  end.

(** ** vvplot/optparse.cpp *)

Section Plot.
Context {K : Num}.
(** NaN; %d and %lf of [sscanf]: the number and the text behind it. *)
Variable d_nan : K.
Variable scan_int : string -> option (Z * string).
Variable scan_num : string -> option (K * string).

Record plot := mkPlot {
  bB : bool; bV : bool; Vsize : Z; bS : bool; Smin : K; Smax : K;
  Sstep : K; bG : bool; Gmax : K; bP : bool; Pmin : K; Pmax : K;
  bU : ascii; Umin : K; Umax : K; ref_xy : ascii; ref_S : ascii; ref_P : ascii;
  width : Z; height : Z; gray : Z; colorbox : Z; timelabel : Z; holder : Z;
  spring : Z; bottom_nodes : Z; near_nodes : Z; find_node : Z; eps_mult : K; xmin : K;
  xmax : K; ymin : K; ymax : K; res_hi : Z; res_lo : Z; load_field : option string;
  ofmt : Z
}.

Definition set_B (v0 : bool) (p : plot) : plot := mkPlot v0 (bV p) (Vsize p) (bS p) (Smin p) (Smax p) (Sstep p) (bG p) (Gmax p) (bP p) (Pmin p) (Pmax p) (bU p) (Umin p) (Umax p) (ref_xy p) (ref_S p) (ref_P p) (width p) (height p) (gray p) (colorbox p) (timelabel p) (holder p) (spring p) (bottom_nodes p) (near_nodes p) (find_node p) (eps_mult p) (xmin p) (xmax p) (ymin p) (ymax p) (res_hi p) (res_lo p) (load_field p) (ofmt p).
Definition set_V (v0 : bool) (p : plot) : plot := mkPlot (bB p) v0 (Vsize p) (bS p) (Smin p) (Smax p) (Sstep p) (bG p) (Gmax p) (bP p) (Pmin p) (Pmax p) (bU p) (Umin p) (Umax p) (ref_xy p) (ref_S p) (ref_P p) (width p) (height p) (gray p) (colorbox p) (timelabel p) (holder p) (spring p) (bottom_nodes p) (near_nodes p) (find_node p) (eps_mult p) (xmin p) (xmax p) (ymin p) (ymax p) (res_hi p) (res_lo p) (load_field p) (ofmt p).
Definition set_Vsize (v0 : Z) (p : plot) : plot := mkPlot (bB p) (bV p) v0 (bS p) (Smin p) (Smax p) (Sstep p) (bG p) (Gmax p) (bP p) (Pmin p) (Pmax p) (bU p) (Umin p) (Umax p) (ref_xy p) (ref_S p) (ref_P p) (width p) (height p) (gray p) (colorbox p) (timelabel p) (holder p) (spring p) (bottom_nodes p) (near_nodes p) (find_node p) (eps_mult p) (xmin p) (xmax p) (ymin p) (ymax p) (res_hi p) (res_lo p) (load_field p) (ofmt p).
Definition set_S (v0 : bool) (p : plot) : plot := mkPlot (bB p) (bV p) (Vsize p) v0 (Smin p) (Smax p) (Sstep p) (bG p) (Gmax p) (bP p) (Pmin p) (Pmax p) (bU p) (Umin p) (Umax p) (ref_xy p) (ref_S p) (ref_P p) (width p) (height p) (gray p) (colorbox p) (timelabel p) (holder p) (spring p) (bottom_nodes p) (near_nodes p) (find_node p) (eps_mult p) (xmin p) (xmax p) (ymin p) (ymax p) (res_hi p) (res_lo p) (load_field p) (ofmt p).
Definition set_Srange (v0 : K) (v1 : K) (v2 : K) (p : plot) : plot := mkPlot (bB p) (bV p) (Vsize p) (bS p) v0 v1 v2 (bG p) (Gmax p) (bP p) (Pmin p) (Pmax p) (bU p) (Umin p) (Umax p) (ref_xy p) (ref_S p) (ref_P p) (width p) (height p) (gray p) (colorbox p) (timelabel p) (holder p) (spring p) (bottom_nodes p) (near_nodes p) (find_node p) (eps_mult p) (xmin p) (xmax p) (ymin p) (ymax p) (res_hi p) (res_lo p) (load_field p) (ofmt p).
Definition set_field (v0 : bool) (v1 : bool) (v2 : ascii) (p : plot) : plot := mkPlot (bB p) (bV p) (Vsize p) (bS p) (Smin p) (Smax p) (Sstep p) v0 (Gmax p) v1 (Pmin p) (Pmax p) v2 (Umin p) (Umax p) (ref_xy p) (ref_S p) (ref_P p) (width p) (height p) (gray p) (colorbox p) (timelabel p) (holder p) (spring p) (bottom_nodes p) (near_nodes p) (find_node p) (eps_mult p) (xmin p) (xmax p) (ymin p) (ymax p) (res_hi p) (res_lo p) (load_field p) (ofmt p).
Definition set_Gmax (v0 : K) (p : plot) : plot := mkPlot (bB p) (bV p) (Vsize p) (bS p) (Smin p) (Smax p) (Sstep p) (bG p) v0 (bP p) (Pmin p) (Pmax p) (bU p) (Umin p) (Umax p) (ref_xy p) (ref_S p) (ref_P p) (width p) (height p) (gray p) (colorbox p) (timelabel p) (holder p) (spring p) (bottom_nodes p) (near_nodes p) (find_node p) (eps_mult p) (xmin p) (xmax p) (ymin p) (ymax p) (res_hi p) (res_lo p) (load_field p) (ofmt p).
Definition set_Prange (v0 : K) (v1 : K) (p : plot) : plot := mkPlot (bB p) (bV p) (Vsize p) (bS p) (Smin p) (Smax p) (Sstep p) (bG p) (Gmax p) (bP p) v0 v1 (bU p) (Umin p) (Umax p) (ref_xy p) (ref_S p) (ref_P p) (width p) (height p) (gray p) (colorbox p) (timelabel p) (holder p) (spring p) (bottom_nodes p) (near_nodes p) (find_node p) (eps_mult p) (xmin p) (xmax p) (ymin p) (ymax p) (res_hi p) (res_lo p) (load_field p) (ofmt p).
Definition set_Urange (v0 : K) (v1 : K) (p : plot) : plot := mkPlot (bB p) (bV p) (Vsize p) (bS p) (Smin p) (Smax p) (Sstep p) (bG p) (Gmax p) (bP p) (Pmin p) (Pmax p) (bU p) v0 v1 (ref_xy p) (ref_S p) (ref_P p) (width p) (height p) (gray p) (colorbox p) (timelabel p) (holder p) (spring p) (bottom_nodes p) (near_nodes p) (find_node p) (eps_mult p) (xmin p) (xmax p) (ymin p) (ymax p) (res_hi p) (res_lo p) (load_field p) (ofmt p).
Definition set_ref_xy (v0 : ascii) (p : plot) : plot := mkPlot (bB p) (bV p) (Vsize p) (bS p) (Smin p) (Smax p) (Sstep p) (bG p) (Gmax p) (bP p) (Pmin p) (Pmax p) (bU p) (Umin p) (Umax p) v0 (ref_S p) (ref_P p) (width p) (height p) (gray p) (colorbox p) (timelabel p) (holder p) (spring p) (bottom_nodes p) (near_nodes p) (find_node p) (eps_mult p) (xmin p) (xmax p) (ymin p) (ymax p) (res_hi p) (res_lo p) (load_field p) (ofmt p).
Definition set_ref_S (v0 : ascii) (p : plot) : plot := mkPlot (bB p) (bV p) (Vsize p) (bS p) (Smin p) (Smax p) (Sstep p) (bG p) (Gmax p) (bP p) (Pmin p) (Pmax p) (bU p) (Umin p) (Umax p) (ref_xy p) v0 (ref_P p) (width p) (height p) (gray p) (colorbox p) (timelabel p) (holder p) (spring p) (bottom_nodes p) (near_nodes p) (find_node p) (eps_mult p) (xmin p) (xmax p) (ymin p) (ymax p) (res_hi p) (res_lo p) (load_field p) (ofmt p).
Definition set_ref_P (v0 : ascii) (p : plot) : plot := mkPlot (bB p) (bV p) (Vsize p) (bS p) (Smin p) (Smax p) (Sstep p) (bG p) (Gmax p) (bP p) (Pmin p) (Pmax p) (bU p) (Umin p) (Umax p) (ref_xy p) (ref_S p) v0 (width p) (height p) (gray p) (colorbox p) (timelabel p) (holder p) (spring p) (bottom_nodes p) (near_nodes p) (find_node p) (eps_mult p) (xmin p) (xmax p) (ymin p) (ymax p) (res_hi p) (res_lo p) (load_field p) (ofmt p).
Definition set_size (v0 : Z) (v1 : Z) (p : plot) : plot := mkPlot (bB p) (bV p) (Vsize p) (bS p) (Smin p) (Smax p) (Sstep p) (bG p) (Gmax p) (bP p) (Pmin p) (Pmax p) (bU p) (Umin p) (Umax p) (ref_xy p) (ref_S p) (ref_P p) v0 v1 (gray p) (colorbox p) (timelabel p) (holder p) (spring p) (bottom_nodes p) (near_nodes p) (find_node p) (eps_mult p) (xmin p) (xmax p) (ymin p) (ymax p) (res_hi p) (res_lo p) (load_field p) (ofmt p).
Definition set_gray (v0 : Z) (p : plot) : plot := mkPlot (bB p) (bV p) (Vsize p) (bS p) (Smin p) (Smax p) (Sstep p) (bG p) (Gmax p) (bP p) (Pmin p) (Pmax p) (bU p) (Umin p) (Umax p) (ref_xy p) (ref_S p) (ref_P p) (width p) (height p) v0 (colorbox p) (timelabel p) (holder p) (spring p) (bottom_nodes p) (near_nodes p) (find_node p) (eps_mult p) (xmin p) (xmax p) (ymin p) (ymax p) (res_hi p) (res_lo p) (load_field p) (ofmt p).
Definition set_colorbox (v0 : Z) (p : plot) : plot := mkPlot (bB p) (bV p) (Vsize p) (bS p) (Smin p) (Smax p) (Sstep p) (bG p) (Gmax p) (bP p) (Pmin p) (Pmax p) (bU p) (Umin p) (Umax p) (ref_xy p) (ref_S p) (ref_P p) (width p) (height p) (gray p) v0 (timelabel p) (holder p) (spring p) (bottom_nodes p) (near_nodes p) (find_node p) (eps_mult p) (xmin p) (xmax p) (ymin p) (ymax p) (res_hi p) (res_lo p) (load_field p) (ofmt p).
Definition set_timelabel (v0 : Z) (p : plot) : plot := mkPlot (bB p) (bV p) (Vsize p) (bS p) (Smin p) (Smax p) (Sstep p) (bG p) (Gmax p) (bP p) (Pmin p) (Pmax p) (bU p) (Umin p) (Umax p) (ref_xy p) (ref_S p) (ref_P p) (width p) (height p) (gray p) (colorbox p) v0 (holder p) (spring p) (bottom_nodes p) (near_nodes p) (find_node p) (eps_mult p) (xmin p) (xmax p) (ymin p) (ymax p) (res_hi p) (res_lo p) (load_field p) (ofmt p).
Definition set_holder (v0 : Z) (p : plot) : plot := mkPlot (bB p) (bV p) (Vsize p) (bS p) (Smin p) (Smax p) (Sstep p) (bG p) (Gmax p) (bP p) (Pmin p) (Pmax p) (bU p) (Umin p) (Umax p) (ref_xy p) (ref_S p) (ref_P p) (width p) (height p) (gray p) (colorbox p) (timelabel p) v0 (spring p) (bottom_nodes p) (near_nodes p) (find_node p) (eps_mult p) (xmin p) (xmax p) (ymin p) (ymax p) (res_hi p) (res_lo p) (load_field p) (ofmt p).
Definition set_spring (v0 : Z) (p : plot) : plot := mkPlot (bB p) (bV p) (Vsize p) (bS p) (Smin p) (Smax p) (Sstep p) (bG p) (Gmax p) (bP p) (Pmin p) (Pmax p) (bU p) (Umin p) (Umax p) (ref_xy p) (ref_S p) (ref_P p) (width p) (height p) (gray p) (colorbox p) (timelabel p) (holder p) v0 (bottom_nodes p) (near_nodes p) (find_node p) (eps_mult p) (xmin p) (xmax p) (ymin p) (ymax p) (res_hi p) (res_lo p) (load_field p) (ofmt p).
Definition set_bottom (v0 : Z) (p : plot) : plot := mkPlot (bB p) (bV p) (Vsize p) (bS p) (Smin p) (Smax p) (Sstep p) (bG p) (Gmax p) (bP p) (Pmin p) (Pmax p) (bU p) (Umin p) (Umax p) (ref_xy p) (ref_S p) (ref_P p) (width p) (height p) (gray p) (colorbox p) (timelabel p) (holder p) (spring p) v0 (near_nodes p) (find_node p) (eps_mult p) (xmin p) (xmax p) (ymin p) (ymax p) (res_hi p) (res_lo p) (load_field p) (ofmt p).
Definition set_near (v0 : Z) (p : plot) : plot := mkPlot (bB p) (bV p) (Vsize p) (bS p) (Smin p) (Smax p) (Sstep p) (bG p) (Gmax p) (bP p) (Pmin p) (Pmax p) (bU p) (Umin p) (Umax p) (ref_xy p) (ref_S p) (ref_P p) (width p) (height p) (gray p) (colorbox p) (timelabel p) (holder p) (spring p) (bottom_nodes p) v0 (find_node p) (eps_mult p) (xmin p) (xmax p) (ymin p) (ymax p) (res_hi p) (res_lo p) (load_field p) (ofmt p).
Definition set_find (v0 : Z) (p : plot) : plot := mkPlot (bB p) (bV p) (Vsize p) (bS p) (Smin p) (Smax p) (Sstep p) (bG p) (Gmax p) (bP p) (Pmin p) (Pmax p) (bU p) (Umin p) (Umax p) (ref_xy p) (ref_S p) (ref_P p) (width p) (height p) (gray p) (colorbox p) (timelabel p) (holder p) (spring p) (bottom_nodes p) (near_nodes p) v0 (eps_mult p) (xmin p) (xmax p) (ymin p) (ymax p) (res_hi p) (res_lo p) (load_field p) (ofmt p).
Definition set_eps (v0 : K) (p : plot) : plot := mkPlot (bB p) (bV p) (Vsize p) (bS p) (Smin p) (Smax p) (Sstep p) (bG p) (Gmax p) (bP p) (Pmin p) (Pmax p) (bU p) (Umin p) (Umax p) (ref_xy p) (ref_S p) (ref_P p) (width p) (height p) (gray p) (colorbox p) (timelabel p) (holder p) (spring p) (bottom_nodes p) (near_nodes p) (find_node p) v0 (xmin p) (xmax p) (ymin p) (ymax p) (res_hi p) (res_lo p) (load_field p) (ofmt p).
Definition set_x (v0 : K) (v1 : K) (p : plot) : plot := mkPlot (bB p) (bV p) (Vsize p) (bS p) (Smin p) (Smax p) (Sstep p) (bG p) (Gmax p) (bP p) (Pmin p) (Pmax p) (bU p) (Umin p) (Umax p) (ref_xy p) (ref_S p) (ref_P p) (width p) (height p) (gray p) (colorbox p) (timelabel p) (holder p) (spring p) (bottom_nodes p) (near_nodes p) (find_node p) (eps_mult p) v0 v1 (ymin p) (ymax p) (res_hi p) (res_lo p) (load_field p) (ofmt p).
Definition set_y (v0 : K) (v1 : K) (p : plot) : plot := mkPlot (bB p) (bV p) (Vsize p) (bS p) (Smin p) (Smax p) (Sstep p) (bG p) (Gmax p) (bP p) (Pmin p) (Pmax p) (bU p) (Umin p) (Umax p) (ref_xy p) (ref_S p) (ref_P p) (width p) (height p) (gray p) (colorbox p) (timelabel p) (holder p) (spring p) (bottom_nodes p) (near_nodes p) (find_node p) (eps_mult p) (xmin p) (xmax p) v0 v1 (res_hi p) (res_lo p) (load_field p) (ofmt p).
Definition set_hi (v0 : Z) (p : plot) : plot := mkPlot (bB p) (bV p) (Vsize p) (bS p) (Smin p) (Smax p) (Sstep p) (bG p) (Gmax p) (bP p) (Pmin p) (Pmax p) (bU p) (Umin p) (Umax p) (ref_xy p) (ref_S p) (ref_P p) (width p) (height p) (gray p) (colorbox p) (timelabel p) (holder p) (spring p) (bottom_nodes p) (near_nodes p) (find_node p) (eps_mult p) (xmin p) (xmax p) (ymin p) (ymax p) v0 (res_lo p) (load_field p) (ofmt p).
Definition set_lo (v0 : Z) (p : plot) : plot := mkPlot (bB p) (bV p) (Vsize p) (bS p) (Smin p) (Smax p) (Sstep p) (bG p) (Gmax p) (bP p) (Pmin p) (Pmax p) (bU p) (Umin p) (Umax p) (ref_xy p) (ref_S p) (ref_P p) (width p) (height p) (gray p) (colorbox p) (timelabel p) (holder p) (spring p) (bottom_nodes p) (near_nodes p) (find_node p) (eps_mult p) (xmin p) (xmax p) (ymin p) (ymax p) (res_hi p) v0 (load_field p) (ofmt p).
Definition set_load (v0 : option string) (p : plot) : plot := mkPlot (bB p) (bV p) (Vsize p) (bS p) (Smin p) (Smax p) (Sstep p) (bG p) (Gmax p) (bP p) (Pmin p) (Pmax p) (bU p) (Umin p) (Umax p) (ref_xy p) (ref_S p) (ref_P p) (width p) (height p) (gray p) (colorbox p) (timelabel p) (holder p) (spring p) (bottom_nodes p) (near_nodes p) (find_node p) (eps_mult p) (xmin p) (xmax p) (ymin p) (ymax p) (res_hi p) (res_lo p) v0 (ofmt p).
Definition set_ofmt (v0 : Z) (p : plot) : plot := mkPlot (bB p) (bV p) (Vsize p) (bS p) (Smin p) (Smax p) (Sstep p) (bG p) (Gmax p) (bP p) (Pmin p) (Pmax p) (bU p) (Umin p) (Umax p) (ref_xy p) (ref_S p) (ref_P p) (width p) (height p) (gray p) (colorbox p) (timelabel p) (holder p) (spring p) (bottom_nodes p) (near_nodes p) (find_node p) (eps_mult p) (xmin p) (xmax p) (ymin p) (ymax p) (res_hi p) (res_lo p) (load_field p) v0.

(** vvplot.cpp:37-84. *)
Definition plot_start : plot :=
  mkPlot false false 4 false d_nan d_nan d_nan false (nofZ 0) false (nofZ (-3) / nofZ 2)%num (nofZ 1) zero d_nan d_nan
    "o" "o" "s" 1280 720 0 0 1 0 0 0 0 0 (nofZ 2) (nofZ 0) (nofZ 0) (nofZ 0) (nofZ 0) 640 256 None 1.

(** 123-165. *)
Definition plot_long : list lopt :=
  [plain_opt "version" (code "v"); plain_opt "help" (code "h"); flag_opt "png" "ofmt" 1; flag_opt "tar" "ofmt" 2;
   flag_opt "no-gray" "gray" 0; flag_opt "gray" "gray" 1; flag_opt "no-colorbox" "colorbox" 0; flag_opt "colorbox" "colorbox" 1;
   flag_opt "no-timelabel" "timelabel" 0; flag_opt "timelabel" "timelabel" 1; flag_opt "no-holder" "holder" 0; flag_opt "holder" "holder" 1;
   flag_opt "no-spring" "spring" 0; flag_opt "spring" "spring" 1;
   flag_opt "ttree-bottom-nodes" "bottom_nodes" 1; flag_opt "ttree-near-nodes" "near_nodes" 1; flag_opt "ttree-find-node" "find_node" 1;
   arg_opt "size" (code "s"); arg_opt "res-hi" 0xff00; arg_opt "res-lo" 0xff01; arg_opt "eps" 0xff02; arg_opt "load-field" 0xff10;
   arg_opt "ref-xy" 0xfe10; arg_opt "ref-S" 0xfe11; arg_opt "ref-P" 0xfe12;
   plain_opt "B" (code "B"); arg_opt "V" (code "V"); arg_opt "S" (code "S"); arg_opt "G" (code "G"); arg_opt "P" (code "P");
   arg_opt "Ux" (code "U"); arg_opt "Uy" (code "U")].
(** 170. *)
Definition plot_letters : letters :=
  [("n"%char, false); ("v"%char, false); ("h"%char, false); ("B"%char, false); ("V"%char, false); ("S"%char, false); ("G"%char, false); ("P"%char, false);
   ("U"%char, true); ("x"%char, true); ("y"%char, true); ("s"%char, true)].

(** White space in a format skips any white space. *)
Definition blank (c : ascii) : bool := let n := nat_of_ascii c in Nat.eqb n 32 || (Nat.leb 9 n && Nat.leb n 13).
Fixpoint skip (s : string) : string :=
  match s with String c r => if blank c then skip r else s | "" => "" end.
(** [optarg[optn] == 0] behind the final " %n". *)
Definition at_end (s : string) : bool := String.eqb (skip s) "".
Definition comma (s : string) : option string := match skip s with String "," r => Some (skip r) | _ => None end.
(** "%d %n", "%lf %n", "%lf , %lf %n", "%lf , %lf , %lf %n", "%dx%d %n", "%c %n". *)
Definition one_int (t : string) : option Z := match scan_int t with Some (n, r) => if at_end r then Some n else None | None => None end.
Definition one_num (t : string) : option K := match scan_num t with Some (x, r) => if at_end r then Some x else None | None => None end.
Definition num_comma (t : string) : option (K * string) :=
  match scan_num t with
  | Some (x, r) => match comma r with Some r => Some (x, r) | None => None end
  | None => None
  end.
Definition two_nums (t : string) : option (K * K) :=
  match num_comma t with
  | Some (x, r) => match one_num r with Some y => Some (x, y) | None => None end
  | None => None
  end.
Definition three_nums (t : string) : option (K * K * K) :=
  match num_comma t with
  | Some (x, r) => match two_nums r with Some (y, z) => Some (x, y, z) | None => None end
  | None => None
  end.
Definition dims (t : string) : option (Z * Z) :=
  match scan_int t with
  | Some (w, String "x" r) => match one_int r with Some h => Some (w, h) | None => None end
  | _ => None
  end.
Definition one_char (t : string) : option ascii := match t with String c r => if at_end r then Some c else None | "" => None end.

Definition isinf (x : K) : bool := negb (nfinite x) && negb (nnan x).
Definition check (ok : bool) (p : plot) : parsed plot := if ok then Go p else Exit 1.
(** 263-327: the options with an argument only. *)
Definition plot_value (c : Z) (t : string) (p : plot) : parsed plot :=
  if Z.eqb c (code "x") then match two_nums t with Some (a, b) => check (negb (isinf a) && negb (isinf b)) (set_x a b p) | None => Exit 1 end
  else if Z.eqb c (code "y") then match two_nums t with Some (a, b) => check (negb (isinf a) && negb (isinf b)) (set_y a b p) | None => Exit 1 end
  else if Z.eqb c (code "s") then match dims t with Some (w, h) => check (Z.leb 0 w && Z.leb 0 h) (set_size w h p) | None => Exit 1 end
  else if Z.eqb c 0xff00 then match one_int t with Some n => check (Z.ltb 0 n) (set_hi n p) | None => Exit 1 end
  else if Z.eqb c 0xff01 then match one_int t with Some n => check (Z.ltb 0 n) (set_lo n p) | None => Exit 1 end
  else if Z.eqb c 0xff02 then match one_num t with Some e => check (nltb (nofZ 0) e) (set_eps e p) | None => Exit 1 end
  else if Z.eqb c 0xfe10 then
    if String.eqb t "o" then Go (set_ref_xy "o" p) else if String.eqb t "f" then Go (set_ref_xy "f" p)
    else if String.eqb t "b" then Go (set_ref_xy "b" p) else if String.eqb t "bxy" then Go (set_ref_xy "b" p)
    else if String.eqb t "bx" then Go (set_ref_xy "x" p) else if String.eqb t "by" then Go (set_ref_xy "y" p) else Exit 1
  else if Z.eqb c 0xfe11 then
    match one_char t with Some r => check (Ascii.eqb r "o" || Ascii.eqb r "b" || Ascii.eqb r "f") (set_ref_S r p) | None => Exit 1 end
  else if Z.eqb c 0xfe12 then
    match one_char t with Some r => check (Ascii.eqb r "o" || Ascii.eqb r "b" || Ascii.eqb r "f" || Ascii.eqb r "s") (set_ref_P r p) | None => Exit 1 end
  else if Z.eqb c 0xff10 then Go (set_load (Some t) p)
  else Exit 1.
(** 179-262; [axis]: the second letter of the name of a long option. *)
Definition plot_case (c : Z) (axis : option ascii) (optarg : option string) (p : plot) : parsed plot :=
  if Z.eqb c (code "v") then Exit 0
  else if Z.eqb c (code "h") then Exit 0
  else if Z.eqb c (code "B") then Go (set_B true p)
  else if Z.eqb c (code "V") then
    let p := set_V true p in
    match optarg with
    | None => Go p
    | Some t => match one_int t with Some n => check (Z.leb 0 n) (set_Vsize n p) | None => Exit 1 end
    end
  else if Z.eqb c (code "S") then
    let p := set_S true p in
    match optarg with
    | None => Go p
    | Some t =>
        match three_nums t with
        | Some (a, b, d) => check (nfinite a && nfinite b && nleb a b && nfinite d && nltb (nofZ 0) d) (set_Srange a b d p)
        | None => Exit 1
        end
    end
  else if Z.eqb c (code "G") then
    let p := set_colorbox 1 (set_field true false zero p) in
    match optarg with
    | None => Go p
    | Some t => match one_num t with Some g => check (nfinite g && nleb (nofZ 0) g) (set_Gmax g p) | None => Exit 1 end
    end
  else if Z.eqb c (code "P") then
    let p := set_colorbox 1 (set_field false true zero p) in
    match optarg with
    | None => Go p
    | Some t => match two_nums t with Some (a, b) => check (nfinite a && nfinite b && nleb a b) (set_Prange a b p) | None => Exit 1 end
    end
  else if Z.eqb c (code "U") then
    match optarg with
    | None => Exit 1
    | Some t =>
        match axis with
        | None => match one_char t with
                  | Some u => check (Ascii.eqb u "x" || Ascii.eqb u "y") (set_colorbox 1 (set_field false false u p))
                  | None => Exit 1
                  end
        | Some u => match two_nums t with
                    | Some (a, b) => check (nfinite a && nfinite b && nleb a b) (set_Urange a b (set_colorbox 1 (set_field false false u p)))
                    | None => Exit 1
                    end
        end
    end
  else match optarg with Some t => plot_value c t p | None => Exit 1 end.
Definition plot_flag (v : string) (x : Z) (p : plot) : plot :=
  if String.eqb v "ofmt" then set_ofmt x p else if String.eqb v "gray" then set_gray x p else if String.eqb v "colorbox" then set_colorbox x p
  else if String.eqb v "timelabel" then set_timelabel x p else if String.eqb v "holder" then set_holder x p else if String.eqb v "spring" then set_spring x p
  else if String.eqb v "bottom_nodes" then set_bottom x p else if String.eqb v "near_nodes" then set_near x p else set_find x p.
Definition plot_event (e : event) (p : plot) : parsed plot :=
  match e with
  | Unknown => Exit 1
  | Short c a => plot_case (code c) None a p
  | Long i a =>
      match nth_error plot_long i with
      | None => Exit 1
      | Some o => match flag o with Some v => Go (plot_flag v (val o) p) | None => plot_case (val o) (String.get 1 (lname o)) a p end
      end
  end.

(** [basename] of the GNU C library: the text behind the last slash. *)
Fixpoint basename (s : string) : string :=
  match s with
  | "" => ""
  | String c r => let b := basename r in
                  if Ascii.eqb c "/" then b else if String.eqb b r then String c r else b
  end.
(** 382-385: without the last dot and what follows. *)
Fixpoint has_dot (s : string) : bool := match s with "" => false | String c r => Ascii.eqb c "." || has_dot r end.
Fixpoint stem (s : string) : string :=
  match s with
  | "" => ""
  | String c r => if has_dot r then String c (stem r) else if Ascii.eqb c "." then "" else String c (stem r)
  end.
Fixpoint last_char (s : string) : option ascii := match s with "" => None | String c "" => Some c | String _ r => last_char r end.
(** 370-393. *)
Definition target_name (is_dir : string -> bool) (ofmt : Z) (input target : string) : string :=
  if is_dir target then
    target ++ (match last_char target with Some "/"%char => "" | _ => "/" end) ++ stem (basename input) ++ (if Z.eqb ofmt 1 then ".png" else ".tar")
  else target.

Record plot_line := mkPlotLine { plot_opts : plot; plot_input : string; plot_target : string; as_hdf : bool }.
(** 121-394. *)
Definition plot_parse (is_dir is_hdf : string -> bool) (args : list string) : parsed plot_line :=
  let '(evs, others) := getopt plot_letters plot_long args in
  match each plot_event evs plot_start with
  | Exit n => Exit n
  | Go p =>
      match others with
      | [input; target] => Go (mkPlotLine p input (target_name is_dir (ofmt p) input target) (negb (Z.eqb (ofmt p) 1) || is_hdf input))
      | _ => Exit 1
      end
  end.
End Plot.
