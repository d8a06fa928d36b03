(** What is said by a command line, and how it may be written. *)

From Coq Require Import List ZArith Bool String Ascii Reals.
From Flocq Require Import IEEE754.BinarySingleNaN.
From Verif Require Import Base.Num Opt.Getopt Opt.Model.
Import ListNotations.
Local Open Scope string_scope.

(** An argument that is not an option. *)
Definition plain (s : string) : Prop := s = "-" \/ forall t, s <> String "-" t.

(** ** vvflow *)

Inductive wish := Progress (on : bool) | Profile (on : bool) | Sensors (f : string).
(** utils/vvflow/vvflow.1.md and the text of --help. *)
Inductive written : wish -> list string -> Prop :=
| w_progress : written (Progress true) ["--progress"]
| w_no_progress : written (Progress false) ["--no-progress"]
| w_profile : written (Profile true) ["--profile"]
| w_no_profile : written (Profile false) ["--no-profile"]
| w_sensors f : written (Sensors f) ["--sensors"; f]
| w_sensors_eq f : written (Sensors f) ["--sensors=" ++ f]
| w_sensors_s f : written (Sensors f) ["-s"; f]
| w_sensors_joined f : f <> "" -> written (Sensors f) ["-s" ++ f].

Inductive item := Other (s : string) | Wish (w : wish).
Inductive says : list item -> list string -> Prop :=
| says_nil : says [] []
| says_other s items args : plain s -> says items args -> says (Other s :: items) (s :: args)
| says_wish w text items args : written w text -> says items args -> says (Wish w :: items) (text ++ args).

Definition others (items : list item) : list string := flat_map (fun i => match i with Other s => [s] | Wish _ => [] end) items.
(** What was said last counts. *)
Definition last_said {A} (f : item -> option A) (items : list item) (default : A) : A :=
  match flat_map (fun i => match f i with Some a => [a] | None => [] end) (rev items) with a :: _ => a | [] => default end.
Definition num (b : bool) : Z := if b then 1%Z else 0%Z.
Definition obeys (items : list item) (f : flow) : Prop :=
  save_profile f = last_said (fun i => match i with Wish (Profile b) => Some (num b) | _ => None end) items 0%Z /\
  show_progress f = last_said (fun i => match i with Wish (Progress b) => Some (num b) | _ => None end) items 0%Z /\
  sensors_file f = last_said (fun i => match i with Wish (Sensors s) => Some (Some s) | _ => None end) items None.

(** ** vvplot *)

Definition finite_range (a b : f64) : Prop := is_finite a = true /\ is_finite b = true /\ (B2R a <= B2R b)%R.
Definition positive (x : f64) : Prop := x = f64_inf \/ is_finite x = true /\ (0 < B2R x)%R.
Record valid (p : @plot F64) : Prop := mkValid {
  ok_V : (0 <= Vsize p)%Z;
  ok_S : Smin p = f64_nan /\ Smax p = f64_nan /\ Sstep p = f64_nan \/
         finite_range (Smin p) (Smax p) /\ is_finite (Sstep p : f64) = true /\ (0 < B2R (Sstep p : f64))%R;
  ok_G : is_finite (Gmax p : f64) = true /\ (0 <= B2R (Gmax p : f64))%R;
  ok_P : finite_range (Pmin p) (Pmax p);
  ok_U : Umin p = f64_nan /\ Umax p = f64_nan \/ finite_range (Umin p) (Umax p);
  ok_ref_xy : In (ref_xy p) ["o"; "f"; "b"; "x"; "y"]%char;
  ok_ref_S : In (ref_S p) ["o"; "b"; "f"]%char;
  ok_ref_P : In (ref_P p) ["o"; "b"; "f"; "s"]%char;
  ok_size : (0 <= width p /\ 0 <= height p)%Z;
  ok_res : (0 < res_hi p /\ 0 < res_lo p)%Z;
  ok_eps : positive (eps_mult p);
  ok_rect : forall x : f64, In x [xmin p; xmax p; ymin p; ymax p] -> is_finite x = true \/ x = f64_nan;
  ok_field : (bG p, bP p, bU p) = (false, false, zero) \/ (bG p, bP p, bU p) = (true, false, zero) \/ (bG p, bP p, bU p) = (false, true, zero) \/
             (bG p, bP p, bU p) = (false, false, "x"%char) \/ (bG p, bP p, bU p) = (false, false, "y"%char);
  ok_format : ofmt p = 1%Z \/ ofmt p = 2%Z
}.

(** What an option of vvplot is about. The fields -G, -P, -U and the colour
    scale are one thing. *)
Definition letter_topic (c : ascii) : string :=
  if existsb (Ascii.eqb c) ["G"; "P"; "U"]%char then "field" else if Ascii.eqb c "s" then "size" else String c "".
Definition name_topic (n : string) : string :=
  if existsb (String.eqb n) ["G"; "P"; "Ux"; "Uy"; "colorbox"; "no-colorbox"] then "field"
  else if existsb (String.eqb n) ["png"; "tar"] then "format"
  else if existsb (String.eqb n) ["gray"; "no-gray"] then "gray"
  else if existsb (String.eqb n) ["timelabel"; "no-timelabel"] then "timelabel"
  else if existsb (String.eqb n) ["holder"; "no-holder"] then "holder"
  else if existsb (String.eqb n) ["spring"; "no-spring"] then "spring"
  else n.
Definition topic (e : event) : string :=
  match e with
  | Short c _ => letter_topic c
  | Long i _ => match nth_error plot_long i with Some o => name_topic (lname o) | None => "" end
  | Unknown => ""
  end.

(** None of the characters of the text is [c]. *)
Definition free (c : ascii) (s : string) : Prop := forall n, String.get n s <> Some c.
(** [base] with an extension, in some directory or in none. *)
Definition names (input base ext : string) : Prop :=
  free "/" base /\ free "/" ext /\ free "." ext /\ (input = base ++ "." ++ ext \/ exists dir, input = dir ++ "/" ++ base ++ "." ++ ext).
