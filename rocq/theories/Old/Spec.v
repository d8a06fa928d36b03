(** What is said about the files: how a file of the old format is laid out and
    what it says, without reading. *)

From Coq Require Import ZArith Bool List Arith Ascii String.
From Verif Require Import Old.Model.
Import ListNotations.
Local Open Scope Z_scope.

(** The bytes [b] are in the file at [pos]. *)
Definition at_pos (file : bytes) (pos : nat) (b : bytes) : Prop := exists before after, file = before ++ b ++ after /\ List.length before = pos.

(** Numbers of [n] bytes, least significant first. *)
Fixpoint put_number (n : nat) (x : Z) : bytes := match n with O => [] | S n => x mod 256 :: put_number n (x / 256) end.
Definition put_text (s : bytes) : bytes := put_number 4 (Z.of_nat (List.length s)) ++ s.

(** A segment as it is written: its corner, strength, condition, heat condition,
    heat constant, shed strength. *)
Record segment := mkSegment { s_corner : bytes; s_g : bytes; s_bc : ascii; s_hc : ascii; s_heat : bytes; s_gsum : bytes }.
Inductive kind := Vortexes | Heat | StrkSrc | Streak.
Inductive chapter :=
| Header (h : head) (unused : bytes)
| Objects (k : kind) (l : list bytes)
| BData (b : body)
| Body (l : list segment).

Definition put_header (h : head) : bytes :=
  chars "v: 1.3  " ++ (caption h ++ repeat 0 (64 - List.length (caption h))) ++
  time h ++ dt h ++ dt_save h ++ dt_streak h ++ dt_profile h ++ re h ++ pr h ++ inf_marker h ++
  put_text (inf_vx h) ++ put_text (inf_vy h) ++ inf_g h ++ gravity h ++ finish h.
Definition put_segment (s : segment) : bytes :=
  s_corner s ++ s_g s ++ put_number 8 (char (s_bc s)) ++ put_number 8 (char (s_hc s)) ++ s_heat s ++ s_gsum s.
Definition put_body (b : body) : bytes :=
  holder b ++ dpos b ++ put_text (speed_x b) ++ put_text (speed_y b) ++ put_text (speed_o b) ++
  speed_slae b ++ speed_slae_prev b ++ kspring b ++ density b ++ force_hydro b ++ fdt_dead b ++ friction_prev b.
Definition put_chapter (c : chapter) : bytes :=
  match c with
  | Header h unused => put_header h ++ unused
  | Objects _ l => put_number 8 (Z.of_nat (List.length l)) ++ List.concat l
  | BData b => put_body b
  | Body l => put_number 8 (Z.of_nat (List.length l)) ++ List.concat (map put_segment l)
  end.
Definition title (c : chapter) : bytes :=
  chars match c with
        | Header _ _ => "Header  " | BData _ => "BData   " | Body _ => "Body    "
        | Objects Vortexes _ => "Vortexes" | Objects Heat _ => "Heat    "
        | Objects StrkSrc _ => "StrkSrc " | Objects Streak _ => "Streak  "
        end.

(** The table at the start of the file: 64 places and titles. *)
Definition laid_out (file : bytes) (cs : list (option chapter)) : Prop :=
  List.length cs = 64%nat /\
  forall i c, nth_error cs i = Some c ->
    match c with
    | None => at_pos file (16 * i) (put_number 8 0)
    | Some c => exists off, 0 < off < 2 ^ 63 /\ at_pos file (16 * i) (put_number 8 off ++ title c) /\
                            at_pos file (Z.to_nat off) (put_chapter c)
    end.

(** The sizes are those of the format and the texts are accepted. *)
Definition of_size (n : nat) (b : bytes) : Prop := List.length b = n.
Definition good_text (stack : Z) (accepts : bytes -> bool) (s : bytes) : Prop :=
  ~ In 0 s /\ Z.of_nat (List.length s) <= stack /\ Z.of_nat (List.length s) < 2 ^ 31 /\ accepts s = true.
Definition sized_head (h : head) : Prop :=
  Forall (of_size 8) [time h; dt h; dt_save h; dt_streak h; dt_profile h; re h; pr h; inf_g h; finish h] /\
  Forall (of_size 16) [inf_marker h; gravity h].
Definition good_head stack accepts (h : head) : Prop :=
  sized_head h /\ ~ In 0 (caption h) /\ (List.length (caption h) < 64)%nat /\ Forall (good_text stack accepts) [inf_vx h; inf_vy h].
Definition sized_body (b : body) : Prop :=
  Forall (of_size 24) [holder b; dpos b; speed_slae b; speed_slae_prev b; kspring b; force_hydro b; fdt_dead b; friction_prev b] /\
  of_size 8 (density b).
Definition good_body stack accepts (b : body) : Prop :=
  sized_body b /\ Forall (good_text stack accepts) [speed_x b; speed_y b; speed_o b].
Definition good_segment (s : segment) : Prop :=
  of_size 16 (s_corner s) /\ Forall (of_size 8) [s_g s; s_heat s; s_gsum s] /\ In (s_bc s) ["l"; "n"; "s"; "i"; "z"]%char /\ In (s_hc s) ["n"; "i"; "t"; "w"]%char.
Definition good stack accepts (c : chapter) : Prop :=
  match c with
  | Header h _ => good_head stack accepts h
  | Objects _ l => Forall (of_size 24) l /\ Z.of_nat (List.length l) < 2 ^ 63
  | BData b => good_body stack accepts b
  | Body l => Forall good_segment l /\ Z.of_nat (List.length l) < 2 ^ 63
  end.

(** What a chapter says.  The condition of a segment is slip or no slip, or one of
    the special ones: then it says how the whole body is bounded and which segment
    is special, and the wall is as in the segment before (not slipping in the first). *)
Definition special_condition (c : ascii) : option bc :=
  if (c =? "z")%char then Some Kutta else if (c =? "s")%char || (c =? "i")%char then Some Steady else None.
Definition heat_of (c : ascii) : hc :=
  if (c =? "i")%char then Isolate else if (c =? "t")%char then ConstT else if (c =? "w")%char then ConstW else Neglect.
Fixpoint segments_say (to_float : bytes -> bytes) (before : bool) (l : list segment) : list att :=
  match l with
  | [] => []
  | s :: l =>
    let w := match special_condition (s_bc s) with Some _ => before | None => (s_bc s =? "l")%char end in
    mkAtt (s_corner s) (s_g s) (s_gsum s) (to_float (s_heat s)) w :: segments_say to_float w l
  end.
Definition last_special (l : list segment) (before : bc) : bc :=
  fold_left (fun b s => match special_condition (s_bc s) with Some b => b | None => b end) l before.
Fixpoint special_place (from : Z) (l : list segment) (before : Z) : Z :=
  match l with
  | [] => before
  | s :: l => special_place (from + 1) l (match special_condition (s_bc s) with Some _ => from | None => before end)
  end.
Definition with_segments (to_float : bytes -> bytes) (l : list segment) (b : body) : body :=
  mkBody (holder b) (dpos b) (speed_x b) (speed_y b) (speed_o b) (speed_slae b) (speed_slae_prev b)
    (kspring b) (density b) (force_hydro b) (fdt_dead b) (friction_prev b)
    (last_special l (boundary b)) (last (map (fun s => heat_of (s_hc s)) l) (heating b))
    (special_place (Z.of_nat (List.length (alist b))) l (special b)) (alist b ++ segments_say to_float false l).
(** Without its segments a body has the values of a new one. *)
Definition new_body (b0 b : body) : body :=
  mkBody (holder b) (dpos b) (speed_x b) (speed_y b) (speed_o b) (speed_slae b) (speed_slae_prev b)
    (kspring b) (density b) (force_hydro b) (fdt_dead b) (friction_prev b)
    (boundary b0) (heating b0) (special b0) (alist b0).
Definition update_last {A} (f : A -> A) (l : list A) : list A :=
  match rev l with [] => [] | a :: l => rev l ++ [f a] end.
Definition say (to_float : bytes -> bytes) (b0 : body) (S : space) (c : chapter) : space :=
  match c with
  | Header h _ => mkSpace h (bodies S) (vortices S) (heats S) (streak_sources S) (streaks S)
  | Objects Vortexes l => mkSpace (heading S) (bodies S) (vortices S ++ l) (heats S) (streak_sources S) (streaks S)
  | Objects Heat l => mkSpace (heading S) (bodies S) (vortices S) (heats S ++ l) (streak_sources S) (streaks S)
  | Objects StrkSrc l => mkSpace (heading S) (bodies S) (vortices S) (heats S) (streak_sources S ++ l) (streaks S)
  | Objects Streak l => mkSpace (heading S) (bodies S) (vortices S) (heats S) (streak_sources S) (streaks S ++ l)
  | BData b => mkSpace (heading S) (bodies S ++ [new_body b0 b]) (vortices S) (heats S) (streak_sources S) (streaks S)
  | Body l => mkSpace (heading S) (update_last (with_segments to_float l) (bodies S)) (vortices S) (heats S) (streak_sources S) (streaks S)
  end.
Fixpoint present (cs : list (option chapter)) : list chapter :=
  match cs with [] => [] | Some c :: cs => c :: present cs | None :: cs => present cs end.

(** Segments come after the data of their body. *)
Fixpoint in_order (some : bool) (cs : list chapter) : Prop :=
  match cs with
  | [] => True
  | Body _ :: cs => some = true /\ in_order some cs
  | BData _ :: cs => in_order true cs
  | _ :: cs => in_order some cs
  end.

(** The same with the special segment of every body being [n]. *)
Definition renumber (n : Z) (S : space) : space :=
  mkSpace (heading S)
    (map (fun b => mkBody (holder b) (dpos b) (speed_x b) (speed_y b) (speed_o b) (speed_slae b) (speed_slae_prev b)
       (kspring b) (density b) (force_hydro b) (fdt_dead b) (friction_prev b) (boundary b) (heating b) n (alist b)) (bodies S))
    (vortices S) (heats S) (streak_sources S) (streaks S).
Definition ordinary (c : chapter) : Prop :=
  match c with Body l => Forall (fun s => special_condition (s_bc s) = None) l | _ => True end.

(** A file with these chapters: the table, then the chapters one after the other. *)
Fixpoint table (off : Z) (cs : list (option chapter)) : bytes :=
  match cs with
  | [] => []
  | None :: cs => put_number 8 0 ++ repeat 32 8 ++ table off cs
  | Some c :: cs => put_number 8 off ++ title c ++ table (off + Z.of_nat (List.length (put_chapter c))) cs
  end.
Definition write_v13 (cs : list (option chapter)) : bytes :=
  table 1024 cs ++ List.concat (map put_chapter (present cs)).

(** A text of numbers. *)
Definition all_numbers {A} (l : list A) : list (item A) := map Number l.
Definition flat3 {A} (l : list (A * A * A)) : list A := flat_map (fun t => [fst (fst t); snd (fst t); snd t]) l.
Definition flat2 {A} (l : list (A * A)) : list A := flat_map (fun t => [fst t; snd t]) l.
