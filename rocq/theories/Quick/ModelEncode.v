(** Model of the commands of utils/scripts/vvencode (bash), lines 8-16. *)

From Coq Require Import List Bool String Ascii.
From Verif.Quick Require Import Model.
Import ListNotations.
Local Open Scope string_scope.

(** The characters of the default IFS, and those that make a word a pattern. *)
Definition is_blank (c : ascii) : bool := existsb (Ascii.eqb c) [" "; "009"; "010"]%char.
Definition is_glob (c : ascii) : bool := existsb (Ascii.eqb c) ["*"; "?"; "["]%char.
Fixpoint any (f : ascii -> bool) (s : string) : bool :=
  match s with "" => false | String c s => f c || any f s end.

(** Word splitting of an expansion without quotes: [w] is the word begun. *)
Definition ended (w : string) (l : list string) : list string := if String.eqb w "" then l else w :: l.
Fixpoint split (w s : string) : list string :=
  match s with
  | "" => ended w []
  | String c s => if is_blank c then ended w (split "" s) else split (w ++ String c "") s
  end.

(** A command substitution drops the newlines at the end. *)
Fixpoint chomp (s : string) : string :=
  match s with
  | "" => ""
  | String c s => match chomp s with
                  | "" => if Ascii.eqb c "010" then "" else String c ""
                  | s' => String c s'
                  end
  end.

Section Encode.
Variable matches : string -> list string.          (* files with a name like the pattern, in the order of the shell *)
Variable ls : list string -> list string.          (* lines printed by ls *)
Variable exiv2 : list string -> string.            (* exiv2 -P t -bg Exif.Photo.UserComment ... *)

(** Pathname expansion follows the splitting; a pattern without a match stays.
    Backslashes and the options of the shell are not modelled. *)
Definition expand (s : string) : list string :=
  flat_map (fun w => if any is_glob w then match matches w with [] => [w] | l => l end else [w]) (split "" s).

(** Line 10. *)
Definition first_file (mask : string) : string :=
  match ls (expand mask) with [] => "" | f :: _ => chomp f end.
(** Line 11. *)
Definition comment (mask : string) : string := chomp (exiv2 (expand (first_file mask))).

(** Lines 13-16: the arguments of ffmpeg; a missing third argument is empty. *)
Definition ffmpeg_args (args : list string) : list string :=
  let mask := nth 0 args "" in
  (["-pattern_type"; "glob"; "-i"; mask; "-r"; "25"; "-c:v"; "libx264"; "-crf"; "28"; "-pix_fmt"; "yuv420p"; "-bf"; "0";
    "-metadata"; ("comment=" ++ comment mask)%string] ++ expand (nth 2 args "") ++ expand (nth 1 args ""))%list.

(** Lines 3-16: what is run, if anything. *)
Definition encode (args : list string) : option (list string) :=
  if shows_usage (List.length args) then None else Some (ffmpeg_args args).
End Encode.
