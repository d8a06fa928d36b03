(** Model of the plots of vvplot: utils/vvplot/gnuplotter.cpp, gnuplotter.hpp and
    the script written by main_hdf, utils/vvplot/vvplot.cpp.

    An archive is the list of its entries, each a name and a content; the
    library that reads and writes it is taken to keep both.  Texts written
    with [printf] from numbers are arguments.  In the script the lines before
    the plot command are one argument; the plot command is modelled in full. *)

From Coq Require Import List ZArith Bool String Ascii Arith.
From Verif Require Store.Model.
Import ListNotations.
Local Open Scope string_scope.

Definition decimal := Store.Model.decimal.
Definition body_name := Store.Model.body_name.

(** ** Gnuplotter, gnuplotter.hpp *)

(** [files] is a std::map: sorted by the name. *)
Record plotter := mkPlotter { script : string; files : list (string * string) }.
Definition new_plotter : plotter := mkPlotter "" [].

(** [files[name] = s]. *)
Fixpoint insert (name s : string) (l : list (string * string)) : list (string * string) :=
  match l with
  | [] => [(name, s)]
  | (n, t) :: l =>
      match String.compare name n with
      | Lt => (name, s) :: (n, t) :: l
      | Eq => (name, s) :: l
      | Gt => (n, t) :: insert name s l
      end
  end.
Definition add (p : plotter) (name s : string) : plotter := mkPlotter (script p) (insert name s (files p)).
Definition write (p : plotter) (s : string) : plotter := mkPlotter (script p ++ s) (files p).
Definition get (p : plotter) (name : string) : option string :=
  match List.find (fun f => String.eqb (fst f) name) (files p) with Some f => Some (snd f) | None => None end.

(** gnuplotter.cpp, 32-46. *)
Definition save (p : plotter) : list (string * string) := ("plot.gp", script p) :: files p.

(** gnuplotter.cpp, 63-91. [None]: the entry does not fit on the stack, of which
    [stack] bytes are left. *)
Definition load_entry (stack : nat) (p : option plotter) (e : string * string) : option plotter :=
  match p with
  | None => None
  | Some p =>
      if Nat.leb (String.length (snd e)) stack then
        Some (if String.eqb (fst e) "plot.gp" then write p (snd e) else add p (fst e) (snd e))
      else None
  end.
Definition load (stack : nat) (p : plotter) (a : list (string * string)) : option plotter :=
  fold_left (load_entry stack) a (Some p).

(** std::string::find and replace: the first occurrence of [old] becomes [new]. *)
Fixpoint replace_first (old new s : string) : string :=
  if String.prefix old s then new ++ String.substring (String.length old) (String.length s - String.length old) s
  else match s with "" => "" | String c s => String c (replace_first old new s) end.

(** gnuplotter.cpp, 98-121: the script passed to gnuplot. [fd] is the number of
    the file descriptor with the content of a file. *)
Definition exec_entry (fd : string -> nat) (s : string) (f : string * string) : string :=
  replace_first ("'" ++ fst f ++ "'") ("'/dev/fd/" ++ decimal (fd (fst f)) ++ "'") s.
Definition exec (fd : string -> nat) (p : plotter) : string := fold_left (exec_entry fd) (files p) (script p).

(** ** The plot command, vvplot.cpp, 168-520 *)

Inductive direction := DirX | DirY.
(** The options that matter. *)
Record options := mkOptions {
  o_G : bool; o_P : bool; o_U : option direction; o_V : bool; o_Vsize : nat; o_S : bool; o_B : bool;
  o_holder : bool; o_spring : bool; o_bottom : bool; o_near : bool; o_find : bool }.

(** A part of the plot command: the name between the quotes and what follows. *)
Definition part : Type := string * string.
Definition velocity_name (d : direction) : string := match d with DirX => "map_velocity_x" | DirY => "map_velocity_y" end.

Section Script.
(** Texts of [Vcirc] and of three times it. *)
Variable vcirc vcirc3 : string.

(** [ref] gives the text between the quotes for a dataset. *)
Definition image (ref : string -> string) (name : string) : part := (ref name, " binary matrix u 1:2:3 with image").
(** 171-520, in this order. [labels]: the names of the bodies, 383-387. *)
Definition parts (ref : string -> string) (o : options) (labels : list string) : list part :=
  ((if o_G o then [image ref "map_vorticity"] else []) ++
   (if o_P o then [image ref "map_pressure";
                   (ref "isopressure", " binary format='%2float' with lines lw 1 lc rgb '#9999cc'")] else []) ++
   (match o_U o with Some d => [image ref (velocity_name d)] | None => [] end) ++
   (if o_V o then
      (ref "vortex_list", " binary format='%3float' u 1:2:(color($3)) with dots lc rgb variable") ::
      (if Nat.ltb 0 (o_Vsize o) then
         [("", (" binary format='%3float' u 1:2:(" ++ vcirc ++
               "):(color($3)) with circles lc rgb variable fs transparent solid 0.3 noborder")%string)] else [])
    else []) ++
   (if o_S o then [(ref "streamlines", " binary format='%2float' with lines lw 1.5 lc rgb 'black'")] else []) ++
   (if o_B o then map (fun l => (ref l, " binary format='%2float' with filledcurve lc rgb '#adadad' lw 2 fs solid border -1")) labels
    else []) ++
   (if o_holder o then
      [(ref "body_holders", (" u 1:2:(1.5*" ++ vcirc ++ ") w circles lc rgb 'black' fs solid noborder")%string)] else []) ++
   (if o_spring o then
      [(ref "body_springs", (" u 1:2:(1.5*" ++ vcirc ++ ") w circles lc rgb 'black' fs solid noborder")%string);
       ("", (" u 1:2:3:4 w vectors head size " ++ vcirc3 ++ ",135 lc rgb 'black' lw 1.5")%string)] else []) ++
   (if o_bottom o then
      [(ref "ttree_bottom_nodes", " binary format='%4float' with boxxy fill empty lc rgb 'black'")] else []) ++
   (if o_near o then
      [(ref "ttree_near_nodes", " binary format='%4float' with vectors nohead lc rgb 'black'")] else []) ++
   (if o_find o then
      [(ref "ttree_find_node", " binary format='%4float' with vectors nohead lc rgb 'black'")] else []))%list.

(** DELIMITER, 169, and the parts one after the other. *)
Definition bs_nl : string := String "092" (String "010" "    ").
Definition quoted (p : part) : string := "'" ++ fst p ++ "'" ++ snd p.
Definition plot_cmd (ps : list part) : string :=
  match ps with
  | [] => ""
  | p :: ps => "plot " ++ bs_nl ++ quoted p ++ String.concat "" (map (fun p => ", " ++ bs_nl ++ quoted p) ps)
  end.

(** ** The files, vvplot.cpp, 182-512 *)

(** Contents of the datasets that belong to no body; a body has a label and
    the closed line of its corners (396-406). *)
Variable data : string -> string.
Record pbody := mkPBody { label : string; outline : string }.
(** 384-387. *)
Definition shown_label (i : nat) (b : pbody) : string := match label b with "" => body_name i | l => l end.
Definition shown_labels (bs : list pbody) : list string :=
  map (fun p => shown_label (fst p) (snd p)) (combine (seq 0 (List.length bs)) bs).
Definition body_files (bs : list pbody) : list (string * string) :=
  map (fun p => (shown_label (fst p) (snd p), outline (snd p))) (combine (seq 0 (List.length bs)) bs).
(** The calls of [gp.add], in this order. *)
Definition added (o : options) (bs : list pbody) : list (string * string) :=
  let d n := (n, data n) in
  ((if o_G o then [d "map_vorticity"] else []) ++
   (if o_P o then [d "map_pressure"; d "isopressure"] else []) ++
   (match o_U o with Some u => [d (velocity_name u)] | None => [] end) ++
   (if o_V o then [d "vortex_list"] else []) ++
   (if o_S o then [d "map_streamfunction"; d "streamlines"] else []) ++
   body_files bs ++
   (if o_holder o || o_spring o then [d "body_holders"; d "body_springs"] else []) ++
   (if o_bottom o then [d "ttree_bottom_nodes"] else []) ++
   (if o_near o then [d "ttree_near_nodes"] else []) ++
   (if o_find o then [d "ttree_find_node"] else []))%list.

(** 86-522: the plotter before it is saved or executed. [head]: the lines
    before the plot command. *)
Definition main_hdf (head : string) (o : options) (bs : list pbody) : plotter :=
  let p := fold_left (fun p f => add p (fst f) (snd f)) (added o bs) new_plotter in
  write p (head ++ plot_cmd (parts (fun n => n) o (shown_labels bs)) ++ String "010" "").

End Script.
