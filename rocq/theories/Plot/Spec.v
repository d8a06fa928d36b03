(** What a plot archive must keep and which labels a script can refer to. *)

From Coq Require Import List ZArith Bool String Ascii Arith.
From Verif.Plot Require Import Model.
Import ListNotations.
Local Open Scope string_scope.

(** ** Archives *)

(** What a program can do with a plotter. *)
Inductive action := Add (name content : string) | Write (text : string).
Definition does (p : plotter) (a : action) : plotter :=
  match a with Add n s => add p n s | Write t => write p t end.
Definition does_all (l : list action) : plotter := fold_left does l new_plotter.

(** Each file fits on the stack and none has the name of the script. *)
Definition archivable (stack : nat) (p : plotter) : Prop :=
  String.length (script p) <= stack /\
  forall n s, get p n = Some s -> String.length s <= stack /\ n <> "plot.gp".

(** ** Names *)

Definition quote : ascii := "'".
Definition quote_free (s : string) : Prop := ~ In quote (list_ascii_of_string s).

(** Texts between quotes that are not names, and names of datasets. *)
Definition styles : list string := [""; "%2float"; "%3float"; "%4float"; "#9999cc"; "#adadad"; "black"].
Definition datasets : list string :=
  ["map_vorticity"; "map_pressure"; "isopressure"; "map_velocity_x"; "map_velocity_y"; "vortex_list";
   "map_streamfunction"; "streamlines"; "body_holders"; "body_springs";
   "ttree_bottom_nodes"; "ttree_near_nodes"; "ttree_find_node"].
Definition starts (c : ascii) (s : string) : Prop := exists t, s = String c t.

(** A label that can be told from everything else in a script. *)
Definition ordinary (l : string) : Prop :=
  quote_free l /\ ~ In l styles /\ ~ In l datasets /\ 
  forall c, In c [" "; ","; "/"; "010"]%char -> ~ starts c l.

(** The file descriptor that gnuplot is to read for a name. *)
Definition descriptor (fd : string -> nat) (n : string) : string := "/dev/fd/" ++ decimal (fd n).
