(** [S:save(filename)] and [S:load(filename)] of a script: space_load and space_save,
    utils/vvflow/lua_space.cpp:8-26, Space::load and Space::save,
    libvvhd/src/TSpace.cpp:38-83. *)

From Coq Require Import List ZArith Bool String Ascii.
From Verif.Base Require Import Num F64.
From Verif.Time Require ModelRun.
From Verif.Store Require Import Model.
Import ListNotations.
Local Open Scope string_scope.
Local Open Scope list_scope.

(** A file of the disk.  [Unfinished f]: a save of this program failed on the way and
    the file, so far [f], is still open since H5Fclose is passed over (TSpace.cpp:74-82).
    [Lost]: the program was aborted while it had the file open; nothing is said about the
    contents.  Other failures of the file system, files of other formats and directories
    are not modelled, nor are different names of one file. *)
Inductive content := Whole (f : file) | Unfinished (f : file) | Lost.
Definition disk := string -> option content.
Definition put (name : string) (c : content) (d : disk) : disk :=
  fun n => if String.eqb n name then Some c else d n.

(** What the script sees: the call returns; an error is raised, which pcall can catch;
    the program is aborted by an exception that nobody catches (lua_space.cpp:8-14
    catches none, lua_space.cpp:20-24 only invalid_argument, vvflow.cpp:122-180 none);
    or anything. *)
Inductive reply (A : Type) := Returns (a : A) | Error | Aborts | Anything.
Arguments Returns {A}. Arguments Error {A}. Arguments Aborts {A}. Arguments Anything {A}.

(** The loop of TSpace_save_hdf.cpp:204-219: the bodies written until it stops, and why
    it stops.  [Refused]: the root is not in the space, invalid_argument of line 212;
    [Fails]: the runtime_error of line 116; [Wild]: a body without segments, line 61. *)
Inductive stop := Done | Refused | Fails | Wild.
Fixpoint written (n i : nat) (l : list body) : list (string * dataset) * stop :=
  match l with
  | [] => ([], Done)
  | b :: tl =>
      match root_name n (root_body b) with
      | Ok r =>
          match write_body r b with
          | Ok x => let (rest, e) := written n (S i) tl in ((body_name i, x) :: rest, e)
          | Throw => ([], Fails)
          | Undefined => ([], Wild)
          end
      | _ => ([], Refused)
      end
  end.

Section Script.
Variable meta : attrs.                    (* time and version of the program, TSpace_save_hdf.cpp:179-186 *)
Variable accepts : string -> bool.
Variable properties : list vec -> f64 * vec * f64.

(** The file with these bodies, TSpace_save_hdf.cpp:167-193. *)
Definition file_with (s : space) (bs : list (string * dataset)) : file :=
  mkFile
    (w_str "caption" (caption s)
     ++ [("time", AT (time s)); ("dt", AT (dt s)); ("dt_save", AT (dt_save s));
         ("dt_streak", AT (dt_streak s)); ("dt_profile", AT (dt_profile s));
         ("re", AD (re s)); ("pr", AD (pr s)); ("inf_marker", AV (inf_marker s))]
     ++ w_str "inf_speed_x" (inf_vx s) ++ w_str "inf_speed_y" (inf_vy s)
     ++ [("inf_circulation", AD (inf_g s)); ("gravity", AV (gravity s)); ("time_to_finish", AD (finish s))]
     ++ meta)
    (write_list "vort" (vortices s) ++ write_list "heat" (heat s)
     ++ write_list "ink" (streak s) ++ write_list "ink_source" (streak_sources s)
     ++ write_list "source" (sources s) ++ bs).

(** TSpace.cpp:64-83 with the text of lua_space.cpp:19, which ends at its first NUL;
    the text is the format of [snprintf] with the number of the step.  H5Fcreate fails
    for the empty name and for a file that is open. *)
Definition script_save (text : string) (s : space) (d : disk) : disk * reply unit :=
  if existsb invalid (bodies s) then (d, Error)
  else
    match Time.ModelRun.file_number (time s) (dt s) with
    | None => (d, Anything)
    | Some n =>
        match print (c_str text) [n] with
        | Ok name =>
            let name := cut 64 name in
            if String.eqb name "" then (d, Aborts)
            else match d name with
                 | Some (Unfinished _) => (d, Aborts)
                 | _ =>
                     match written (List.length (bodies s)) 0 (bodies s) with
                     | (bs, Done) => (put name (Whole (file_with s bs)) d, Returns tt)
                     | (bs, Refused) => (put name (Unfinished (file_with s bs)) d, Error)
                     | (_, Fails) => (put name Lost d, Aborts)
                     | (_, Wild) => (d, Anything)
                     end
                 end
        | _ => (d, Anything)
        end
    end.

(** TSpace.cpp:38-62 for files of HDF5.  A file that is not there fails at H5Fopen
    since [H5Fis_hdf5] is then negative and not 0.  Whether H5Fis_hdf5 knows a file that
    is open for writing depends on the version of the library. *)
Definition script_load (text : string) (s : space) (d : disk) : reply space :=
  match d (c_str text) with
  | Some (Whole f) => match load accepts properties f s with Ok s' => Returns s' | Throw => Aborts | Undefined => Anything end
  | Some _ => Anything
  | None => Aborts
  end.

(** The program ends by itself: the library closes the files that are open. *)
Definition end_program (d : disk) : disk :=
  fun n => match d n with Some (Unfinished f) => Some (Whole f) | c => c end.

(** A script that saves these spaces under these names one after the other, each by
    pcall, and then ends. *)
Fixpoint script_saves (l : list (string * space)) (d : disk) : disk * reply unit :=
  match l with
  | [] => (end_program d, Returns tt)
  | (name, s) :: tl =>
      match script_save name s d with
      | (d', Returns _) | (d', Error) => script_saves tl d'
      | r => r
      end
  end.
End Script.
