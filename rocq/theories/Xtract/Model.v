(** Model of vvxtract, utils/vvxtract/vvxtract.cpp.

    Numbers are of any type; [printf "%+.6le"] is an argument.  What the hdf5
    library finds for a name is an argument too.  Of the information about a
    space the lines with numbers of type double are left out, all others are
    kept. *)

From Coq Require Import List ZArith Bool String Ascii Decimal DecimalString.
Import ListNotations.
Local Open Scope string_scope.

(** [printf "%zd"] and [printf "%d"] of a number that is not negative. *)
Definition decimal (n : nat) : string := NilEmpty.string_of_uint (Nat.to_uint n).
Definition tab : string := String "009" "".
Definition nl : string := String "010" "".

(** The end of the program: exit code and standard output, or undefined
    behaviour. *)
Inductive outcome := Exit (code : nat) (out : string) | Crash.

(** ** Information about a space, 86-171 *)

(** A body as far as it is shown: TBody.hpp. [root] is the place of the root
    body in the list, [slips] the [slip] of the segments. *)
Record ibody := mkBody { label : string; slips : list Z; special : nat; root : option nat }.
Record ispace := mkSpace {
  bodies : list ibody; vortices : nat; sources : nat; streaks : nat; streak_sources : nat }.

(** 139-146. [None]: [begin()] of an empty list is read. *)
Definition slip_text (b : ibody) : option string :=
  match slips b with
  | [] => None
  | s :: _ =>
      let s := if existsb (fun x => negb (Z.eqb x s)) (slips b) then 3%Z else s in
      Some (if Z.eqb s 0 then "false -- no-slip" else if Z.eqb s 1 then "true -- slip" else "nil -- mixed")
  end.
(** 153-158, 113-119: the name of a body. [None]: the text of a temporary is read. *)
Definition shown_name (b : ibody) : option string :=
  match label b with "" => None | l => Some l end.
(** 149-160. *)
Definition root_text (s : ispace) (b : ibody) : option string :=
  match root b with
  | None => Some "nil"
  | Some i => match nth_error (bodies s) i with Some r => shown_name r | None => None end
  end.
(** 109-169, the lines without doubles. *)
Definition body_lines (s : ispace) (b : ibody) : option (list string) :=
  match shown_name b, slip_text b, root_text s b with
  | Some n, Some sl, Some r =>
      Some [n ++ ".label = '" ++ label b ++ "'"; n ++ ".slip = " ++ sl;
            n ++ ".special_segment = " ++ decimal (special b); n ++ ".root = " ++ r;
            "-- #" ++ n ++ " = " ++ decimal (List.length (slips b)) ++ " -- number of segments"]
  | _, _, _ => None
  end.
Fixpoint all_lines (s : ispace) (bs : list ibody) : option (list string) :=
  match bs with
  | [] => Some []
  | b :: bs =>
      match body_lines s b, all_lines s bs with
      | Some l, Some ls => Some (l ++ ls)%list
      | _, _ => None
      end
  end.
(** 103-107. *)
Definition count_lines (s : ispace) : list string :=
  ["-- #S.body_list = " ++ decimal (List.length (bodies s)) ++ " -- number of elements";
   "-- #S.vort_list = " ++ decimal (vortices s);
   "-- #S.sink_list = " ++ decimal (sources s);
   "-- #S.streak_source_list = " ++ decimal (streaks s);
   "-- #S.streak_domain_list = " ++ decimal (streak_sources s)].
Definition space_lines (s : ispace) : option (list string) :=
  match all_lines s (bodies s) with Some l => Some (count_lines s ++ l)%list | None => None end.
Definition end_lines (ls : list string) : string := String.concat "" (map (fun l => l ++ nl) ls).

Section Xtract.
Context {V : Type}.
(** [printf "%+.6le"]. *)
Variable fmt : V -> string.

(** ** Datasets, 18-31 and 173-222 *)

Record dataset := mkData { name : string; rows : nat; cols : nat; mem : list V }.

(** What the file has under a name: nothing, no dataspace, a dataspace
    without a rank, one of another rank than 2, an array that cannot be read,
    an array. *)
Inductive found :=
  | Missing | NoSpace | NoRank | Rank (n : nat) | NoData (rows cols : nat)
  | Array (rows cols : nat) (mem : list V).

(** 175-222: the datasets or the exit code. *)
Fixpoint read (find : string -> found) (args : list string) : list dataset + nat :=
  match args with
  | [] => inl []
  | a :: args =>
      match find a with
      | Missing => inr 3
      | Array r c m =>
          match read find args with
          | inl ds => inl (mkData a r c m :: ds)
          | inr e => inr e
          end
      | _ => inr 5
      end
  end.
(** 213. *)
Definition max_rows (ds : list dataset) : nat := fold_left (fun m d => Nat.max m (rows d)) ds 0.

(** ** The table, 224-248 *)

(** 227-233. *)
Definition column_name (d : dataset) (j : nat) : string :=
  name d ++ (if Nat.ltb 1 (cols d) then "[" ++ decimal (j + 1) ++ "]" else "") ++ tab.
Definition heading (ds : list dataset) : string :=
  match ds with
  | [] => ""
  | _ => "#" ++ String.concat "" (map (fun d => String.concat "" (map (column_name d) (seq 0 (cols d)))) ds) ++ nl
  end.

(** 240-244. [None]: an element past the end of the array is read. *)
Definition cell (d : dataset) (row j : nat) : option string :=
  if Nat.leb (rows d) row then Some ("             " ++ tab)
  else match nth_error (mem d) (row * cols d + j) with Some v => Some (fmt v ++ tab) | None => None end.
(** Texts printed one after the other. *)
Fixpoint print (l : list (option string)) : option string :=
  match l with
  | [] => Some ""
  | x :: l => match x, print l with Some s, Some t => Some (s ++ t) | _, _ => None end
  end.
(** 238-247. *)
Definition print_row (ds : list dataset) (row : nat) : option string :=
  print (map (fun d => print (map (cell d row) (seq 0 (cols d)))) ds ++ [Some nl])%list.
(** 224-248. *)
Definition table (ds : list dataset) : option string :=
  print (Some (heading ds) :: map (print_row ds) (seq 0 (max_rows ds))).

(** ** main, 44-251 *)

(** A file: the names of all datasets, the general information (76-83), the
    space if there is an attribute [dt], the datasets. *)
Record file := mkFile {
  names : list string; general : string; space : option ispace; find : string -> found }.

Definition main (b_info b_list : bool) (f : option file) (args : list string) : outcome :=
  match f with
  | None => Exit 2 ""
  | Some f =>
      let b_info := b_info || match args with [] => true | _ => false end in
      if b_list then Exit 0 (end_lines (names f))
      else
        let info := if b_info then general f else "" in
        match (if b_info then space f else None) with
        | Some s =>
            match space_lines s with
            | Some l => Exit 0 (info ++ end_lines l)
            | None => Crash
            end
        | None =>
            match read (find f) args with
            | inr e => Exit e info
            | inl ds => match table ds with Some t => Exit 0 (info ++ t) | None => Crash end
            end
        end
  end.

End Xtract.
