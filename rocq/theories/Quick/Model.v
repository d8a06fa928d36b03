(** Model of utils/scripts/gpquick (Python) and of the count of the arguments in
    utils/scripts/vvencode (bash). *)

From Coq Require Import List ZArith Bool String Ascii.
From Verif.Store Require Model.
Import ListNotations.
Local Open Scope string_scope.

Definition nl : string := String "010" "".

(** * gpquick *)

(** --grid, gpquick:66-73; [GNone] is the default. *)
Inductive grid := GNone | GX | GY | GXY.

Section Gpquick.
Context {F : Type}.
Variable showf : F -> string.     (* str.format of a float *)
Variable showi : Z -> string.     (* str.format of an int *)

(** What argparse gives, gpquick:9-94.  How it reads the arguments is not
    modelled; both ends of a range are given or none (nargs=2). *)
Record options := mkOptions {
  output : option string; lines : bool; points : bool; columns : string; square : bool;
  xrange : option (F * F); yrange : option (F * F); grid_ : grid; size : Z * Z; dump : bool }.

Definition has_x (g : grid) : bool := match g with GX | GXY => true | _ => false end.   (* 'x' in args.grid *)
Definition has_y (g : grid) : bool := match g with GY | GXY => true | _ => false end.

(** Lines 103-106 and 121-127: the pieces given to [gpw], in order. *)
Definition range_line (axis : string) (r : option (F * F)) : list string :=
  match r with
  | Some (a, b) => ["set " ++ axis ++ "range [" ++ showf a ++ ":" ++ showf b ++ "];" ++ nl]
  | None => []
  end.
Definition style_lt (o : options) : string := if lines o then "1" else if negb (points o) then "1" else "0".
Definition style_pt (o : options) : string := if points o then "7" else "0".

(** Lines 98-135. *)
Definition script_lines (o : options) : list string :=
  ["set terminal pngcairo enhanced";
   " size " ++ showi (fst (size o)) ++ ", " ++ showi (snd (size o)) ++ ";" ++ nl]
  ++ match output o with Some n => ["set output '" ++ n ++ "';" ++ nl] | None => [] end
  ++ ["unset key;" ++ nl]
  ++ (if square o then ["set size ratio -1;" ++ nl] else [])
  ++ range_line "x" (xrange o) ++ range_line "y" (yrange o)
  ++ (if has_x (grid_ o) then ["set grid ytics;" ++ nl] else [])
  ++ (if has_y (grid_ o) then ["set grid xtics;" ++ nl] else [])
  ++ ["plot '-'"; " using " ++ columns o;
      " with linespoints lt " ++ style_lt o ++ " pt " ++ style_pt o;
      " lc rgb 'black';" ++ nl; "exit;" ++ nl].
Definition script (o : options) : string := String.concat "" (script_lines o).

(** Lines 137-143: what is printed, the script gnuplot runs, the exit status.
    [wait] is what the process returns: its status, or minus the signal that
    ended it. *)
Definition main (wait : string -> Z) (o : options) : string * option string * Z :=
  let printed := if dump o || match output o with None => true | _ => false end then script o ++ nl else "" in
  match output o with
  | Some _ => (printed, Some (script o), (wait (script o) mod 256)%Z)
  | None => (printed, None, 0%Z)
  end.
End Gpquick.
Arguments options : clear implicits.

(** * vvencode *)

(** [<] between [[ and ]] compares texts; here both consist of digits.
    vvencode:3. *)
Fixpoint text_less (a b : string) : bool :=
  match a, b with
  | "", "" => false
  | "", _ => true
  | _, "" => false
  | String c a, String d b =>
      if Ascii.eqb c d then text_less a b else Nat.ltb (nat_of_ascii c) (nat_of_ascii d)
  end.
(** vvencode:3-6 with [n] arguments: the usage is shown and nothing is done. *)
Definition shows_usage (n : nat) : bool := text_less (Store.Model.decimal n) "2".
