(** How gnuplot reads a script, as far as gpquick needs it. *)

From Coq Require Import List ZArith Bool String Ascii.
Import ListNotations.
Local Open Scope string_scope.

Definition quote : ascii := "'".

(** A text without characters that end a command, a text or a line. *)
Definition plain (s : string) : Prop :=
  forall c, In c (list_ascii_of_string s) -> c <> quote /\ c <> ";"%char /\ c <> "010"%char.
Definition no_quote (s : string) : Prop := ~ In quote (list_ascii_of_string s).

(** Commands end with a semicolon or the line; between quotes these mean nothing.
    [None]: a text that is not closed. *)
Fixpoint split (quoted : bool) (w : string) (s : string) : option (list string) :=
  match s with
  | "" => if quoted then None else Some [w]
  | String c s =>
      let w' := w ++ String c "" in
      if Ascii.eqb c quote then split (negb quoted) w' s
      else if negb quoted && (Ascii.eqb c ";" || Ascii.eqb c "010") then option_map (cons w) (split false "" s)
      else split quoted w' s
  end.
Definition commands (s : string) : option (list string) :=
  option_map (filter (fun c => negb (String.eqb c ""))) (split false "" s).

(** The value a text in quotes stands for; two quotes stand for one. *)
Fixpoint unquote_from (s : string) : option string :=
  match s with
  | "" => None
  | String "'" "" => Some ""
  | String "'" (String "'" s) => option_map (String "'") (unquote_from s)
  | String "'" _ => None
  | String c s => option_map (String c) (unquote_from s)
  end.
Definition unquote (s : string) : option string :=
  match s with String "'" s => unquote_from s | _ => None end.

(** What follows [p] in [s]. *)
Fixpoint after (p s : string) : option string :=
  match p, s with
  | "", s => Some s
  | String a p, String b s => if Ascii.eqb a b then after p s else None
  | _, "" => None
  end.
(** The value of a setting after the commands: the last one counts. *)
Fixpoint setting (key : string) (cs : list string) : option string :=
  match cs with
  | [] => None
  | c :: cs =>
      match setting key cs with
      | Some v => Some v
      | None => after ("set " ++ key ++ " ") c
      end
  end.
