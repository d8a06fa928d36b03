(** What a printed number means. *)

From Coq Require Import ZArith Bool List String Ascii Reals.
From Verif.Print Require Import Model.
Local Open Scope string_scope.

(** A value that was read: [Dec neg n e] is n * 10^e or its negative. *)
Inductive value := VNaN (neg : bool) | VInf (neg : bool) | Dec (neg : bool) (n e : Z).

Definition digit (c : ascii) : option Z :=
  let k := nat_of_ascii c in
  if Nat.leb 48 k && Nat.leb k 57 then Some (Z.of_nat k - 48)%Z else None.

(** Digits at the start of a text: the number they make behind [v], how many, and what follows. *)
Fixpoint take (s : string) (v n : Z) : Z * Z * string :=
  match s with
  | "" => (v, n, "")
  | String c t => match digit c with Some d => take t (10 * v + d)%Z (n + 1)%Z | None => (v, n, s) end
  end.

Definition sign (s : string) : bool * string :=
  match s with
  | String "-" t => (true, t)
  | String "+" t => (false, t)
  | _ => (false, s)
  end.

(** Digits, a point and digits, a power of ten; nothing may be left. *)
Definition read_power (s : string) : option Z :=
  match s with
  | "" => Some 0%Z
  | String "e" t => let '(b, t) := sign t in
                    let '(v, n, t) := take t 0 0 in
                    if (0 <? n)%Z && String.eqb t "" then Some (if b then - v else v)%Z else None
  | _ => None
  end.
Definition read_digits (b : bool) (s : string) : option value :=
  let '(v, n, t) := take s 0 0 in
  if (n =? 0)%Z then None
  else let '(v, k, t) := match t with String "." u => take u v 0 | _ => (v, 0%Z, t) end in
       option_map (fun e => Dec b v (e - k)) (read_power t).

(** As Lua and strtod read it; the globals inf and nan are those of vvflow.cpp:87-90. *)
Definition read (s : string) : option value :=
  let '(b, t) := sign s in
  if String.eqb t "inf" then Some (VInf b)
  else if String.eqb t "nan" then Some (VNaN b)
  else read_digits b t.

Local Open Scope R_scope.
Definition signed (b : bool) (x : R) : R := if b then - x else x.

(** A finite number as a real, and what was read. *)
Definition real (x : number) : R :=
  match x with Fin s m d => signed s (IZR (Zpos m) / IZR (Zpos d)) | _ => 0 end.
Definition finite (x : number) : Prop := match x with NaN _ | Inf _ => False | _ => True end.
Definition reads (s : string) (v : R) : Prop :=
  exists b n e, read s = Some (Dec b n e) /\ v = signed b (IZR n * powerRZ 10 e).

(** The characters of numbers; brackets, commas, blanks and tabs are not among them. *)
Definition word_char (c : ascii) : Prop := In c (list_ascii_of_string "0123456789+-.einfa").
Definition word (s : string) : Prop := Forall word_char (list_ascii_of_string s).
