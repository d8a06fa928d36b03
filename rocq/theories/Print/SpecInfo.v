(** What a line means to Lua: an assignment of a number, a table of numbers or a
    text, and maybe a comment. *)

From Coq Require Import ZArith Bool List String Ascii Reals.
From Verif.Base Require Import Num.
From Verif.Lua Require Import ModelMembers.
From Verif.Time Require Model.
From Verif.Print Require Import Model Spec.
Import ListNotations.
Local Open Scope string_scope.

Inductive lit := LitNum (v : value) | LitTab (l : list value) | LitStr (s : string).

(** The text before the first [c], and the one after it. *)
Fixpoint upto (c : ascii) (s : string) : string * option string :=
  match s with
  | "" => ("", None)
  | String d t => if Ascii.eqb c d then ("", Some t) else let '(a, r) := upto c t in (String d a, r)
  end.
Definition remark (s : string) : bool := String.eqb s "" || String.prefix " --" s.
Fixpoint drop (p s : string) : option string :=
  match p, s with
  | "", _ => Some s
  | String c p, String d s => if Ascii.eqb c d then drop p s else None
  | _, _ => None
  end.

(** Numbers with a comma and a blank between them; [n] numbers at most. *)
Fixpoint items (n : nat) (s : string) : option (list value) :=
  match n with
  | O => None
  | S n =>
      match upto "," s with
      | (a, None) => option_map (fun v => [v]) (read a)
      | (a, Some r) => match read a, drop " " r with
                       | Some v, Some r => option_map (cons v) (items n r)
                       | _, _ => None
                       end
      end
  end.

(** Escapes are not read. *)
Definition literal (s : string) : option lit :=
  match s with
  | String "'" t => match upto "'" t with
                    | (a, Some r) => if remark r && negb (existsb (Ascii.eqb "\") (list_ascii_of_string a))
                                        && negb (existsb (Ascii.eqb "010") (list_ascii_of_string a)) then Some (LitStr a) else None
                    | _ => None
                    end
  | String "{" t => match upto "}" t with
                    | (a, Some r) => if remark r then option_map LitTab (items (String.length s) a) else None
                    | _ => None
                    end
  | _ => let '(a, r) := upto " " s in
         match r with
         | Some r => if String.prefix "--" r then option_map LitNum (read a) else None
         | None => option_map LitNum (read a)
         end
  end.
(** [owner.name = value]. *)
Definition statement (owner name line : string) : option lit :=
  match drop (owner ++ "." ++ name ++ " = ") line with Some s => literal s | None => None end.

Local Open Scope R_scope.
(** Equal up to six digits. *)
Definition near (x : f64) (v : value) : Prop :=
  match of_double x, v with
  | Inf s, VInf s' => s = s'
  | NaN _, VNaN _ => True
  | (Zero _ | Fin _ _ _) as x, Dec b n e => Rabs (signed b (IZR n * powerRZ 10 e) - real x) * 200000 <= Rabs (real x)
  | _, _ => False
  end.
(** The whole number [z], spelled. *)
Definition spells (s : string) (z : Z) : Prop := exists b n, read s = Some (Dec b n 0) /\ z = if b then (- n)%Z else n.

(** The literal stands for what the member holds. *)
Definition stands (m : mem) (l : lit) : Prop :=
  match m, l with
  | MDbl x, LitNum v => near x v
  | MVec x y, LitTab [a; b] => near x a /\ near y b
  | MVec3 x y o, LitTab [a; b; c] => near x a /\ near y b /\ near o c
  | MStr s, LitStr t | MExpr s, LitStr t => t = s
  | MTime t, LitStr s => exists a b, s = a ++ "/" ++ b /\ spells a (Time.Model.value t) /\ spells b (Time.Model.timescale t)
  | MInt z, LitNum (Dec b n e) => e = 0%Z /\ z = if b then (- n)%Z else n
  | _, _ => False
  end.

(** What a member of each kind holds. *)
Definition of_kind (k : kind) (m : mem) : Prop :=
  match k, m with
  | KStr, MStr _ | KDbl, MDbl _ | KInt, MInt _ | KVec, MVec _ _ | KVec3, MVec3 _ _ _ | KExpr, MExpr _ | KTime, MTime _ => True
  | _, _ => False
  end.
(** A text without apostrophe, backslash, newline and zero character. *)
Definition plain (s : string) : Prop :=
  forall c, In c (list_ascii_of_string s) -> c <> "'"%char /\ c <> "\"%char /\ c <> "010"%char /\ c <> "000"%char.
Definition plain_mem (m : mem) : Prop := match m with MStr s | MExpr s => plain s | _ => True end.
