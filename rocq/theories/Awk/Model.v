(** Model of the awk scripts utils/scripts/vvawk.{mavg,avg,sd,ampl,zeros,drv}.

    A record is a list of fields.  [printf "%.6e"] of a number is kept as the
    number.  The variables given with [-v] are numbers; col and span are
    integers.  Comparing texts (in the order of the locale) and writing
    numbers as text is left to arguments. *)

From Coq Require Import List ZArith Bool String.
From Verif Require Import Base.Num.
Import ListNotations.
Local Open Scope Z_scope.

Section Awk.
Context {K : Num}.
(** The order of texts, the text of a number, the texts of -1e400 and 1e400. *)
Variable slt : string -> string -> bool.
Variable num2str : K -> string.
Variable minus_inf plus_inf : string.

(** A field: its text, the number its beginning spells (0 if none) and whether
    all of it looks like a number. *)
Record field := mkField { txt : string; num : K; isnum : bool }.
Definition record := list field.

(** A variable or element never assigned. *)
Definition unset : field := mkField "" (nofZ 0) true.
Definition const (x : K) : field := mkField (num2str x) x true.

(** [$i], [i] >= 1. *)
Definition dollar (r : record) (i : Z) : field := nth (Z.to_nat (i - 1)) r unset.
Definition NF (r : record) : Z := Z.of_nat (List.length r).

(** [a < b]: as numbers if both are, otherwise as texts; [a == b] likewise. *)
Definition lt (a b : field) : bool :=
  if isnum a && isnum b then (num a <? num b)%num else slt (txt a) (txt b).
Definition eq (a b : field) : bool :=
  if isnum a && isnum b then (num a =? num b)%num else String.eqb (txt a) (txt b).

(** [v ? v+0 : d] for integer variables and for numbers. *)
Definition zvar (v : option Z) (d : Z) : Z :=
  match v with Some z => if z =? 0 then d else z | None => d end.
Definition kvar (v : option K) : option K :=
  match v with Some x => if (x =? nofZ 0)%num then None else Some x | None => None end.

(** The bounds: [None] is -1e400 or +1e400, beyond every number. *)
Definition above (f : field) (xmin : option K) : bool :=
  match xmin with
  | Some m => lt (const m) f
  | None => if isnum f then true else slt minus_inf (txt f)
  end.
Definition below (f : field) (xmax : option K) : bool :=
  match xmax with
  | Some m => lt f (const m)
  | None => if isnum f then true else slt (txt f) plus_inf
  end.

(** What is printed: a field as it is, or a number with "%.6e". *)
Inductive cell := Text (s : string) | Number (x : K).
Definition texts (r : record) (first count : Z) : list cell :=
  map (fun i => Text (txt (dollar r (first + Z.of_nat i)))) (seq 0 (Z.to_nat count)).

(** ** vvawk.mavg, 12-13 and 16-29 *)

Record mavg_state := mkMavg { array : Z -> field; msum : K; mcount : Z }.
Definition mavg_start : mavg_state := mkMavg (fun _ => unset) (nofZ 0) 0.

Definition update (a : Z -> field) (i : Z) (f : field) : Z -> field :=
  fun j => if j =? i then f else a j.

(** One record; [None] is a fatal error: a negative field or a division by zero. *)
Definition mavg_step (col span NR : Z) (r : record) (s : mavg_state) : option (list cell * mavg_state) :=
  if col <? 0 then None else
  let i := Z.rem NR span in
  let count := if NR <=? span then mcount s + 1 else mcount s in
  let sum := if NR <=? span then msum s else (msum s - num (array s i))%num in
  let sum := (sum + num (dollar r col))%num in
  if count =? 0 then None else
  Some (texts r 1 (col - 1) ++ [Number (sum / nofZ count)%num] ++ texts r (col + 1) (NF r - col),
        mkMavg (update (array s) i (dollar r col)) sum count).

Fixpoint mavg_loop (col span NR : Z) (rs : list record) (s : mavg_state) : list (list cell) * bool :=
  match rs with
  | [] => ([], true)
  | r :: rs =>
      match mavg_step col span NR r s with
      | None => ([], false)
      | Some (line, s) => let (out, ok) := mavg_loop col span (NR + 1) rs s in (line :: out, ok)
      end
  end.
(** The lines printed and whether the script ended regularly. *)
Definition mavg (col span : option Z) (rs : list record) : list (list cell) * bool :=
  mavg_loop (zvar col 2) (zvar span 20) 1 rs mavg_start.

(** ** vvawk.avg, 13-27 and vvawk.sd, 14-30 *)

Definition inside (xmin xmax : option K) (r : record) : bool :=
  above (dollar r 1) xmin && below (dollar r 1) xmax.

Definition avg_step (col : Z) (xmin xmax : option K) (s : K * Z) (r : record) : K * Z :=
  if inside xmin xmax r then ((fst s + num (dollar r col))%num, snd s + 1) else s.
Definition avg (col : option Z) (xmin xmax : option K) (rs : list record) : option K :=
  let col := zvar col 2 in
  let xmin := kvar xmin in
  let xmax := kvar xmax in
  if (col <? 0) && existsb (inside xmin xmax) rs then None else
  let (sum, n) := fold_left (avg_step col xmin xmax) rs (nofZ 0, 0) in
  Some (if 0 <? n then (sum / nofZ n)%num else nofZ 0).

Definition sd_step (col : Z) (xmin xmax : option K) (s : K * K * Z) (r : record) : K * K * Z :=
  let '(sum, sum2, n) := s in
  if inside xmin xmax r then
    let v := num (dollar r col) in ((sum + v)%num, (sum2 + v * v)%num, n + 1)
  else s.
Definition sd (col : option Z) (xmin xmax : option K) (rs : list record) : option K :=
  let col := zvar col 2 in
  let xmin := kvar xmin in
  let xmax := kvar xmax in
  if (col <? 0) && existsb (inside xmin xmax) rs then None else
  let '(sum, sum2, n) := fold_left (sd_step col xmin xmax) rs (nofZ 0, nofZ 0, 0) in
  let nn := if 0 <? n then (nofZ 1 / nofZ n)%num else nofZ 0 in
  let m := (sum * nn)%num in
  Some (nsqrt (sum2 * nn - m * m)%num).

(** ** vvawk.ampl, 12-60 *)

Record ampl_state := mkAmpl {
  ax : Z -> field; ay : Z -> field;
  smin : K; smax : K; nmin : Z; nmax : Z }.
Definition ampl_start : ampl_state :=
  mkAmpl (fun _ => unset) (fun _ => unset) (nofZ 0) (nofZ 0) 0 0.

(** [c = (NR-span/2)%span] is half of this; an element whose index is not an
    integer is never assigned. *)
Definition centre2 (NR span : Z) : Z := Z.rem (2 * NR - span) (2 * span).
Definition element (a : Z -> field) (c2 : Z) : field :=
  if Z.even c2 then a (c2 / 2) else unset.

(** The loop of lines 43-49 over the indices [0 <= i < span]: (ismin, ismax). *)
Definition extremum (y : Z -> field) (span c2 : Z) : bool * bool :=
  let yc := element y c2 in
  fold_left (fun s i =>
    let i := Z.of_nat i in
    if 2 * i =? c2 then s else
    (fst s && negb (lt (y i) yc), snd s && negb (lt yc (y i))))
  (seq 0 (Z.to_nat span)) (true, true).

Inductive ampl_next := Next (s : ampl_state) | Exit (s : ampl_state).

Definition ampl_step (col span : Z) (xmin xmax : option K) (NR : Z) (r : record) (s : ampl_state) : ampl_next :=
  let i := Z.rem NR span in
  let y := update (ay s) i (dollar r col) in
  let x := update (ax s) i (dollar r 1) in
  let s := mkAmpl x y (smin s) (smax s) (nmin s) (nmax s) in
  if NR <? span then Next s else
  let c2 := centre2 NR span in
  let yc := element y c2 in
  let xc := element x c2 in
  if (match xmin with
      | Some m => lt xc (const m)
      | None => if isnum xc then false else slt (txt xc) minus_inf end) then Next s else
  if (match xmax with
      | Some m => lt (const m) xc
      | None => if isnum xc then false else slt plus_inf (txt xc) end) then Exit s else
  let (ismin, ismax) := extremum y span c2 in
  Next (mkAmpl x y
    (if ismin then smin s + num yc else smin s)%num
    (if ismax then smax s + num yc else smax s)%num
    (if ismin then nmin s + 1 else nmin s) (if ismax then nmax s + 1 else nmax s)).

Fixpoint ampl_loop (col span : Z) (xmin xmax : option K) (NR : Z) (rs : list record) (s : ampl_state) : ampl_state :=
  match rs with
  | [] => s
  | r :: rs =>
      match ampl_step col span xmin xmax NR r s with
      | Next s => ampl_loop col span xmin xmax (NR + 1) rs s
      | Exit s => s
      end
  end.
Definition ampl (col span : option Z) (xmin xmax : option K) (rs : list record) : option K :=
  let col := zvar col 2 in
  if (col <? 0) && negb (match rs with [] => true | _ => false end) then None else
  let s := ampl_loop col (zvar span 5) (kvar xmin) (kvar xmax) 1 rs ampl_start in
  let amax := if 0 <? nmax s then (smax s / nofZ (nmax s))%num else nofZ 0 in
  let amin := if 0 <? nmin s then (smin s / nofZ (nmin s))%num else nofZ 0 in
  Some (amax - amin)%num.

(** ** vvawk.zeros, 11-38 *)

(** [abs] of lines 17-19: compares as awk does, then takes the number. *)
Definition aabs (f : field) : K := if lt f (const (nofZ 0)) then (- num f)%num else num f.

Definition zeros_row (xmin xmax : option K) (xprev yprev xcurr ycurr : field) : list K :=
  let zero := const (nofZ 0) in
  if above xcurr xmin && below xcurr xmax then
    if (lt yprev zero && lt zero ycurr) || (lt zero yprev && lt ycurr zero) then
      [((num xcurr * aabs yprev + num xprev * aabs ycurr) / (aabs yprev + aabs ycurr))%num]
    else if eq ycurr zero then [num xcurr] else []
  else [].
Fixpoint zeros_loop (col : Z) (xmin xmax : option K) (xprev yprev : field) (rs : list record) : list K :=
  match rs with
  | [] => []
  | r :: rs =>
      zeros_row xmin xmax xprev yprev (dollar r 1) (dollar r col) ++
      zeros_loop col xmin xmax (dollar r 1) (dollar r col) rs
  end.
Definition zeros (col : option Z) (xmin xmax : option K) (rs : list record) : option (list K) :=
  let col := zvar col 2 in
  if (col <? 0) && negb (match rs with [] => true | _ => false end) then None else
  Some (zeros_loop col (kvar xmin) (kvar xmax) unset (const (nofZ 0)) rs).

(** ** vvawk.drv, 11-30 *)

Definition drv_line (col : Z) (div : K) (yprev : field) (r : record) : list cell :=
  texts r 1 (col - 1) ++ [Number ((num (dollar r col) - num yprev) / div)%num] ++
  texts r (col + 1) (NF r - col).
Fixpoint drv_loop (col : Z) (div : K) (yprev : field) (rs : list record) : list (list cell) :=
  match rs with
  | [] => []
  | r :: rs => drv_line col div yprev r :: drv_loop col div (dollar r col) rs
  end.
Definition drv (col : option Z) (div : option K) (rs : list record) : option (list (list cell)) :=
  let col := zvar col 2 in
  let div := match kvar div with Some d => d | None => nofZ 1 end in
  match rs with
  | [] => Some []
  | r :: rs => if col <? 0 then None else Some (drv_loop col div (dollar r col) rs)
  end.

End Awk.

Arguments mkField {K} _ _ _.
