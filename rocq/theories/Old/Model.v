(** Model of the files other than HDF5: [Space::load_v13]
    (libvvhd/src/TSpace_load_v13.cpp), [load_list_txt] and [load_list_bin]
    (libvvhd/src/TSpace.cpp:146-175) with their callers in
    utils/vvflow/lua_objlist.cpp:31-47, and utils/vvflow/sensors.cpp.

    A file is the list of its bytes, a member that is filled by [fread] the list
    of its bytes too.  As in the C library of the system a read that meets the
    end of the file leaves the bytes it got in the variable and the others as
    they were.  Reading an indeterminate value is [Undefined].  Memory for
    the lists is unbounded.  The members computed from the corners of a body
    (doUpdateSegments, doFillProperties) are left out, they are in Body. *)

From Coq Require Import ZArith Bool List Arith Ascii String.
Import ListNotations.
Local Open Scope Z_scope.

Definition bytes := list Z.
Inductive outcome (A : Type) := Done (a : A) | Exit | Throw | Undefined.
Arguments Done {A}. Arguments Exit {A}. Arguments Throw {A}. Arguments Undefined {A}.

(** * Numbers and texts in memory (little endian, two's complement) *)

Fixpoint unsigned (l : bytes) : Z := match l with [] => 0 | b :: l => b + 256 * unsigned l end.
Definition int64 (l : bytes) : Z := let n := unsigned l in if n <? 2 ^ 63 then n else n - 2 ^ 64.
Definition int32 (l : bytes) : Z := let n := unsigned l in if n <? 2 ^ 31 then n else n - 2 ^ 32.
Definition char (c : ascii) : Z := Z.of_nat (nat_of_ascii c).
Definition chars (s : string) : bytes := map char (list_ascii_of_string s).
Fixpoint has_nul (l : bytes) : bool := match l with [] => false | b :: l => (b =? 0) || has_nul l end.
Fixpoint c_str (l : bytes) : bytes := match l with [] => [] | b :: l => if b =? 0 then [] else b :: c_str l end.
Definition zeros (n : nat) : bytes := repeat 0 n.

(** * What is loaded *)

(** TSpace.hpp:23-36, in the order of the file. *)
Record head := mkHead {
  caption : bytes; time : bytes; dt : bytes; dt_save : bytes; dt_streak : bytes; dt_profile : bytes;
  re : bytes; pr : bytes; inf_marker : bytes; inf_vx : bytes; inf_vy : bytes; inf_g : bytes; gravity : bytes; finish : bytes }.
Inductive bc := Steady | Kutta.                           (* TBody.hpp:14 *)
Inductive hc := Neglect | Isolate | ConstT | ConstW.      (* TBody.hpp:15 *)
(** TBody.hpp:17-55; slip of a segment. *)
Record att := mkAtt { corner : bytes; ag : bytes; gsum : bytes; heat_const : bytes; slip : bool }.
(** TBody.hpp:57-107. *)
Record body := mkBody {
  holder : bytes; dpos : bytes; speed_x : bytes; speed_y : bytes; speed_o : bytes; speed_slae : bytes; speed_slae_prev : bytes;
  kspring : bytes; density : bytes; force_hydro : bytes; fdt_dead : bytes; friction_prev : bytes;
  boundary : bc; heating : hc; special : Z; alist : list att }.
(** An object is its place and strength: the first 24 bytes, TObj.hpp:13-14. *)
Record space := mkSpace {
  heading : head; bodies : list body; vortices : list bytes; heats : list bytes; streak_sources : list bytes; streaks : list bytes }.

(** * Reading *)

Section V13.
Variable file : bytes.
Variable stack : Z.                 (* bytes an array may have on the stack *)
Variable accepts : bytes -> bool.   (* TEval's opinion of a text *)
Variable to_float : bytes -> bytes. (* conversion of double to float *)
Variable body0 : body.              (* TBody::TBody *)

(** [fread] of [n] bytes at [pos]: what there is. *)
Definition there (pos n : nat) : bytes := firstn n (skipn pos file).
Definition over (old new : bytes) : bytes := new ++ skipn (List.length new) old.

(** A reader has a position in the file. *)
Definition reader (A : Type) := nat -> outcome (A * nat).
Definition ret {A} (a : A) : reader A := fun pos => Done (a, pos).
Definition bind {A B} (m : reader A) (f : A -> reader B) : reader B := fun pos =>
  match m pos with Done (a, pos') => f a pos' | Exit => Exit | Throw => Throw | Undefined => Undefined end.
Notation "a <- m ;; k" := (bind m (fun a => k)) (at level 61, m at next level, right associativity).

(** Into a variable that has a value, and into one that has none yet. *)
Definition into (old : bytes) (n : nat) : reader bytes := fun pos =>
  let new := there pos n in Done (over old new, (pos + List.length new)%nat).
Definition fresh (n : nat) : reader bytes := fun pos =>
  let new := there pos n in
  if (List.length new <? n)%nat then Undefined else Done (new, (pos + List.length new)%nat).

(** 12-22. *)
Fixpoint objects (n : nat) (obj : bytes) : reader (list bytes) :=
  match n with
  | O => ret []
  | S n => o <- into obj 24 ;; l <- objects n o ;; ret (o :: l)
  end.
Definition load_list (list : list bytes) : reader (List.list bytes) :=
  size <- fresh 8 ;; l <- objects (Z.to_nat (int64 size)) (zeros 24) ;; ret (list ++ l).

(** 24-32.  A text that is not complete and has no end is indeterminate. *)
Definition script : reader bytes :=
  b <- fresh 4 ;;
  let len := int32 b in
  if (len <? 0) || (stack <? len) then fun _ => Undefined
  else fun pos =>
    let s := there pos (Z.to_nat len) in
    if (Z.of_nat (List.length s) <? len) && negb (has_nul s) then Undefined
    else if accepts (c_str s) then Done (c_str s, (pos + List.length s)%nat) else Throw.

(** 3-10, 52-57: the version. *)
Fixpoint agree (a b : bytes) : bool :=
  match a, b with x :: a, y :: b => (x =? y) && agree a b | _, _ => true end.
Definition version : reader unit := fun pos =>
  let v := there pos 8 in
  if agree v (chars "v: 1.3  ") then if (List.length v <? 8)%nat then Undefined else Done (tt, (pos + 8)%nat) else Exit.
(** 59-61. *)
Definition name : reader bytes := fun pos =>
  let s := there pos 64 in if has_nul s then Done (c_str s, (pos + List.length s)%nat) else Undefined.

(** 50-77; the last eight bytes are not used. *)
Definition header (h : head) : reader head :=
  _ <- version ;; n <- name ;;
  t <- into (time h) 8 ;; d <- into (dt h) 8 ;; ds <- into (dt_save h) 8 ;; dk <- into (dt_streak h) 8 ;; dp <- into (dt_profile h) 8 ;;
  e <- into (re h) 8 ;; p <- into (pr h) 8 ;; m <- into (inf_marker h) 16 ;; vx <- script ;; vy <- script ;;
  g <- into (inf_g h) 8 ;; gr <- into (gravity h) 16 ;; f <- into (finish h) 8 ;;
  ret (mkHead n t d ds dk dp e p m vx vy g gr f).

(** 82-102. *)
Definition body_data : reader body :=
  h <- into (holder body0) 24 ;; d <- into (dpos body0) 24 ;; sx <- script ;; sy <- script ;; so <- script ;;
  s <- into (speed_slae body0) 24 ;; sp <- into (speed_slae_prev body0) 24 ;;
  k <- into (kspring body0) 24 ;; de <- into (density body0) 8 ;;
  f <- into (force_hydro body0) 24 ;; fd <- into (fdt_dead body0) 24 ;; fp <- into (friction_prev body0) 24 ;;
  ret (mkBody h d sx sy so s sp k de f fd fp (boundary body0) (heating body0) (special body0) (alist body0)).

(** 103-138: [a] is the variable att, [b] the body. *)
Definition bc_of (n : Z) (old : bc) : bc :=
  if (n =? char "s") || (n =? char "i") then Steady else if n =? char "z" then Kutta else old.
Definition hc_of (n : Z) (old : hc) : hc :=
  if n =? char "n" then Neglect else if n =? char "i" then Isolate else if n =? char "t" then ConstT
  else if n =? char "w" then ConstW else old.
Fixpoint segments (n : nat) (a : att) (b : body) : reader body :=
  match n with
  | O => ret b
  | S n =>
    c <- into (corner a) 16 ;; g <- into (ag a) 8 ;; bcond <- fresh 8 ;; hcond <- fresh 8 ;; hconst <- fresh 8 ;; gs <- into (gsum a) 8 ;;
    let bn := int64 bcond in
    let wall := (bn =? char "l") || (bn =? char "n") in
    let a := mkAtt c g gs (to_float hconst) (if wall then bn =? char "l" else slip a) in
    segments n a (mkBody (holder b) (dpos b) (speed_x b) (speed_y b) (speed_o b) (speed_slae b) (speed_slae_prev b)
      (kspring b) (density b) (force_hydro b) (fdt_dead b) (friction_prev b)
      (if wall then boundary b else bc_of bn (boundary b)) (hc_of (int64 hcond) (heating b)) (special b) (alist b ++ [a]))
  end.
Definition att0 : att := mkAtt (zeros 16) (zeros 8) (zeros 8) (zeros 4) false.
Definition body_list (b : body) : reader body :=
  size <- fresh 8 ;; segments (Z.to_nat (int64 size)) att0 b.

(** 50-145: one section, by its name. *)
Definition same (a : bytes) (s : string) : bool := if list_eq_dec Z.eq_dec a (chars s) then true else false.
Definition section (tag : bytes) (S : space) : reader space :=
  if same tag "Header  " then h <- header (heading S) ;; ret (mkSpace h (bodies S) (vortices S) (heats S) (streak_sources S) (streaks S))
  else if same tag "Vortexes" then l <- load_list (vortices S) ;; ret (mkSpace (heading S) (bodies S) l (heats S) (streak_sources S) (streaks S))
  else if same tag "Heat    " then l <- load_list (heats S) ;; ret (mkSpace (heading S) (bodies S) (vortices S) l (streak_sources S) (streaks S))
  else if same tag "StrkSrc " then l <- load_list (streak_sources S) ;; ret (mkSpace (heading S) (bodies S) (vortices S) (heats S) l (streaks S))
  else if same tag "Streak  " then l <- load_list (streaks S) ;; ret (mkSpace (heading S) (bodies S) (vortices S) (heats S) (streak_sources S) l)
  else if same tag "BData   " then b <- body_data ;; ret (mkSpace (heading S) (bodies S ++ [b]) (vortices S) (heats S) (streak_sources S) (streaks S))
  else if same tag "Body    " then
    match rev (bodies S) with
    | [] => fun _ => Undefined                                                            (* 105 *)
    | b :: before => b <- body_list b ;; ret (mkSpace (heading S) (rev before ++ [b]) (vortices S) (heats S) (streak_sources S) (streaks S))
    end
  else fun _ => Exit.                                                                     (* 142-145 *)

(** 40-146: the entries from [i] on; [tmp] and [comment] keep what they have when
    the file is too short. *)
Fixpoint entries (n i : nat) (tmp comment : bytes) (S : space) : outcome space :=
  match n with
  | O => Done S
  | S n =>
    let t := there (i * 16) 8 in
    let tmp := over tmp t in
    let pos := (i * 16 + List.length t)%nat in
    let c := there pos 8 in
    let comment := over comment c in
    if int64 tmp =? 0 then entries n (i + 1) tmp comment S
    else
      let pos := if int64 tmp <? 0 then (pos + List.length c)%nat else Z.to_nat (int64 tmp) in   (* fseek fails *)
      match section comment S pos with
      | Done (S', _) => entries n (i + 1) tmp comment S'
      | Exit => Exit | Throw => Throw | Undefined => Undefined
      end
  end.
Definition load_v13 (S : space) : outcome space := entries 64 0 (zeros 8) (zeros 8) S.
End V13.
(** 36-37: a missing file is reported on the standard error only. *)
Definition load_old (file : option bytes) stack accepts to_float body0 (S : space) : outcome space :=
  match file with None => Done S | Some f => load_v13 f stack accepts to_float body0 S end.

(** * Lists of objects *)

(** TSpace.cpp:161-175; the result is what the function returns, errno is 2 for a
    missing file.  lua_objlist.cpp:42-47 does not look at it. *)
Fixpoint records (n : nat) (file : bytes) : list bytes :=
  match n with
  | O => []
  | S n => if (List.length file <? 24)%nat then [] else firstn 24 file :: records n (skipn 24 file)
  end.
Definition load_list_bin (file : option bytes) (l : list bytes) : Z * list bytes :=
  match file with
  | None => (2, l)
  | Some f => (0, l ++ records (List.length f) f)
  end.
Definition lua_load_bin (file : option bytes) (l : list bytes) : outcome (list bytes) :=
  Done (snd (load_list_bin file l)).

(** What [fscanf "%lf"] meets in a text: a number or something else. *)
Inductive item (A : Type) := Number (a : A) | Word.
Arguments Number {A}. Arguments Word {A}.
Fixpoint triples {A} (text : list (item A)) : list (A * A * A) :=
  match text with
  | Number a :: Number b :: Number c :: text => (a, b, c) :: triples text
  | _ => []
  end.
(** TSpace.cpp:146-159. *)
Definition load_list_txt {A} (file : option (list (item A))) (l : list (A * A * A)) : Z * list (A * A * A) :=
  match file with
  | None => (2, l)
  | Some t => (0, l ++ triples t)
  end.
(** lua_objlist.cpp:32-40. *)
Definition lua_load_txt {A} (file : option (list (item A))) (l : list (A * A * A)) : outcome (list (A * A * A)) :=
  let '(err, l) := load_list_txt file l in if err =? 0 then Done l else Throw.

(** * Sensors, sensors.cpp *)

(** 42-56. *)
Fixpoint pairs {A} (text : list (item A)) : list (A * A) :=
  match text with
  | Number a :: Number b :: text => (a, b) :: pairs text
  | _ => []
  end.
Definition load_sensors {A} (file : option (list (item A))) : list (A * A) :=
  match file with None => [] | Some t => pairs t end.
(** 58-70: what one call adds to the output, nothing without sensors (33, 60);
    that the output cannot be opened is left out. *)
Definition sensor_row {A B} (show : A -> B) (velocity : A * A -> A * A) (sensors : list (A * A)) (t : A) : list (list B) :=
  match sensors with
  | [] => []
  | _ => [show t :: flat_map (fun p => let v := velocity p in [show (fst v); show (snd v)]) sensors]
  end.
(** vvflow.cpp:214-266: the output after the steps from [first] on, behind what was
    in the file, which is opened for appending (33). *)
Definition sensor_output {A B} (show : A -> B) (velocity : nat -> A * A -> A * A) (time : nat -> A)
    (sensors : list (A * A)) (first steps : nat) (before : list (list B)) : list (list B) :=
  before ++ flat_map (fun n => sensor_row show (velocity n) sensors (time n)) (seq first steps).
