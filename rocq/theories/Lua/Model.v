(** Model of the lists a script works with: the body list with its shared
    ownership (utils/vvflow/lua_bodylist.cpp, lua_tbody.cpp) and the object
    lists with references into their storage (lua_objlist.cpp, lua_tobj.cpp).
    Lua itself is not modelled: a script is the sequence of calls it makes. *)

From Coq Require Import List ZArith Bool Arith String.
From Verif Require Import Base.Int.
Import ListNotations.

(** * Bodies *)

(** A body is named by the number of its creation, which stands for its
    address.  [handles] are the Lua userdata created by [pushTBody]
    (lua_tbody.cpp:297-304), oldest first, [None] once collected.  [uses] is
    the counter of the [shared_ptr] control block, [root] the weak pointer
    [root_body] of each body, [made] the number of bodies made so far. *)
Record world := mkWorld {
  blist : list nat;
  handles : list (option nat);
  uses : nat -> nat;
  root : nat -> option nat;
  made : nat }.

(** What a call gives back to Lua.  [LuaError] leaves the C function by
    [longjmp], [Undefined] is undefined behaviour. *)
Inductive result :=
| Nothing | Nil | Number (z : Z) | Boolean (b : bool)
| Handle (h : nat) | Pair (z : Z) (h : nat)
| LuaError (message : string) | Undefined.

(** One more, one less [shared_ptr] to the body. *)
Definition inc (u : nat -> nat) (b : nat) : nat -> nat :=
  fun c => if c =? b then S (u c) else u c.
Definition dec (u : nat -> nat) (b : nat) : nat -> nat :=
  fun c => if c =? b then pred (u c) else u c.

Definition with_uses (u : nat -> nat) (w : world) : world :=
  mkWorld (blist w) (handles w) u (root w) (made w).
Definition with_blist (l : list nat) (w : world) : world :=
  mkWorld l (handles w) (uses w) (root w) (made w).

(** A copy of a [shared_ptr] is made, a [shared_ptr] is destroyed. *)
Definition take (b : nat) (w : world) : world := with_uses (inc (uses w) b) w.
Definition drop (b : nat) (w : world) : world := with_uses (dec (uses w) b) w.

(** lua_tbody.cpp:297-304, [pushTBody]: the userdata holds a copy. *)
Definition push_body (b : nat) (w : world) : world :=
  let w := take b w in
  mkWorld (blist w) (handles w ++ [Some b]) (uses w) (root w) (made w).

(** lua_tbody.cpp:306-310, [checkTBody]: the argument must be a live TBody. *)
Definition check (w : world) (h : nat) : option nat :=
  match nth_error (handles w) h with Some (Some b) => Some b | _ => None end.

Definition not_body : result := LuaError "TBody expected".

(** lua_tbody.cpp:315,322 (and the generators): [make_shared], [pushTBody],
    end of the local variable.  A fresh body has no root. *)
Definition new_body (w : world) : world * result :=
  let b := made w in
  let w := mkWorld (blist w) (handles w) (inc (uses w) b)
             (fun c => if c =? b then None else root w c) (S b) in
  let h := List.length (handles w) in
  (drop b (push_body b w), Handle h).

(** lua_bodylist.cpp:11-23, [bodylist_insert]. *)
Definition insert (h : nat) (w : world) : world * result :=
  match check w h with
  | None => (w, not_body)
  | Some b =>
      let w := take b w in
      if existsb (Nat.eqb b) (blist w)
      then (drop b w, LuaError "can not insert the body twice")
      else
        let w := take b (with_blist (blist w ++ [b]) w) in
        (drop b w, Nothing)
  end.

(** The loop of lua_bodylist.cpp:28-33: the list without its first element
    equal to [b]; [None] when the loop runs off the end. *)
Fixpoint without (b : nat) (l : list nat) : option (list nat) :=
  match l with
  | [] => None
  | c :: l =>
      if c =? b then Some l
      else match without b l with Some l => Some (c :: l) | None => None end
  end.

(** lua_bodylist.cpp:25-36, [bodylist_erase]. *)
Definition erase (h : nat) (w : world) : world * result :=
  match check w h with
  | None => (w, not_body)
  | Some b =>
      let w := take b w in
      match without b (blist w) with
      | Some l => (drop b (drop b (with_blist l w)), Nothing)
      | None => (drop b w, LuaError "the body is not in list")
      end
  end.

(** lua_bodylist.cpp:38-42, [bodylist_clear]. *)
Definition clear (w : world) : world * result :=
  (with_blist [] (fold_left (fun w b => drop b w) (blist w) w), Nothing).

(** lua_bodylist.cpp:44-48, [bodylist_getlen]. *)
Definition getlen (w : world) : world * result :=
  (w, Number (Z.of_nat (List.length (blist w)))).

(** lua_bodylist.cpp:62-81, [bodylist_getindex] with a number: [k] is
    [lua_tointeger], which in Lua 5.2 cuts off a fraction (a number outside 64
    bits, where the cast is undefined, is no [k] here). *)
Definition getindex (k : Z) (w : world) : world * result :=
  if (k =? - 2 ^ 63)%Z then (w, Undefined)
  else
    let idx := (k - 1)%Z in
    if ((0 <=? idx) && (idx <? Z.of_nat (List.length (blist w))))%Z%bool
    then match nth_error (blist w) (Z.to_nat idx) with
         | Some b => (push_body b w, Handle (List.length (handles w)))
         | None => (w, Undefined)
         end
    else (w, Nil).

(** lua_bodylist.cpp:84-96, [bodylist_getnext]: the position is cut to an
    [int] and compared with [size()] as an unsigned number. *)
Definition getnext (k : Z) (w : world) : world * result :=
  let idx := i32 k in
  if (Z.of_nat (List.length (blist w)) <=? idx mod 2 ^ 64)%Z then (w, Nil)
  else if (idx =? 2 ^ 31 - 1)%Z then (w, Undefined)
  else match nth_error (blist w) (Z.to_nat idx) with
       | Some b => (push_body b w, Pair (idx + 1) (List.length (handles w)))
       | None => (w, LuaError "vector::_M_range_check")
       end.

(** The value assigned to [body.root]: nil, a userdata, anything else. *)
Inductive root_arg := RNil | RBody (h : nat) | RBad.

(** lua_tbody.cpp:227-246 and 40-50: [body.root = r].  The local copy of
    [tbody_newindex] is released before the setter is called. *)
Definition set_root (h : nat) (r : root_arg) (w : world) : world * result :=
  match check w h with
  | None => (w, not_body)
  | Some b =>
      let w := drop b (take b w) in
      let put r w := mkWorld (blist w) (handles w) (uses w)
                       (fun c => if c =? b then r else root w c) (made w) in
      match r with
      | RNil => (put None w, Nothing)
      | RBad => (w, not_body)
      | RBody h' =>
          match check w h' with
          | None => (w, not_body)
          | Some b' => (drop b' (put (Some b') (take b' w)), Nothing)
          end
      end
  end.

(** lua_tbody.cpp:248-259 and 52-62: [body.root]; a weak pointer is expired
    when nobody holds the body any more. *)
Definition get_root (h : nat) (w : world) : world * result :=
  match check w h with
  | None => (w, not_body)
  | Some b =>
      let w := drop b (take b w) in
      match root w b with
      | None => (w, Nil)
      | Some r =>
          if uses w r =? 0 then (w, Nil)
          else (drop r (push_body r (take r w)), Handle (List.length (handles w)))
      end
  end.

(** lua_tbody.cpp:156-163, [tbody_eq]. *)
Definition eq_body (h h' : nat) (w : world) : world * result :=
  match check w h, check w h' with
  | Some b, Some b' => (w, Boolean (b =? b'))
  | _, _ => (w, not_body)
  end.

(** lua_tbody.cpp:148-154, [tbody_gc]: Lua calls it once per userdata, when
    nothing in the script refers to it. *)
Definition collect (h : nat) (w : world) : world * result :=
  match check w h with
  | None => (w, Nothing)
  | Some b =>
      let hs := firstn h (handles w) ++ None :: skipn (S h) (handles w) in
      (drop b (mkWorld (blist w) hs (uses w) (root w) (made w)), Nothing)
  end.

(** The other members and methods (lua_tbody.cpp:64-146, 227-277) hold a local
    copy while they work on the body. *)
Definition touch (h : nat) (w : world) : world * result :=
  match check w h with
  | None => (w, not_body)
  | Some b => (drop b (take b w), Nothing)
  end.

(** One call of a script. *)
Inductive call :=
| New | Insert (h : nat) | Erase (h : nat) | Clear | Len
| Index (k : Z) | Next (k : Z)
| SetRoot (h : nat) (r : root_arg) | GetRoot (h : nat)
| Same (h h' : nat) | Touch (h : nat) | Collect (h : nat).

Definition step (c : call) (w : world) : world * result :=
  match c with
  | New => new_body w
  | Insert h => insert h w
  | Erase h => erase h w
  | Clear => clear w
  | Len => getlen w
  | Index k => getindex k w
  | Next k => getnext k w
  | SetRoot h r => set_root h r w
  | GetRoot h => get_root h w
  | Same h h' => eq_body h h' w
  | Touch h => touch h w
  | Collect h => collect h w
  end.

(** The world before the script runs (lua_space.cpp:131-140). *)
Definition start : world :=
  mkWorld [] [] (fun _ => 0) (fun _ => None) 0.

Definition run (cs : list call) (w : world) : world :=
  fold_left (fun w c => fst (step c w)) cs w.

(** lua_bodylist.cpp:98-103: [for i, b in ipairs(S.body_list) do ... end], the
    loop body being the calls [act] makes for a position and a handle.  Gives
    the positions and bodies visited and the world after the loop; [None] when
    the fuel runs out or [getnext] fails. *)
Fixpoint ipairs (fuel : nat) (act : Z -> nat -> list call) (k : Z) (w : world)
  : option (list (Z * nat) * world) :=
  match fuel with
  | O => None
  | S fuel =>
      match getnext k w with
      | (w, Nil) => Some ([], w)
      | (w, Pair i h) =>
          match check w h with
          | None => None
          | Some b =>
              match ipairs fuel act i (run (act i h) w) with
              | Some (seen, w) => Some ((i, b) :: seen, w)
              | None => None
              end
          end
      | _ => None
      end
  end.

(** * Lists of objects *)

Section Objects.
Context {A : Type}.

(** A [std::vector<TObj>]: its elements, its capacity and the block of memory
    it lives in, numbered by allocation. *)
Record vec := mkVec { items : list A; cap : nat; block : nat }.

(** A TObj userdata is a pointer into a block (lua_tobj.cpp:83-88). *)
Record ref := mkRef { in_block : nat; at_pos : nat }.

(** Reading through such a pointer: [None] (undefined behaviour) when the
    block was freed or nothing lives at the place. *)
Definition deref (v : vec) (r : ref) : option A :=
  if in_block r =? block v then nth_error (items v) (at_pos r) else None.

(** The growth policy of the library: how much to allocate when full. *)
Variable grow : nat -> nat.

Definition push_back (v : vec) (a : A) : vec :=
  if List.length (items v) <? cap v
  then mkVec (items v ++ [a]) (cap v) (block v)
  else mkVec (items v ++ [a]) (grow (List.length (items v))) (S (block v)).

(** An argument of [append]: a table of three numbers (lua_tobj.cpp:101-121),
    a TObj (122-129), or something else. *)
Inductive arg := Table (a : A) | Obj (r : ref) | Bad.

Inductive status := Ok | ArgError (i : nat) | Ub.

(** lua_objlist.cpp:11-24, [objlist_append]; [i] is the number of the next
    argument. *)
Fixpoint append_from (i : nat) (args : list arg) (v : vec) : status * vec :=
  match args with
  | [] => (Ok, v)
  | Table a :: args => append_from (S i) args (push_back v a)
  | Obj r :: args =>
      match deref v r with
      | Some a => append_from (S i) args (push_back v a)
      | None => (Ub, v)
      end
  | Bad :: _ => (ArgError i, v)
  end.

Definition append (args : list arg) (v : vec) : status * vec := append_from 2 args v.

(** lua_objlist.cpp:26-30, [objlist_clear]: the block stays. *)
Definition oclear (v : vec) : vec := mkVec [] (cap v) (block v).

(** lua_objlist.cpp:86-94, [objlist_getindex] with a number. *)
Definition oindex (k : Z) (v : vec) : option ref :=
  let idx := (k - 1)%Z in
  if ((0 <=? idx) && (idx <? Z.of_nat (List.length (items v))))%Z%bool
  then Some (mkRef (block v) (Z.to_nat idx)) else None.

(** lua_objlist.cpp:55-63, [objlist_totable]. *)
Definition ototable (v : vec) : list ref :=
  map (mkRef (block v)) (seq 0 (List.length (items v))).

(** lua_tobj.cpp:25-43: an assignment [obj.r = ...] changes the element the
    pointer leads to. *)
Definition oassign (r : ref) (f : A -> A) (v : vec) : status * vec :=
  match deref v r with
  | None => (Ub, v)
  | Some a =>
      (Ok, mkVec (firstn (at_pos r) (items v) ++ f a :: skipn (S (at_pos r)) (items v))
                 (cap v) (block v))
  end.

Inductive ocall := OAppend (args : list arg) | OClear | OAssign (r : ref) (f : A -> A).

Definition ostep (c : ocall) (v : vec) : status * vec :=
  match c with
  | OAppend args => append args v
  | OClear => (Ok, oclear v)
  | OAssign r f => oassign r f v
  end.

(** A script goes on after an error it catches, but not after undefined
    behaviour. *)
Fixpoint orun (cs : list ocall) (v : vec) : option vec :=
  match cs with
  | [] => Some v
  | c :: cs =>
      match ostep c v with
      | (Ub, _) => None
      | (_, v) => orun cs v
      end
  end.

End Objects.
Arguments vec : clear implicits.
Arguments arg : clear implicits.
Arguments ocall : clear implicits.
