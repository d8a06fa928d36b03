(** Model of [class Matrix], libvvhd/src/TMatrix.cpp. *)

From Coq Require Import ZArith Bool List.
From Verif.Base Require Import Int.
Import ListNotations.
Local Open Scope Z_scope.

(** The elements of the matrices are bit patterns of doubles: the class itself
    only copies, hashes and transposes them, LAPACK is a parameter. *)

(** * The hash, TMatrix.cpp:105-161 *)

(** Byte view of an array of doubles, little-endian. *)
Definition bytes_of_double (w : Z) : list Z :=
  map (fun k => (w / 256 ^ Z.of_nat k) mod 256) (seq 0 8).

(** [get16bits]. *)
Definition get16 (lo hi : Z) : Z := 256 * hi + lo.

Definition shl (h k : Z) : Z := u32 (Z.shiftl h k).

(** Lines 125-131, 4 bytes at a time. *)
Fixpoint hash_loop (h : Z) (l : list Z) : Z :=
  match l with
  | a :: b :: c :: d :: t =>
      let h := u32 (h + get16 a b) in
      let tmp := Z.lxor (shl (get16 c d) 11) h in
      let h := Z.lxor (shl h 16) tmp in
      hash_loop (u32 (h + Z.shiftr h 11)) t
  | _ => h
  end.

(** Lines 149-155. *)
Definition avalanche (h : Z) : Z :=
  let h := Z.lxor h (shl h 3) in
  let h := u32 (h + Z.shiftr h 5) in
  let h := Z.lxor h (shl h 4) in
  let h := u32 (h + Z.shiftr h 17) in
  let h := Z.lxor h (shl h 25) in
  u32 (h + Z.shiftr h 6).

(** The call of [SuperFastHash] on the sqr(N) doubles of BodyMatrix, line 228: the
    length is converted from [size_t] to [int].  The length is a multiple of 4,
    so the end cases of lines 134-146 are not taken. *)
Definition matrix_hash (N : Z) (m : list Z) : Z :=
  let len := i32 (N * N * 8) in
  if len <=? 0 then 0                                          (* line 119 *)
  else avalanche (hash_loop len (firstn (Z.to_nat len) (flat_map bytes_of_double m))).

(** * Transposition, TMatrix.cpp:254-267 *)

Definition array := nat -> Z.
Definition upd (A : array) (k : nat) (v : Z) : array := fun i => if Nat.eqb i k then v else A i.

(** Lines 261-263. *)
Definition swap (N : nat) (A : array) (p : nat * nat) : array :=
  let '(i, j) := p in
  let tmp := A (i * N + j)%nat in
  let A := upd A (i * N + j) (A (j * N + i)%nat) in
  upd A (j * N + i) tmp.

(** Lines 257-259: the iterations in sequential order. *)
Definition pairs (N : nat) : list (nat * nat) :=
  flat_map (fun i => map (fun j => (i, j)) (seq (S i) (N - S i))) (seq 0 N).

(** The rows [i] are shared out to threads; [order] is the order in which the
    swaps happen. *)
Definition transpose_in (order : list (nat * nat)) (N : nat) (A : array) : array :=
  fold_left (swap N) order A.
Definition transpose (N : nat) (A : array) : array := transpose_in (pairs N) N A.

(** * Solution slots, TMatrix.cpp:71-76,84-103 *)

(** Pointers are numbers, 0 is the null pointer.  [idx] is a [std::map]. *)
Record slots := mkSlots { ptrs : list Z; idx : list (Z * Z) }.

Definition erase (p : Z) (m : list (Z * Z)) : list (Z * Z) := filter (fun e => negb (fst e =? p)) m.
Fixpoint find (p : Z) (m : list (Z * Z)) : option Z :=
  match m with
  | [] => None
  | (q, c) :: t => if q =? p then Some c else find p t
  end.
Fixpoint set_nth (l : list Z) (k : nat) (v : Z) : list Z :=
  match l, k with
  | [], _ => []
  | _ :: t, O => v :: t
  | x :: t, S k => x :: set_nth t k v
  end.

Inductive outcome (A : Type) :=
| Ok (a : A)
| Exit (code : Z)        (* exit() with a message *)
| Undefined.             (* access outside a vector *)
Arguments Ok {A} _. Arguments Exit {A} _. Arguments Undefined {A}.

(** Line 49, [solution_ptr.resize(N)]: new elements are null. *)
Definition resize_slots (n : nat) (s : slots) : slots :=
  mkSlots (firstn n (ptrs s) ++ repeat 0 (n - length (ptrs s))) (idx s).

(** Lines 84-89. *)
Definition set_solution (s : slots) (col : nat) (p : Z) : outcome slots :=
  match nth_error (ptrs s) col with
  | None => Undefined
  | Some old => Ok (mkSlots (set_nth (ptrs s) col p) ((p, Z.of_nat col) :: erase p (erase old (idx s))))
  end.

(** Lines 96-100: [unsigned(-1)] when absent. *)
Definition get_col (s : slots) (p : Z) : Z :=
  match find p (idx s) with Some c => c | None => u32 (-1) end.

(** Lines 54-63: the index of the cell. *)
Definition get_cell (N : Z) (s : slots) (row p : Z) : outcome Z :=
  let col := get_col s p in
  if (N <=? row) || (N <=? col) then Exit 3 else Ok (row * N + col).

(** Lines 102-114. *)
Definition self_test (N : Z) (s : slots) : bool :=
  forallb (fun e : Z * Z => (snd e <? N) &&
    match nth_error (ptrs s) (Z.to_nat (snd e)) with
    | Some p => p =? fst e
    | None => false
    end) (idx s).

(** * Solving, TMatrix.cpp:40-52,163-252,283-288 *)

Section Solver.

(** dgetrf+dgetri on a copy of the matrix: [None] when [info] is not 0. *)
Variable inverse_of : list Z -> option (list Z).
(** What dgetri leaves in its work array, which is [BodyMatrix]. *)
Variable work : list Z -> list Z.
(** cblas_dgemv with the stored inverse. *)
Variable times : list Z -> list Z -> list Z.
(** dgesv on a column-major matrix: the solution and what is left of the matrix. *)
Variable gesv : list Z -> list Z -> option (list Z * list Z).

Record matrix := mkMatrix {
  size : nat;
  body : list Z; inverse : list Z; right : list Z;
  slots_ : slots;
  hash_ : Z; ok_ : bool
}.

Definition new : matrix := mkMatrix 0 [] [] [] (mkSlots [] []) 0 false.

(** Lines 40-52.  [realloc] keeps a common prefix; the rest is [junk]. *)
Definition realloc (n : nat) (l junk : list Z) : list Z :=
  firstn n l ++ firstn (n - length l) (junk ++ repeat 0 n).

Definition resize (n : nat) (junk : list Z) (M : matrix) : matrix :=
  if Nat.eqb n (size M) then M
  else mkMatrix n (realloc (n * n) (body M) junk) (realloc (n * n) (inverse M) junk)
         (realloc n (right M) junk) (resize_slots n (slots_ M)) (hash_ M) false.

(** [fillWithZeros], the writes through [getCell]/[getRightCol] and
    [markBodyMatrixAsFilled], MConvectiveFast.cpp:888-1004, in one step: the
    matrix [m] and right side [r] that are written. *)
Definition fill (m r : list Z) (M : matrix) : matrix :=
  mkMatrix (size M) m (inverse M) r (slots_ M) (hash_ M) true.
(** The same with [rightColOnly]. *)
Definition fill_right (r : list Z) (M : matrix) : matrix :=
  mkMatrix (size M) (body M) (inverse M) r (slots_ M) (hash_ M) (ok_ M).

(** Lines 220-252. *)
Definition fill_inverse (M : matrix) : outcome matrix :=
  if negb (ok_ M) then Exit (-2)
  else
    let h := matrix_hash (Z.of_nat (size M)) (body M) in
    if h =? hash_ M then Ok M
    else match inverse_of (body M) with
         | None => Exit (-2)
         | Some i => Ok (mkMatrix (size M) (work (body M)) i (right M) (slots_ M) h false)
         end.

Definition tabulate (n : nat) (A : array) : list Z := map A (seq 0 n).

(** Lines 163-218: the new state and the solution written to the slots. *)
Definition solve (use_inverse : bool) (M : matrix) : outcome (matrix * list Z) :=
  if negb (self_test (Z.of_nat (size M)) (slots_ M)) then Exit 4
  else if use_inverse then
    match fill_inverse M with
    | Ok M' => Ok (M', times (inverse M') (right M'))
    | Exit c => Exit c
    | Undefined => Undefined
    end
  else if negb (ok_ M) then Exit (-2)
  else
    let t := tabulate (size M * size M) (transpose (size M) (fun k => nth k (body M) 0)) in
    match gesv t (right M) with
    | None => Exit (-2)
    | Some (x, rest) => Ok (mkMatrix (size M) rest (inverse M) x (slots_ M) (hash_ M) false, x)
    end.

(** A history of calls; [Solve] answers with the solution. *)
Inductive op :=
| Resize (n : nat) (junk : list Z)
| Fill (m r : list Z)
| FillRight (r : list Z)
| Set_ (col : nat) (p : Z)
| Solve (use_inverse : bool).

Definition step (M : matrix) (o : op) : outcome (matrix * option (list Z)) :=
  match o with
  | Resize n junk => Ok (resize n junk M, None)
  | Fill m r => Ok (fill m r M, None)
  | FillRight r => Ok (fill_right r M, None)
  | Set_ c p =>
      match set_solution (slots_ M) c p with
      | Ok s => Ok (mkMatrix (size M) (body M) (inverse M) (right M) s (hash_ M) (ok_ M), None)
      | Exit k => Exit k
      | Undefined => Undefined
      end
  | Solve u =>
      match solve u M with
      | Ok (M', x) => Ok (M', Some x)
      | Exit k => Exit k
      | Undefined => Undefined
      end
  end.

Fixpoint run (M : matrix) (l : list op) : outcome matrix :=
  match l with
  | [] => Ok M
  | o :: t => match step M o with
              | Ok (M', _) => run M' t
              | Exit c => Exit c
              | Undefined => Undefined
              end
  end.

End Solver.
