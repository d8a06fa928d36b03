(** Properties C18, C19, C51: the linear system. *)

From Coq Require Import ZArith Bool List Lia Permutation Arith.
From Verif.Base Require Import Int.
From Verif.Matrix Require Import Model Spec Proofs.
Import ListNotations.
Local Open Scope Z_scope.

Lemma slot_start : slot_inv (slots_ new) (fun _ => None) (size new) (fun _ => None).
Proof.
  split; [reflexivity|]. split; [intros c H; congruence|]. split; [intros c H; cbn in H; lia|].
  split; discriminate.
Qed.

(** * C18 *)

(** As long as no variable is assigned to a column while another column still
    holds it, every variable held by a column is found there, that column is the
    one it was last assigned to, and its cells are inside the matrix.  Missing:
    the other histories, which fail (next theorem). *)
Theorem C18_found_again_partial : forall inverse_of work times gesv ops M,
  run inverse_of work times gesv new ops = Ok M -> fresh ops ->
  forall c p, fst (col_run ops) c = Some p ->
  last_col None p ops = Some c /\ get_col (slots_ M) p = Z.of_nat c /\
  forall row, 0 <= row < Z.of_nat (size M) ->
    get_cell (Z.of_nat (size M)) (slots_ M) row p = Ok (row * Z.of_nat (size M) + Z.of_nat c).
Proof.
  intros inverse_of work times gesv ops M HR HF c p HC.
  destruct (slot_history inverse_of work times gesv ops new M _ _ slot_start HF HR) as ((HL & HO & HP & HFd & HI) & _).
  destruct (HFd c p HC) as (P0 & PF & PA).
  assert (G : get_col (slots_ M) p = Z.of_nat c) by (unfold get_col; rewrite PF; reflexivity).
  split; [assumption|]. split; [assumption|].
  assert (Hc : (c < size M)%nat) by (apply HO; change (fst (col_run ops) c <> None); congruence).
  intros row Hrow. unfold get_cell. rewrite G.
  destruct (Z.leb_spec (Z.of_nat (size M)) row); [lia|].
  destruct (Z.leb_spec (Z.of_nat (size M)) (Z.of_nat c)); [lia|]. reflexivity.
Qed.
Print Assumptions C18_found_again_partial.

(** With sizes that never shrink the self test of [solve] passes too. *)
Theorem C18_self_test_partial : forall inverse_of work times gesv ops M,
  run inverse_of work times gesv new ops = Ok M -> fresh ops -> growing 0 ops ->
  self_test (Z.of_nat (size M)) (slots_ M) = true.
Proof.
  intros inverse_of work times gesv ops M HR HF HG.
  destruct (slot_history inverse_of work times gesv ops new M _ _ slot_start HF HR) as (A & _).
  eapply tidy_self_test; [exact A|].
  apply (tidy_history inverse_of work times gesv ops new M (fun _ => None) (fun _ => None)); try assumption.
  - exact slot_start.
  - intros q c [].
Qed.
Print Assumptions C18_self_test_partial.

Definition no_inverse (m : list Z) : option (list Z) := None.
Definition id_work (m : list Z) := m.
Definition no_times (m r : list Z) := r.
Definition no_gesv (m r : list Z) : option (list Z * list Z) := None.

(** A body inserted before another one: 71, 72 move to columns 2, 3. *)
Definition inserted : list op :=
  [Resize 2 []; Set_ 0 71; Set_ 1 72; Resize 4 []; Set_ 0 81; Set_ 1 82; Set_ 2 71; Set_ 3 72].
Example C18_case :
  fresh inserted /\ growing 0 inserted /\
  match run no_inverse id_work no_times no_gesv new inserted with
  | Ok M => (get_col (slots_ M) 71, get_col (slots_ M) 72, get_col (slots_ M) 81) = (2, 3, 0)
  | _ => False
  end.
Proof.
  split; [|split; [|reflexivity]].
  - cbn. repeat split; try discriminate;
      intros c' N; repeat (destruct c' as [|c']; cbn; try congruence).
  - cbn. lia.
Qed.

(** Swapping two variables loses one of them: its cell cannot be reached any
    more and the program exits. *)
Theorem C18_found_again_refuted : exists ops M p c,
  run no_inverse id_work no_times no_gesv new ops = Ok M /\
  last_col None p ops = Some c /\ fst (col_run ops) c = Some p /\ (c < size M)%nat /\
  get_col (slots_ M) p <> Z.of_nat c /\ get_cell (Z.of_nat (size M)) (slots_ M) 0 p = Exit 3.
Proof.
  exists [Resize 2 []; Set_ 0 71; Set_ 1 72; Set_ 0 72; Set_ 1 71]. eexists. exists 72, 0%nat.
  split; [reflexivity|]. repeat split; try (cbn; lia); try (vm_compute; discriminate).
Qed.
Print Assumptions C18_found_again_refuted.

(** Removing the last variable and solving again exits. *)
Theorem C18_shrink_refuted : exists ops M,
  run no_inverse id_work no_times no_gesv new ops = Ok M /\ fresh ops /\
  forall u, solve no_inverse id_work no_times no_gesv u M = Exit 4.
Proof.
  exists [Resize 2 []; Set_ 0 71; Set_ 1 72; Resize 1 []; Set_ 0 71]. eexists. split; [reflexivity|]. split; [|reflexivity].
  cbn. repeat split; try discriminate; intros c' N; repeat (destruct c' as [|c']; cbn; try congruence).
Qed.
Print Assumptions C18_shrink_refuted.

(** * C19 *)

(** After any history whose sizes do not decrease, solving with the inverse gives
    the inverse of the matrix last written applied to the right side last
    written, if no two matrices written have the same hash and none has hash 0.
    Missing: histories without these conditions, which fail (next theorems).
    [inverse_of] and [times] are LAPACK and BLAS. *)
Theorem C19_cached_inverse_partial : forall inverse_of work times gesv ops M M' x,
  (forall m i, inverse_of m = Some i -> length i = length m) ->
  (forall n1 n2 m1 m2, written ops m1 -> written ops m2 ->
     length m1 = (n1 * n1)%nat -> length m2 = (n2 * n2)%nat ->
     matrix_hash (Z.of_nat n1) m1 = matrix_hash (Z.of_nat n2) m2 -> m1 = m2) ->
  (forall n m, written ops m -> length m = (n * n)%nat -> matrix_hash (Z.of_nat n) m <> 0) ->
  growing 0 ops -> fits 0 ops ->
  run inverse_of work times gesv new ops = Ok M ->
  solve inverse_of work times gesv true M = Ok (M', x) ->
  exists i, inverse_of (fst (system [] [] ops)) = Some i /\ x = times i (snd (system [] [] ops)).
Proof.
  intros inverse_of work times gesv ops M M' x IL NC NZ HG HF HR HS.
  assert (I0 : solver_inv inverse_of ops new [] []).
  { split; [discriminate|]. split; [reflexivity|]. intros H. cbn in H. congruence. }
  pose proof (solver_history inverse_of work times gesv ops IL NC NZ ops new M [] [] I0 HG HF (fun _ H => H) HR) as I1.
  destruct (solver_solve inverse_of work times gesv ops IL NC NZ _ _ _ _ _ _ I1 HS) as (_ & E). apply E. reflexivity.
Qed.
Print Assumptions C19_cached_inverse_partial.

(** The hash on a 1x1 and a 2x2 matrix of doubles 2.0, 3.0, ...: a hit after a
    change of the right side, then a miss after a change of the matrix. *)
Definition toy_inverse (m : list Z) : option (list Z) := Some (map (fun w => w + 1) m).
Definition toy_times (i r : list Z) : list Z := i ++ r.
Definition d2 := 4611686018427387904.  (* 2.0 *)
Definition d3 := 4613937818241073152.  (* 3.0 *)
Example C19_case :
  match run toy_inverse id_work toy_times no_gesv new
          [Resize 1 []; Fill [d2] [d2]; Solve true; Fill [d2] [d3]; Solve true; FillRight [d2]] with
  | Ok M => ok_ M = true /\
      match solve toy_inverse id_work toy_times no_gesv true M with
      | Ok (_, x) => x = [d2 + 1; d2] | _ => False end /\
      match solve toy_inverse id_work toy_times no_gesv true (fill [d3] [d2] M) with
      | Ok (_, x) => x = [d3 + 1; d2] | _ => False end
  | _ => False
  end.
Proof. vm_compute. repeat split; reflexivity. Qed.

Example C19_hyps :
  let ops := [Resize 1 []; Fill [d2] [d2]; Solve true; Fill [d3] [d3]; Solve true; Fill [d2] [d2]] in
  (forall n1 n2 m1 m2, written ops m1 -> written ops m2 ->
     length m1 = (n1 * n1)%nat -> length m2 = (n2 * n2)%nat ->
     matrix_hash (Z.of_nat n1) m1 = matrix_hash (Z.of_nat n2) m2 -> m1 = m2) /\
  (forall n m, written ops m -> length m = (n * n)%nat -> matrix_hash (Z.of_nat n) m <> 0) /\
  growing 0 ops /\ fits 0 ops.
Proof.
  cbv zeta.
  assert (W : forall m, written [Resize 1 []; Fill [d2] [d2]; Solve true; Fill [d3] [d3]; Solve true; Fill [d2] [d2]] m -> m = [d2] \/ m = [d3]).
  { intros m (r & H). cbn [In] in H. intuition congruence. }
  split; [|split; [|split]].
  - intros n1 n2 m1 m2 W1 W2 L1 L2 H. apply W in W1, W2.
    assert (n1 = 1%nat) by (destruct W1; subst; cbn in L1; nia).
    assert (n2 = 1%nat) by (destruct W2; subst; cbn in L2; nia). subst.
    destruct W1 as [->| ->]; destruct W2 as [->| ->]; try reflexivity; vm_compute in H; discriminate.
  - intros n m W1 L1. apply W in W1.
    assert (n = 1%nat) by (destruct W1; subst; cbn in L1; nia). subst.
    destruct W1 as [->| ->]; vm_compute; discriminate.
  - cbn. lia.
  - cbn. repeat split.
Qed.

(** 134608.0 and 222134.0 have the same hash: the second system is solved with
    the inverse of the first. *)
Definition dA := 4683865108500185088.
Definition dB := 4686872478960582656.
Theorem C19_collision_refuted : exists ops M,
  fst (system [] [] ops) = [dB] /\ dA <> dB /\
  forall inverse_of work times gesv i, inverse_of [dA] = Some i ->
  run inverse_of work times gesv new ops = Ok (M i work) /\
  exists M', solve inverse_of work times gesv true (M i work) = Ok (M', times i [d2]).
Proof.
  exists [Resize 1 []; Fill [dA] [d2]; Solve true; Fill [dB] [d2]],
    (fun i (work : list Z -> list Z) => mkMatrix 1 [dB] i [d2] (mkSlots [0] []) (matrix_hash 1 [dA]) true).
  split; [reflexivity|]. split; [discriminate|]. intros inverse_of work times gesv i HI.
  assert (H0 : (matrix_hash 1 [dA] =? 0) = false) by (vm_compute; reflexivity).
  assert (H1 : matrix_hash 1 [dB] = matrix_hash 1 [dA]) by (vm_compute; reflexivity).
  split.
  - cbn [run step]. unfold solve, fill_inverse.
    change (size (fill [dA] [d2] (resize 1 [] new))) with 1%nat.
    change (hash_ (fill [dA] [d2] (resize 1 [] new))) with 0.
    change (body (fill [dA] [d2] (resize 1 [] new))) with [dA].
    change (Z.of_nat 1) with 1. cbn [self_test forallb negb idx slots_ fill resize ok_ size Nat.eqb new resize_slots].
    rewrite H0, HI. reflexivity.
  - unfold solve, fill_inverse. cbn [self_test forallb negb idx slots_ ok_ size body hash_].
    change (Z.of_nat 1) with 1. rewrite H1, Z.eqb_refl. eexists. reflexivity.
Qed.
Print Assumptions C19_collision_refuted.

(** 3.194183227606453e-05 has hash 0, the initial value of the stored hash: the
    first system is solved with uninitialised memory ([junk]). *)
Definition dZ := 4539838607204024815.
Theorem C19_zero_hash_refuted : forall inverse_of work times gesv junk,
  exists M M', run inverse_of work times gesv new [Resize 1 [junk]; Fill [dZ] [d2]] = Ok M /\
  solve inverse_of work times gesv true M = Ok (M', times [junk] [d2]).
Proof.
  intros. eexists. eexists. split; [reflexivity|].
  unfold solve, fill_inverse.
  cbn [fill resize new Nat.eqb size slots_ resize_slots self_test forallb negb idx ok_ body hash_ inverse right].
  replace (matrix_hash (Z.of_nat 1) [dZ]) with 0 by (vm_compute; reflexivity).
  rewrite Z.eqb_refl. reflexivity.
Qed.
Print Assumptions C19_zero_hash_refuted.

(** The same for every matrix with 16384 to 23170 rows: the length of the data
    overflows [int] and the hash is 0 whatever the matrix. *)
Theorem C19_large_refuted : forall inverse_of work times gesv N m r junk,
  16384 <= Z.of_nat N <= 23170 -> length m = (N * N)%nat ->
  exists M M', run inverse_of work times gesv new [Resize N junk; Fill m r] = Ok M /\
  solve inverse_of work times gesv true M = Ok (M', times (firstn (N * N) (junk ++ repeat 0 (N * N))) r).
Proof.
  intros inverse_of work times gesv N m r junk HN HL. eexists. eexists. split; [reflexivity|].
  assert (H0 : forall k, matrix_hash (Z.of_nat N) k = 0).
  { intros k. unfold matrix_hash.
    replace (i32 (Z.of_nat N * Z.of_nat N * 8) <=? 0) with true; [reflexivity|].
    symmetry. apply Z.leb_le. assert (2 ^ 31 <= Z.of_nat N * Z.of_nat N * 8 < 2 ^ 32) by nia.
    unfold i32. rewrite Z.mod_small by lia. destruct (Z.ltb_spec (Z.of_nat N * Z.of_nat N * 8) (2 ^ 31)); lia. }
  unfold resize. destruct (Nat.eqb_spec N (size new)) as [E|NE]; [cbn in E; lia|].
  unfold fill. cbn [size inverse slots_ hash_]. unfold solve, fill_inverse.
  cbn [size slots_ resize_slots new self_test forallb negb idx ok_ body hash_ inverse right].
  rewrite H0, Z.eqb_refl. unfold realloc. rewrite firstn_nil, Nat.sub_0_r. reflexivity.
Qed.
Print Assumptions C19_large_refuted.
Example C19_large_case : 16384 <= Z.of_nat (Z.to_nat 16500) <= 23170 /\ matrix_hash 16500 [d2; d3] = 0.
Proof. split; [lia|vm_compute; reflexivity]. Qed.

(** A smaller matrix in between destroys the inverse but not its hash. *)
Theorem C19_shrink_refuted : forall work times gesv inverse_of a b c d j,
  matrix_hash 2 [a; b; c; d] <> 0 ->
  inverse_of [a; b; c; d] = Some [a; b; c; d] ->
  exists M M',
    run inverse_of work times gesv new
      [Resize 2 []; Fill [a; b; c; d] [d2; d3]; Solve true; Resize 1 []; Resize 2 [j; j; j];
       Fill [a; b; c; d] [d2; d3]] = Ok M /\
    solve inverse_of work times gesv true M = Ok (M', times [a; j; j; j] [d2; d3]).
Proof.
  intros work times gesv inverse_of a b c d j H0 HI. eexists. eexists. split.
  - cbn [run step]. unfold solve, fill_inverse.
    cbn [fill resize new Nat.eqb size slots_ resize_slots self_test forallb negb idx ok_ body hash_ inverse right].
    change (Z.of_nat 2) with 2. destruct (Z.eqb_spec (matrix_hash 2 [a; b; c; d]) 0); [contradiction|]. rewrite HI. reflexivity.
  - unfold solve, fill_inverse.
    cbn [fill resize new Nat.eqb size slots_ resize_slots self_test forallb negb idx ok_ body hash_ inverse right].
    change (Z.of_nat 2) with 2. rewrite Z.eqb_refl. reflexivity.
Qed.
Print Assumptions C19_shrink_refuted.

(** * C51 *)

(** In whatever order the threads perform the swaps, the result is the
    transposed matrix. *)
Theorem C51_transpose_any_order : forall N order A, Permutation order (pairs N) ->
  forall i j, (i < N)%nat -> (j < N)%nat -> transpose_in order N A (i * N + j)%nat = A (j * N + i)%nat.
Proof. exact transpose_any_order. Qed.
Print Assumptions C51_transpose_any_order.

(** Hence the direct solution is what LAPACK computes for the stored system
    laid out by columns. *)
Theorem C51_direct_solution : forall inverse_of work times gesv M M' x,
  solve inverse_of work times gesv false M = Ok (M', x) ->
  exists t left, gesv t (right M) = Some (x, left) /\ length t = (size M * size M)%nat /\
  forall i j, (i < size M)%nat -> (j < size M)%nat ->
    nth (j * size M + i) t 0 = nth (i * size M + j) (body M) 0.
Proof.
  intros inverse_of work times gesv M M' x E. unfold solve in E.
  destruct (negb (self_test _ _)); [discriminate|]. destruct (negb _); [discriminate|].
  destruct (gesv _ _) as [(y, rest)|] eqn:EG; [|discriminate]. injection E as <- <-.
  eexists. exists rest. split; [exact EG|]. unfold tabulate. split.
  { rewrite map_length, seq_length. reflexivity. }
  intros i j Hi Hj.
  rewrite (nth_indep _ 0 (transpose (size M) (fun k => nth k (body M) 0) O)).
  2:{ rewrite map_length, seq_length. nia. }
  rewrite map_nth, seq_nth by nia. cbn [plus].
  unfold transpose. rewrite transpose_any_order; [reflexivity|reflexivity|assumption|assumption].
Qed.
Print Assumptions C51_direct_solution.

Example C51_case :
  tabulate 9 (transpose 3 (fun k => nth k [11; 12; 13; 21; 22; 23; 31; 32; 33] 0)) = [11; 21; 31; 12; 22; 32; 13; 23; 33] /\
  tabulate 9 (transpose_in (rev (pairs 3)) 3 (fun k => nth k [11; 12; 13; 21; 22; 23; 31; 32; 33] 0)) = [11; 21; 31; 12; 22; 32; 13; 23; 33].
Proof. split; reflexivity. Qed.
