From Coq Require Import ZArith Bool List Lia Permutation Arith.
From Verif.Base Require Import Int.
From Verif.Matrix Require Import Model Spec.
Import ListNotations.
Local Open Scope Z_scope.

(** * Transposition *)

Lemma swap_other N A i j k : k <> (i * N + j)%nat -> k <> (j * N + i)%nat -> swap N A (i, j) k = A k.
Proof.
  intros H1 H2. unfold swap, upd.
  destruct (Nat.eqb_spec k (j * N + i)); [congruence|]. destruct (Nat.eqb_spec k (i * N + j)); congruence.
Qed.
Lemma swap_1 N A i j : i <> j -> (i < N)%nat -> (j < N)%nat -> swap N A (i, j) (i * N + j)%nat = A (j * N + i)%nat.
Proof.
  intros. unfold swap, upd. rewrite Nat.eqb_refl. destruct (Nat.eqb_spec (i * N + j) (j * N + i)); [congruence|reflexivity].
Qed.
Lemma swap_2 N A i j : swap N A (i, j) (j * N + i)%nat = A (i * N + j)%nat.
Proof. unfold swap, upd. rewrite Nat.eqb_refl. reflexivity. Qed.

Lemma cell_inj N i j i' j' : (j < N)%nat -> (j' < N)%nat -> (i * N + j = i' * N + j')%nat -> i = i' /\ j = j'.
Proof.
  intros H H' E.
  assert (i = i') by (destruct (Nat.lt_trichotomy i i') as [K|[K|K]]; [nia|assumption|nia]).
  subst. split; [reflexivity|lia].
Qed.

(** Swaps of distinct unordered pairs off the diagonal. *)
Definition proper (N : nat) (l : list (nat * nat)) : Prop :=
  NoDup l /\ forall i j, In (i, j) l -> (i < j < N)%nat.

Lemma transpose_in_spec N l : proper N l -> forall A i j, (i < N)%nat -> (j < N)%nat ->
  transpose_in l N A (i * N + j)%nat =
  if (existsb (fun p => (Nat.eqb (fst p) i && Nat.eqb (snd p) j) || (Nat.eqb (fst p) j && Nat.eqb (snd p) i)) l)
  then A (j * N + i)%nat else A (i * N + j)%nat.
Proof.
  intros (ND & P). induction ND as [|(a, b) l NI ND IH]; intros A i j Hi Hj; [reflexivity|].
  unfold transpose_in in *. cbn [fold_left existsb fst snd].
  destruct (P a b (or_introl eq_refl)) as (Hab & Hb).
  rewrite IH by (try assumption; intros; apply P; right; assumption). clear IH.
  destruct (Nat.eqb_spec a i) as [Ea|Ea]; destruct (Nat.eqb_spec b j) as [Eb|Eb];
  destruct (Nat.eqb_spec a j) as [Ea'|Ea']; destruct (Nat.eqb_spec b i) as [Eb'|Eb'];
    cbn [andb orb]; subst; try lia;
    try (rewrite !swap_other by (intros E; apply cell_inj in E; lia); reflexivity).
  - destruct (existsb _ l) eqn:EX; [|apply swap_1; lia].
    apply existsb_exists in EX as ((x, y) & Hxy & E). cbn in E. destruct (P x y (or_intror Hxy)).
    rewrite orb_true_iff, !andb_true_iff, !Nat.eqb_eq in E. destruct E as [(-> & ->)|(-> & ->)]; [contradiction|lia].
  - destruct (existsb _ l) eqn:EX; [|apply swap_2].
    apply existsb_exists in EX as ((x, y) & Hxy & E). cbn in E. destruct (P x y (or_intror Hxy)).
    rewrite orb_true_iff, !andb_true_iff, !Nat.eqb_eq in E. destruct E as [(-> & ->)|(-> & ->)]; [lia|contradiction].
Qed.

Lemma pairs_in N i j : In (i, j) (pairs N) <-> (i < j < N)%nat.
Proof.
  unfold pairs. rewrite in_flat_map. split.
  - intros (x & Hx & H). apply in_map_iff in H as (y & E & Hy). injection E as -> ->.
    rewrite in_seq in *. lia.
  - intros H. exists i. rewrite in_seq. split; [lia|]. apply in_map_iff. exists j. split; [reflexivity|].
    rewrite in_seq. lia.
Qed.

Lemma pairs_nodup N : NoDup (pairs N).
Proof.
  unfold pairs. generalize (seq_NoDup N 0). generalize (seq 0 N). intros l ND.
  induction ND as [|i l NI ND IH]; cbn [flat_map]; [constructor|].
  assert (D : forall l', NoDup l' -> NoDup (map (fun j : nat => (i, j)) l' ++ flat_map (fun i => map (fun j => (i, j)) (seq (S i) (N - S i))) l)).
  { intros l' H. induction H as [|x l' H1 H2 IH2]; cbn [map app]; [assumption|]. constructor; [|assumption].
    rewrite in_app_iff, in_map_iff, in_flat_map. intros [(y & E & Hy)|(k & Hk & H)].
    - injection E as ->. contradiction.
    - apply in_map_iff in H as (y & E & _). injection E as -> _. contradiction. }
  apply D. apply seq_NoDup.
Qed.

Lemma transpose_any_order N order A : Permutation order (pairs N) ->
  forall i j, (i < N)%nat -> (j < N)%nat -> transpose_in order N A (i * N + j)%nat = A (j * N + i)%nat.
Proof.
  intros P i j Hi Hj. rewrite transpose_in_spec; try assumption.
  - destruct (existsb _ order) eqn:E; [reflexivity|].
    destruct (Nat.eq_dec i j) as [->|D]; [reflexivity|]. exfalso.
    assert (K : In (Nat.min i j, Nat.max i j) order).
    { apply Permutation_in with (pairs N); [symmetry; assumption|]. apply pairs_in. lia. }
    assert (F : existsb (fun p : nat * nat => (fst p =? i)%nat && (snd p =? j)%nat || (fst p =? j)%nat && (snd p =? i)%nat) order = true).
    { apply existsb_exists. eexists. split; [exact K|]. cbn.
      rewrite orb_true_iff, !andb_true_iff, !Nat.eqb_eq. lia. }
    congruence.
  - split.
    + apply (Permutation_NoDup (Permutation_sym P)). apply pairs_nodup.
    + intros x y H. apply pairs_in. apply Permutation_in with order; assumption.
Qed.

(** * Slots *)

Lemma set_nth_spec l : forall k v c, (k < length l)%nat ->
  nth_error (set_nth l k v) c = if Nat.eqb c k then Some v else nth_error l c.
Proof.
  induction l as [|x l IH]; intros k v c H; cbn in H; [lia|].
  destruct k as [|k]; destruct c as [|c]; cbn; try reflexivity. apply IH. lia.
Qed.
Lemma set_nth_length l : forall k v, length (set_nth l k v) = length l.
Proof. induction l as [|x l IH]; intros [|k] v; cbn; auto. Qed.

Lemma find_erase p q m : find p (erase q m) = if p =? q then None else find p m.
Proof.
  induction m as [|(a, c) m IH]; unfold erase in *; cbn [filter find fst].
  - destruct (p =? q); reflexivity.
  - destruct (Z.eqb_spec a q) as [->|N]; cbn [negb fst find].
    + rewrite IH. destruct (Z.eqb_spec p q) as [->|N].
      * reflexivity.
      * destruct (Z.eqb_spec q p); [congruence|reflexivity].
    + rewrite IH. destruct (Z.eqb_spec a p) as [->|N2]; [|reflexivity].
      destruct (Z.eqb_spec p q); [congruence|reflexivity].
Qed.
Lemma erase_in p e m : In e (erase p m) <-> In e m /\ fst e <> p.
Proof.
  unfold erase. rewrite filter_In. rewrite negb_true_iff, Z.eqb_neq. reflexivity.
Qed.

Definition slot_inv (s : slots) (f : columns) (n : nat) (acc : Z -> option nat) : Prop :=
  length (ptrs s) = n /\
  (forall c, f c <> None -> (c < n)%nat) /\
  (forall c, (c < n)%nat -> nth_error (ptrs s) c = Some match f c with Some p => p | None => 0 end) /\
  (forall c p, f c = Some p -> p <> 0 /\ find p (idx s) = Some (Z.of_nat c) /\ acc p = Some c) /\
  (forall c c' p, f c = Some p -> f c' = Some p -> c = c').

Lemma slot_set s f n acc c q s' :
  slot_inv s f n acc -> set_solution s c q = Ok s' ->
  q <> 0 -> (forall c', c' <> c -> f c' <> Some q) ->
  slot_inv s' (fun c' => if Nat.eqb c' c then Some q else f c') n (fun p => if q =? p then Some c else acc p).
Proof.
  intros (HL & HO & HP & HF & HI) HS Q0 HFR. unfold set_solution in HS.
  destruct (nth_error (ptrs s) c) as [old|] eqn:EO; [|discriminate]. injection HS as <-.
  assert (Hc : (c < n)%nat) by (rewrite <- HL; apply nth_error_Some; congruence).
  assert (HOLD : old = match f c with Some p => p | None => 0 end) by (rewrite HP in EO by assumption; congruence).
  split; [cbn; rewrite set_nth_length; assumption|]. split.
  { intros c'. destruct (Nat.eqb_spec c' c) as [->|N]; auto. }
  split.
  { intros c' Hc'. cbn [ptrs]. rewrite set_nth_spec by lia. destruct (Nat.eqb_spec c' c) as [->|N]; auto. }
  split.
  - intros c' p E. destruct (Nat.eqb_spec c' c) as [->|N].
    + injection E as <-. split; [assumption|]. cbn. rewrite Z.eqb_refl. split; reflexivity.
    + destruct (HF c' p E) as (P0 & PF & PA). split; [assumption|]. cbn [idx find].
      destruct (Z.eqb_spec q p) as [->|NQ]; [exfalso; apply (HFR c' N E)|].
      split; [|assumption]. rewrite !find_erase.
      destruct (Z.eqb_spec p q); [congruence|]. destruct (Z.eqb_spec p old) as [->|NO]; [|assumption].
      exfalso. destruct (f c) as [x|] eqn:Ec; [|congruence].
      apply N. apply (HI c' c x); [|assumption]. rewrite E. congruence.
  - intros c1 c2 p. destruct (Nat.eqb_spec c1 c) as [->|N1]; destruct (Nat.eqb_spec c2 c) as [->|N2]; intros E1 E2; auto.
    + injection E1 as <-. exfalso. apply (HFR c2 N2 E2).
    + injection E2 as <-. exfalso. apply (HFR c1 N1 E1).
    + apply (HI c1 c2 p); assumption.
Qed.

Lemma slot_resize s f n acc k :
  slot_inv s f n acc ->
  slot_inv (resize_slots k s) (fun c => if Nat.ltb c k then (if Nat.ltb c n then f c else None) else None) k acc.
Proof.
  intros (HL & HO & HP & HF & HI). unfold resize_slots. split.
  { cbn. rewrite app_length, firstn_length, repeat_length. lia. }
  split. { intros c. destruct (Nat.ltb_spec c k); [auto|congruence]. }
  split.
  { intros c Hc. cbn [ptrs]. destruct (Nat.ltb_spec c k); [|lia]. destruct (Nat.ltb_spec c n) as [Hn|Hn].
    - rewrite nth_error_app1 by (rewrite firstn_length; lia). rewrite <- HP by assumption.
      rewrite <- (firstn_skipn k (ptrs s)) at 2. rewrite nth_error_app1 by (rewrite firstn_length; lia). reflexivity.
    - rewrite nth_error_app2 by (rewrite firstn_length; lia). rewrite firstn_length.
      apply nth_error_repeat. lia. }
  split.
  { intros c p E. destruct (c <? k)%nat; [|discriminate]. destruct (c <? n)%nat; [|discriminate]. apply HF. assumption. }
  intros c c' p E E'. destruct (c <? k)%nat; [|discriminate]. destruct (c <? n)%nat; [|discriminate].
  destruct (c' <? k)%nat; [|discriminate]. destruct (c' <? n)%nat; [|discriminate]. apply (HI c c' p); assumption.
Qed.

Lemma slot_ext s f f' n acc : (forall c, f c = f' c) -> slot_inv s f n acc -> slot_inv s f' n acc.
Proof.
  intros E (HL & HO & HP & HF & HI). split; [assumption|].
  split; [intros c; rewrite <- E; apply HO|]. split; [intros c Hc; rewrite <- E; auto|].
  split; [intros c p; rewrite <- E; apply HF|]. intros c c' p. rewrite <- !E. apply HI.
Qed.

Section Histories.
Variable inverse_of : list Z -> option (list Z).
Variable work : list Z -> list Z.
Variable times : list Z -> list Z -> list Z.
Variable gesv : list Z -> list Z -> option (list Z * list Z).
Notation step := (step inverse_of work times gesv).
Notation run := (run inverse_of work times gesv).
Notation solve := (solve inverse_of work times gesv).

Lemma solve_keeps u M M' x : solve u M = Ok (M', x) -> size M' = size M /\ slots_ M' = slots_ M.
Proof.
  unfold Model.solve, fill_inverse. destruct (negb _); [discriminate|]. destruct u.
  - destruct (negb _); [discriminate|]. destruct (_ =? _).
    + intros E. injection E as <- _. split; reflexivity.
    + destruct (inverse_of _); [|discriminate]. intros E. injection E as <- _. split; reflexivity.
  - destruct (negb _); [discriminate|]. destruct (gesv _ _) as [(y, z)|]; [|discriminate].
    intros E. injection E as <- _. split; reflexivity.
Qed.

Lemma slot_history l : forall M M' f acc,
  slot_inv (slots_ M) f (size M) acc -> fresh_from (f, size M) l -> run M l = Ok M' ->
  slot_inv (slots_ M') (fst (fold_left col_step l (f, size M))) (size M') (fun p => last_col (acc p) p l) /\
  snd (fold_left col_step l (f, size M)) = size M'.
Proof.
  induction l as [|o l IH]; intros M M' f acc HI HF HR.
  - injection HR as <-. split; [assumption|reflexivity].
  - cbn [Model.run] in HR. destruct (step M o) as [(M1, x)| |] eqn:ES; try discriminate.
    cbn [fresh_from] in HF. destruct HF as (HF1 & HF2). cbn [fold_left last_col].
    destruct o as [k junk|m r|r|c q|u]; cbn [Model.step] in ES.
    + injection ES as <- _.
      assert (SZ : size (resize k junk M) = k).
      { unfold resize. destruct (Nat.eqb_spec k (size M)); [congruence|reflexivity]. }
      cbn [col_step] in HF2 |- *.
      pose proof (IH (resize k junk M) M' (fun c => if (c <? k)%nat then if (c <? size M)%nat then f c else None else None) acc) as IH'.
      rewrite SZ in IH'. apply IH'; try assumption. clear IH'.
      unfold resize at 1. destruct (Nat.eqb_spec k (size M)) as [E|N].
      * rewrite E in *. destruct HI as (HL & HO & R). eapply slot_ext; [|split; [exact HL|split; [exact HO|exact R]]].
        intros c. cbn beta. destruct (Nat.ltb_spec c (size M)); [reflexivity|].
        destruct (f c) eqn:Ec; [|reflexivity]. assert (c < size M)%nat by (apply HO; congruence). lia.
      * cbn [slots_]. apply slot_resize. assumption.
    + injection ES as <- _. apply (IH (fill m r M)); assumption.
    + injection ES as <- _. apply (IH (fill_right r M)); assumption.
    + destruct (set_solution (slots_ M) c q) as [s| |] eqn:E; try discriminate. injection ES as <- _.
      destruct HF1 as (Q0 & HFR).
      pose proof (slot_set _ _ _ _ _ _ _ HI E Q0 HFR) as HI'.
      apply (IH (mkMatrix (size M) (body M) (inverse M) (right M) s (hash_ M) (ok_ M)) M' _ _ HI' HF2 HR).
    + destruct (solve u M) as [(M2, y)| |] eqn:E; try discriminate. injection ES as <- _.
      destruct (solve_keeps _ _ _ _ E) as (S1 & S2). cbn [col_step] in *.
      rewrite <- S1 in *. rewrite <- S2 in HI. apply IH; assumption.
Qed.

(** Every entry of the map belongs to a column, as long as nothing shrinks. *)
Definition tidy (s : slots) (f : columns) : Prop :=
  forall p c, In (p, c) (idx s) -> 0 <= c /\ f (Z.to_nat c) = Some p.

Lemma tidy_history l : forall M M' f acc,
  slot_inv (slots_ M) f (size M) acc -> tidy (slots_ M) f -> fresh_from (f, size M) l -> growing (size M) l ->
  run M l = Ok M' -> tidy (slots_ M') (fst (fold_left col_step l (f, size M))).
Proof.
  induction l as [|o l IH]; intros M M' f acc HI HT HF HG HR.
  - injection HR as <-. assumption.
  - cbn [Model.run] in HR. destruct (step M o) as [(M1, x)| |] eqn:ES; try discriminate.
    cbn [fresh_from] in HF. destruct HF as (HF1 & HF2). cbn [fold_left growing] in *.
    destruct o as [k junk|m r|r|c q|u]; cbn [Model.step] in ES.
    + injection ES as <- _. destruct HG as (HGk & HG).
      assert (SZ : size (resize k junk M) = k).
      { unfold resize. destruct (Nat.eqb_spec k (size M)); [congruence|reflexivity]. }
      cbn [col_step] in HF2 |- *.
      pose proof (IH (resize k junk M) M' (fun c => if (c <? k)%nat then if (c <? size M)%nat then f c else None else None) acc) as IH'.
      rewrite SZ in IH'.
      assert (HE : forall c, f c = (if (c <? k)%nat then if (c <? size M)%nat then f c else None else None)).
      { intros c. destruct HI as (_ & HO & _). destruct (f c) eqn:Ec.
        - assert (c < size M)%nat by (apply HO; congruence).
          destruct (Nat.ltb_spec c k); [|lia]. destruct (Nat.ltb_spec c (size M)); [reflexivity|lia].
        - destruct (c <? k)%nat; destruct (c <? size M)%nat; reflexivity. }
      apply IH'; try assumption.
      * unfold resize at 1. destruct (Nat.eqb_spec k (size M)) as [E|N].
        -- eapply slot_ext; [exact HE|]. rewrite E. assumption.
        -- apply slot_resize. assumption.
      * intros p c Hin. unfold resize in Hin. destruct (Nat.eqb k (size M)); (rewrite <- HE; apply HT; exact Hin).
    + injection ES as <- _. apply (IH (fill m r M) M' f acc); assumption.
    + injection ES as <- _. apply (IH (fill_right r M) M' f acc); assumption.
    + destruct (set_solution (slots_ M) c q) as [s| |] eqn:E; try discriminate. injection ES as <- _.
      destruct HF1 as (Q0 & HFR).
      pose proof (slot_set _ _ _ _ _ _ _ HI E Q0 HFR) as HI'.
      refine (IH (mkMatrix (size M) (body M) (inverse M) (right M) s (hash_ M) (ok_ M)) M' _ _ HI' _ HF2 HG HR).
      destruct HI as (HL & HO & HP & _). unfold set_solution in E.
      destruct (nth_error (ptrs (slots_ M)) c) as [old|] eqn:EO; [|discriminate]. injection E as <-.
      assert (Hc : (c < size M)%nat) by (rewrite <- HL; apply nth_error_Some; congruence).
      intros p c' Hin. cbn [slots_ idx] in Hin. destruct Hin as [Hin|Hin].
      * injection Hin as <- <-. split; [lia|]. rewrite Nat2Z.id, Nat.eqb_refl. reflexivity.
      * rewrite !erase_in in Hin. cbn [fst] in Hin. destruct Hin as ((Hin & N1) & N2).
        destruct (HT _ _ Hin) as (C0 & HC). split; [assumption|].
        destruct (Nat.eqb_spec (Z.to_nat c') c) as [EC|NC]; [|assumption].
        exfalso. rewrite EC in HC. rewrite HP, HC in EO by assumption. congruence.
    + destruct (solve u M) as [(M2, y)| |] eqn:E; try discriminate. injection ES as <- _.
      destruct (solve_keeps _ _ _ _ E) as (S1 & S2). cbn [col_step] in *.
      rewrite <- S1 in *. rewrite <- S2 in HI, HT. apply (IH M2 M' f acc); assumption.
Qed.

Lemma tidy_self_test s f n acc : slot_inv s f n acc -> tidy s f -> self_test (Z.of_nat n) s = true.
Proof.
  intros (HL & HO & HP & _) HT. unfold self_test. apply forallb_forall. intros (p, c) Hin.
  destruct (HT p c Hin) as (C0 & HC). cbn [fst snd].
  assert (Hn : (Z.to_nat c < n)%nat) by (apply HO; congruence).
  rewrite HP by assumption. rewrite HC, Z.eqb_refl, andb_true_r. apply Z.ltb_lt. lia.
Qed.

(** * The cached inverse *)

Variable all : list op.           (* the whole history *)
Hypothesis inverse_length : forall m i, inverse_of m = Some i -> length i = length m.
Hypothesis no_collision : forall n1 n2 m1 m2, written all m1 -> written all m2 ->
  length m1 = (n1 * n1)%nat -> length m2 = (n2 * n2)%nat ->
  matrix_hash (Z.of_nat n1) m1 = matrix_hash (Z.of_nat n2) m2 -> m1 = m2.
Hypothesis no_zero : forall n m, written all m -> length m = (n * n)%nat -> matrix_hash (Z.of_nat n) m <> 0.

Definition solver_inv (M : matrix) (m r : list Z) : Prop :=
  (ok_ M = true -> body M = m /\ right M = r /\ written all m /\ length m = (size M * size M)%nat) /\
  length (inverse M) = (size M * size M)%nat /\
  (hash_ M <> 0 -> exists n0 m0 i0, written all m0 /\ length m0 = (n0 * n0)%nat /\
     matrix_hash (Z.of_nat n0) m0 = hash_ M /\ inverse_of m0 = Some i0 /\
     (n0 <= size M)%nat /\ firstn (n0 * n0) (inverse M) = i0).

Lemma sq_inj a b : (a * a = b * b -> a = b)%nat.
Proof. nia. Qed.

Lemma solver_solve M m r u M' x : solver_inv M m r -> solve u M = Ok (M', x) ->
  solver_inv M' m r /\ (u = true -> exists i, inverse_of m = Some i /\ x = times i r).
Proof.
  intros (HB & HL & HH) E. unfold Model.solve in E.
  destruct (negb (self_test _ _)); [discriminate|]. destruct u.
  - unfold fill_inverse in E. destruct (ok_ M) eqn:OK; cbn [negb] in E; [|discriminate].
    destruct (HB eq_refl) as (Hb & Hr & Hw & Hl).
    destruct (Z.eqb_spec (matrix_hash (Z.of_nat (size M)) (body M)) (hash_ M)) as [EH|NH].
    + injection E as <- <-. split.
      { split; [auto|]. split; [assumption|assumption]. }
      intros _. rewrite Hb in EH.
      destruct HH as (n0 & m0 & i0 & W0 & L0 & H0 & I0 & S0 & F0).
      { rewrite <- EH. apply no_zero; assumption. }
      assert (m0 = m) by (eapply no_collision; eauto; congruence). subst m0.
      assert (n0 = size M) by (apply sq_inj; congruence). subst n0.
      rewrite firstn_all2 in F0 by lia. exists i0. split; [assumption|]. congruence.
    + destruct (inverse_of (body M)) as [i|] eqn:EI; [|discriminate]. injection E as <- <-.
      cbn [inverse right]. rewrite Hb in EI. split.
      * split; [discriminate|]. cbn [inverse size hash_]. split.
        { rewrite (inverse_length _ _ EI). assumption. }
        intros _. exists (size M), m, i. rewrite Hb. split; [assumption|]. split; [assumption|].
        split; [reflexivity|]. split; [assumption|]. split; [lia|].
        rewrite firstn_all2; [reflexivity|]. rewrite (inverse_length _ _ EI). lia.
      * intros _. exists i. split; [assumption|]. congruence.
  - destruct (ok_ M) eqn:OK; cbn [negb] in E; [|discriminate].
    destruct (gesv _ _) as [(y, z)|]; [|discriminate]. injection E as <- <-.
    split; [|discriminate]. split; [discriminate|]. split; assumption.
Qed.

Lemma realloc_length n l junk : length (realloc n l junk) = n.
Proof.
  unfold realloc. rewrite app_length, !firstn_length, app_length, repeat_length. lia.
Qed.
Lemma realloc_prefix n k l junk : (k <= length l)%nat -> (k <= n)%nat -> firstn k (realloc n l junk) = firstn k l.
Proof.
  intros H1 H2. unfold realloc. rewrite firstn_app, firstn_firstn, firstn_length.
  replace (k - Nat.min n (length l))%nat with O by lia. cbn [firstn]. rewrite app_nil_r.
  f_equal. lia.
Qed.

Lemma solver_history l : forall M M' m r,
  solver_inv M m r -> growing (size M) l -> fits (size M) l -> (forall o, In o l -> In o all) ->
  run M l = Ok M' ->
  solver_inv M' (fst (system m r l)) (snd (system m r l)).
Proof.
  induction l as [|o l IH]; intros M M' m r HI HG HF HA HR.
  - injection HR as <-. assumption.
  - cbn [Model.run] in HR. destruct (step M o) as [(M1, x)| |] eqn:ES; try discriminate.
    assert (HA' : forall o, In o l -> In o all) by (intros o' Ho; apply HA; right; assumption).
    destruct o as [k junk|m' r'|r'|c q|u]; cbn [Model.step] in ES; cbn [growing fits system] in *.
    + injection ES as <- _. destruct HG as (HGk & HG).
      assert (SZ : size (resize k junk M) = k).
      { unfold resize. destruct (Nat.eqb_spec k (size M)); [congruence|reflexivity]. }
      apply (IH (resize k junk M)); try assumption; try (rewrite SZ; assumption).
      unfold resize. destruct (Nat.eqb_spec k (size M)) as [E|N]; [assumption|].
      destruct HI as (HB & HL & HH). split; [discriminate|]. cbn [inverse size hash_].
      split; [apply realloc_length|]. intros H0. destruct (HH H0) as (n0 & m0 & i0 & W0 & L0 & H1 & I0 & S0 & F0).
      exists n0, m0, i0. repeat (split; [assumption || lia|]). rewrite realloc_prefix by nia. assumption.
    + injection ES as <- _. destruct HF as (F1 & F2 & HF). apply (IH (fill m' r' M)); try assumption.
      destruct HI as (HB & HL & HH). split; [|split; assumption]. intros _. cbn.
      split; [reflexivity|]. split; [reflexivity|]. split; [|assumption]. exists r'. apply HA. left. reflexivity.
    + injection ES as <- _. destruct HF as (F1 & HF). apply (IH (fill_right r' M)); try assumption.
      destruct HI as (HB & HL & HH). split; [|split; assumption]. cbn. intros OK. destruct (HB OK) as (A & B & C).
      split; [assumption|]. split; [reflexivity|assumption].
    + destruct (set_solution (slots_ M) c q) as [s| |] eqn:E; try discriminate. injection ES as <- _.
      apply (IH (mkMatrix (size M) (body M) (inverse M) (right M) s (hash_ M) (ok_ M))); assumption.
    + destruct (solve u M) as [(M2, y)| |] eqn:E; try discriminate. injection ES as <- _.
      destruct (solve_keeps _ _ _ _ E) as (S1 & S2). rewrite <- S1 in HG, HF.
      apply (IH M2); try assumption. apply (solver_solve _ _ _ _ _ _ HI E).
Qed.

End Histories.
