(** Properties C43, C84, C85 and C87: the lists a script works with. *)

From Coq Require Import List ZArith Bool Arith Lia String.
From Verif Require Import Base.Int Lua.Model Lua.Spec Lua.Proofs Lua.ProofsObjects.
Import ListNotations.

(** * C43: the body list never holds a body twice *)

Theorem C43_nodup : forall cs, NoDup (blist (run cs start)).
Proof. intros cs. exact (g_nodup _ (good_run cs start good_start)). Qed.

(** After any history: what insert, erase and clear do; the other calls leave
    the list alone. *)
Theorem C43_calls : forall cs c,
  let w := run cs start in
  let w' := fst (step c w) in
  match c with
  | Insert h =>
      match check w h with
      | Some b =>
          (snd (step c w) = Nothing /\ ~ In b (blist w) /\ blist w' = blist w ++ [b]) \/
          (snd (step c w) = LuaError "can not insert the body twice" /\
           In b (blist w) /\ same w w')
      | None => snd (step c w) = not_body /\ same w w'
      end
  | Erase h =>
      match check w h with
      | Some b =>
          (snd (step c w) = Nothing /\ removed b (blist w) (blist w')) \/
          (snd (step c w) = LuaError "the body is not in list" /\
           ~ In b (blist w) /\ same w w')
      | None => snd (step c w) = not_body /\ same w w'
      end
  | Clear => blist w' = [] /\ snd (step c w) = Nothing
  | _ => blist w' = blist w
  end.
Proof.
  intros cs c w w'. pose proof (good_run cs start good_start) as G. fold w in G.
  pose proof (blist_step c w) as S. subst w'. destruct c; try exact S; cbn [step].
  - destruct (insert_cases h w) as [(-> & E)|[(b & -> & I & K & E)|
      (b & -> & N & E & B & _)]].
    + rewrite E. split; [reflexivity|apply same_refl].
    + right. auto.
    + left. auto.
  - destruct (erase_cases h w (g_nodup _ G)) as [(-> & E)|[(b & -> & I & K & E)|
      (b & -> & R & E & _)]].
    + rewrite E. split; [reflexivity|apply same_refl].
    + right. auto.
    + left. auto.
  - split; reflexivity.
Qed.

(** Two bodies, the first inserted twice, both in, the first out again. *)
Example C43_ex :
  let cs := [New; New; Insert 0; Insert 0; Insert 1] in
  blist (run cs start) = [0; 1] /\
  snd (step (Insert 0) (run [New; New; Insert 0] start)) =
    LuaError "can not insert the body twice" /\
  blist (run (cs ++ [Erase 0]) start) = [1] /\
  snd (step (Erase 0) (run (cs ++ [Erase 0]) start)) = LuaError "the body is not in list" /\
  blist (run (cs ++ [Erase 0; Insert 0]) start) = [1; 0] /\
  blist (run (cs ++ [Clear]) start) = [].
Proof. vm_compute. repeat split. Qed.

(** * C85: bodies live exactly as long as something holds them *)

(** The reference count of every body is the number of its places in the list
    plus the number of live userdata, whatever the script did, errors
    included. *)
Theorem C85_count : forall cs b,
  let w := run cs start in
  uses w b = holders w b.
Proof. intros cs b w. exact (g_uses _ (good_run cs start good_start) b). Qed.

(** So no body in the list or behind a userdata is ever destroyed, and when
    the list is cleared and all userdata are collected no body is left. *)
Theorem C85_alive : forall cs b,
  let w := run cs start in
  (0 < uses w b <-> In b (blist w) \/ exists h, check w h = Some b) /\
  (blist w = [] -> (forall h, check w h = None) -> uses w b = 0).
Proof.
  intros cs b w.
  assert (U : uses w b = holders w b) by (apply C85_count).
  assert (F : forall l : list nat, 0 < List.length (filter (Nat.eqb b) l) <-> In b l).
  { intros l. split.
    - destruct (filter (Nat.eqb b) l) as [|c m] eqn:E; cbn; [lia|]. intros _.
      assert (I : In c (filter (Nat.eqb b) l)) by (rewrite E; left; reflexivity).
      apply filter_In in I. destruct I as [I K]. apply Nat.eqb_eq in K. subst. exact I.
    - intros I. destruct (filter (Nat.eqb b) l) as [|c m] eqn:E; cbn; [|lia].
      assert (K : In b (filter (Nat.eqb b) l)) by (apply filter_In; split; [exact I|apply Nat.eqb_refl]).
      rewrite E in K. destruct K. }
  set (f := fun h : option nat => match h with Some c => Nat.eqb b c | None => false end).
  assert (H : 0 < List.length (filter f (handles w)) <-> exists h, check w h = Some b).
  { split.
    - destruct (filter f (handles w)) as [|c m] eqn:E; cbn; [lia|]. intros _.
      assert (I : In c (filter f (handles w))) by (rewrite E; left; reflexivity).
      apply filter_In in I. destruct I as [I K]. destruct c as [c|]; [|discriminate].
      cbn in K. apply Nat.eqb_eq in K. subst c.
      destruct (In_nth_error _ _ I) as (h & Eh). exists h. unfold check. rewrite Eh. reflexivity.
    - intros (h & E). apply check_in in E.
      destruct (filter f (handles w)) as [|c m] eqn:E'; cbn; [|lia].
      assert (K : In (Some b) (filter f (handles w)))
        by (apply filter_In; split; [exact E|cbn; apply Nat.eqb_refl]).
      rewrite E' in K. destruct K. }
  unfold holders in U. fold f in U. split.
  - rewrite U, <- F, <- H. lia.
  - intros E N. destruct (Nat.eq_dec (uses w b) 0) as [Z|Z]; [exact Z|exfalso].
    rewrite E in U. cbn in U.
    assert (K : 0 < List.length (filter f (handles w))) by lia.
    apply H in K. destruct K as (h & K). rewrite N in K. discriminate.
Qed.

(** Two values of the script are equal when they are the same body, whether or not they
    are the same userdata. *)
Theorem C85_equal : forall cs h h' b b',
  let w := run cs start in
  check w h = Some b -> check w h' = Some b' ->
  exists e, step (Same h h') w = (w, Boolean e) /\ (e = true <-> b = b').
Proof.
  intros cs h h' b b' w Hb Hb'. exists (b =? b'). cbn [step]. unfold eq_body. rewrite Hb, Hb'. split; [reflexivity|].
  apply Nat.eqb_eq.
Qed.
Example C85_equal_ex : let w := run [New; New; Insert 0; Index 1] start in
  check w 0 = Some 0 /\ check w 2 = Some 0 /\ snd (step (Same 0 2) w) = Boolean true /\ snd (step (Same 1 2) w) = Boolean false.
Proof. vm_compute. auto. Qed.

(** [body.root] gives the body assigned last, as long as something else holds
    it, and nil afterwards. *)
Theorem C85_root : forall cs h b,
  let w := run cs start in
  check w h = Some b ->
  match root w b with
  | None => snd (step (GetRoot h) w) = Nil
  | Some r =>
      (holders w r = 0 /\ snd (step (GetRoot h) w) = Nil) \/
      (0 < holders w r /\ exists h', snd (step (GetRoot h) w) = Handle h' /\
         check (fst (step (GetRoot h) w)) h' = Some r)
  end.
Proof.
  intros cs h b w Hb. pose proof (fun r => C85_count cs r) as U. fold w in U.
  cbn [step]. destruct (get_root_cases h w) as [(N & _)|[(b' & E & _ & R & K)|
    (b' & r & E & Hr & Hu & R & S)]].
  - congruence.
  - rewrite Hb in E. injection E as <-. rewrite R.
    destruct K as [->|(r & -> & Z)]; [reflexivity|left]. split; [|reflexivity].
    rewrite <- U. exact Z.
  - rewrite Hb in E. injection E as <-. rewrite Hr. right. rewrite <- U.
    split; [exact Hu|]. exists (List.length (handles w)). split; [exact R|].
    rewrite (same_check _ _ _ S). apply check_pushed.
Qed.

(** Assigning it: only that body's root changes, the counts stay. *)
Theorem C85_set_root : forall cs h h' b b',
  let w := run cs start in
  let w' := fst (step (SetRoot h (RBody h')) w) in
  check w h = Some b -> check w h' = Some b' ->
  root w' b = Some b' /\ (forall c, c <> b -> root w' c = root w c) /\
  (forall c, uses w' c = uses w c) /\ blist w' = blist w /\ handles w' = handles w.
Proof.
  intros cs h h' b b' w w' H H'. subst w'. cbn [step]. unfold set_root. rewrite H. cbv zeta.
  rewrite check_drop, check_take, H'. cbn. rewrite Nat.eqb_refl. repeat split.
  - intros c N. destruct (Nat.eqb_spec c b); [contradiction|reflexivity].
  - intros c. unfold dec, inc. destruct (c =? b'), (c =? b); reflexivity.
Qed.

(** A body is inserted, its userdata collected, it lives on in the list; a
    refused insertion does not leak; a root goes when nothing holds it. *)
Example C85_ex :
  let w := run [New; Insert 0; Insert 0; Collect 0] start in
  uses w 0 = 1 /\ uses (fst (step Clear w)) 0 = 0 /\
  let w := run [New; New; SetRoot 0 (RBody 1); Collect 1] start in
  root w 0 = Some 1 /\ snd (step (GetRoot 0) w) = Nil /\
  let w := run [New; New; SetRoot 0 (RBody 1); Insert 1; Collect 1] start in
  snd (step (GetRoot 0) w) = Handle 2 /\ check (fst (step (GetRoot 0) w)) 2 = Some 1.
Proof. vm_compute. repeat split. Qed.

(** * C87: indexing and iteration *)

(** [S.body_list[k]]: the k-th body for 1 to #list, nil elsewhere, the list
    stays as it is. *)
Theorem C87_index : forall cs k, (- 2 ^ 63 < k)%Z ->
  let w := run cs start in
  let w' := fst (step (Index k) w) in
  blist w' = blist w /\
  if ((1 <=? k) && (k <=? Z.of_nat (List.length (blist w))))%Z
  then exists b h, nth_error (blist w) (Z.to_nat (k - 1)) = Some b /\
         snd (step (Index k) w) = Handle h /\ check w' h = Some b
  else snd (step (Index k) w) = Nil.
Proof.
  intros cs k Hk w w'. split; [exact (blist_step (Index k) w)|]. subst w'. cbn [step].
  destruct (getindex_cases k w Hk) as [(b & E & K & ->)|(K & ->)].
  - assert (Z.to_nat (k - 1) < List.length (blist w)) by (apply nth_error_Some; congruence).
    destruct (Z.leb_spec 1 k); [|lia].
    destruct (Z.leb_spec k (Z.of_nat (List.length (blist w)))); [|lia]. cbn [andb].
    exists b, (List.length (handles w)). repeat split; [exact E|apply check_pushed].
  - destruct (Z.leb_spec 1 k); [|reflexivity].
    destruct (Z.leb_spec k (Z.of_nat (List.length (blist w)))); [lia|reflexivity].
Qed.

(** Going through the list with ipairs, the loop doing anything that leaves
    the list alone, gives every body once with its number, in order. *)
Theorem C87_ipairs_partial : forall cs act,
  let w := run cs start in
  (forall i h w', blist w' = blist w -> blist (run (act i h) w') = blist w) ->
  (Z.of_nat (List.length (blist w)) < 2 ^ 31 - 1)%Z ->
  exists w', ipairs (S (List.length (blist w))) act 0 w = Some (numbered 1 (blist w), w').
Proof.
  intros cs act w Hact Hl.
  destruct (ipairs_from act (blist w) (S (List.length (blist w))) 0 w) as (w' & E & _); auto; try lia.
  exists w'. exact E.
Qed.

(** A loop that removes the bodies it meets misses every second one. *)
Theorem C87_erase_in_loop_refuted :
  let w := run [New; New; New; Insert 0; Insert 1; Insert 2] start in
  option_map (fun p => (fst p, blist (snd p))) (ipairs 9 (fun _ h => [Erase h]) 0 w) =
  Some ([(1%Z, 0); (2%Z, 2)], [1]).
Proof. vm_compute. reflexivity. Qed.

Example C87_ex :
  let w := run [New; New; New; Insert 2; Insert 0; Insert 1] start in
  option_map fst (ipairs 9 (fun _ h => [Touch h; GetRoot h; Collect h; New]) 0 w) =
    Some [(1%Z, 2); (2%Z, 0); (3%Z, 1)] /\
  snd (step (Index 0) w) = Nil /\ snd (step (Index 4) w) = Nil /\
  snd (step (Index (-1)) w) = Nil /\ snd (step (Index 1) w) = Handle 3 /\
  check (fst (step (Index 1) w)) 3 = Some 2.
Proof. vm_compute. repeat split. Qed.

(** * C84: appending objects and keeping references *)

(** All arguments are objects when the call starts.  Then either all of them
    are appended in order, or the call reads freed memory: exactly when one of
    the list's own objects is passed after more arguments than the block has
    room for. *)
Theorem C84_append_partial : forall A (grow : nat -> nat) (v : vec A) args xs,
  List.length (items v) <= cap v ->
  map (value v) args = map Some xs ->
  let dangling := exists pre r post,
    args = pre ++ Obj r :: post /\ cap v < List.length (items v) + List.length pre in
  (dangling /\ fst (append grow args v) = Ub) \/
  (~ dangling /\ fst (append grow args v) = Ok /\
   items (snd (append grow args v)) = items v ++ xs).
Proof.
  intros A grow v args xs C V D.
  destruct (append_gen grow v [] C (or_introl eq_refl) args [] xs v 2 (after_nil v) V)
    as [[L E]|[L (u & U & E)]]; rewrite app_nil_r in E.
  - left. split; [|exact E]. destruct L as (pre & r & post & -> & H).
    exists pre, r, post. split; [reflexivity|]. unfold room in H. cbn in H. lia.
  - right. repeat split.
    + intros (pre & r & post & -> & H). apply L. exists pre, r, post. split; [reflexivity|].
      unfold room. cbn. lia.
    + unfold append. rewrite E. reflexivity.
    + unfold append. rewrite E. exact (proj1 U).
Qed.

(** A wrong argument is reported with its number, but the arguments before it
    are in the list already. *)
Theorem C84_error_partial : forall A (grow : nat -> nat) (v : vec A) args xs rest,
  List.length (items v) <= cap v ->
  map (value v) args = map Some xs ->
  fst (append grow (args ++ Bad :: rest) v) = Ub \/
  (fst (append grow (args ++ Bad :: rest) v) = ArgError (2 + List.length args) /\
   items (snd (append grow (args ++ Bad :: rest) v)) = items v ++ xs).
Proof.
  intros A grow v args xs rest C V.
  destruct (append_gen grow v (Bad :: rest) C (or_intror (ex_intro _ rest eq_refl))
              args [] xs v 2 (after_nil v) V) as [[L E]|[L (u & U & E)]].
  - left. exact E.
  - right. unfold append. rewrite E. split; [reflexivity|exact (proj1 U)].
Qed.

(** So a refused call may change the list. *)
Theorem C84_all_or_nothing_refuted :
  exists (v : vec nat) args, fst (append (fun n => 2 * n + 1) args v) = ArgError 3 /\
    items v = [] /\ items (snd (append (fun n => 2 * n + 1) args v)) = [7].
Proof. exists (mkVec [] 0 0), [Table 7; Bad]. vm_compute. repeat split. Qed.

(** list:append({...}, list[1]) on a full block reads freed memory, whatever
    the growth policy. *)
Theorem C84_own_object_refuted : forall A (grow : nat -> nat) (x y : A),
  let v := mkVec [x] 1 0 in
  exists r, oindex 1 v = Some r /\ value v (Obj r) = Some x /\
    fst (append grow [Table y; Obj r] v) = Ub /\
    fst (append grow [Obj r; Table y] v) = Ok.
Proof.
  intros A grow x y v. exists (mkRef 0 0). unfold v, append. repeat split.
Qed.

(** A reference got from [list[k]] leads to the k-th object as long as the
    block has not moved and the list was not cleared; once the block has
    moved it leads nowhere, for good. *)
Theorem C84_reference : forall A (grow : nat -> nat) cs (v v' : vec A) k r,
  (forall n, n < grow n) ->
  List.length (items v) <= cap v ->
  oindex k v = Some r ->
  orun grow cs v = Some v' ->
  (block v' = block v /\ (~ In OClear cs -> deref v' r <> None) /\
   deref v' r = nth_error (items v') (Z.to_nat (k - 1))) \/
  (block v < block v' /\ deref v' r = None).
Proof.
  intros A grow cs v v' k r G C I R.
  destruct (run_mono grow cs G v v' C R) as (M1 & M2).
  unfold oindex in I. cbv zeta in I.
  destruct (Z.leb_spec 0 (k - 1)); [|discriminate].
  destruct (Z.ltb_spec (k - 1) (Z.of_nat (List.length (items v)))); [|discriminate].
  cbn [andb] in I. injection I as <-. unfold deref; cbn [in_block at_pos].
  destruct (Nat.eqb_spec (block v) (block v')) as [E|E].
  - left. repeat split; [auto|]. intros N. specialize (M2 N).
    apply nth_error_Some. lia.
  - right. split; [lia|reflexivity].
Qed.

(** Assigning through a live reference changes that object only. *)
Theorem C84_assign : forall A (r : ref) (f : A -> A) (v v' : vec A),
  oassign r f v = (Ok, v') ->
  exists a, deref v r = Some a /\ deref v' r = Some (f a) /\
  List.length (items v') = List.length (items v) /\
  forall n, n <> at_pos r -> nth_error (items v') n = nth_error (items v) n.
Proof.
  intros A r f v v' H. destruct (assign_ok _ _ _ _ H) as (a & ? & ? & ? & _ & _ & ?).
  exists a. auto.
Qed.

(** [list[k]] and [totable] lead to the objects, in order; nil outside. *)
Theorem C87_objects : forall A (v : vec A) k,
  match oindex k v with
  | Some r => (1 <= k <= Z.of_nat (List.length (items v)))%Z /\
              deref v r = nth_error (items v) (Z.to_nat (k - 1))
  | None => ~ (1 <= k <= Z.of_nat (List.length (items v)))%Z
  end /\
  map (deref v) (ototable v) = map Some (items v).
Proof.
  intros A v k. split.
  - unfold oindex. cbv zeta. destruct (Z.leb_spec 0 (k - 1)); cbn [andb]; [|lia].
    destruct (Z.ltb_spec (k - 1) (Z.of_nat (List.length (items v)))); [|lia].
    split; [lia|]. unfold deref; cbn. rewrite Nat.eqb_refl. reflexivity.
  - unfold ototable. rewrite map_map. unfold deref; cbn [in_block at_pos].
    rewrite Nat.eqb_refl. generalize (items v). clear. intros l.
    induction l as [|a l IH]; [reflexivity|].
    cbn [List.length seq map]. rewrite <- seq_shift, map_map. cbn [nth_error]. rewrite IH. reflexivity.
Qed.

(** Three objects appended, the second changed through its reference, one more
    appended: the reference still works with room, not without. *)
Example C84_ex :
  let g := fun n => 2 * n + 1 in
  let v := snd (append g [Table 10; Table 20; Table 30] (mkVec [] 0 0)) in
  items v = [10; 20; 30] /\ cap v = 3 /\
  exists r, oindex 2 v = Some r /\
  (exists v1, oassign r (fun x => x + 5) v = (Ok, v1) /\ items v1 = [10; 25; 30]) /\
  orun g [OAppend [Table 40]; OAssign r (fun x => x + 5)] v = None /\
  exists v2, orun g [OClear; OAppend [Table 1; Table 2]; OAssign r (fun x => x + 5)] v = Some v2 /\
    items v2 = [1; 7].
Proof.
  cbv zeta. split; [reflexivity|]. split; [reflexivity|].
  eexists. split; [reflexivity|]. split; [eexists; split; reflexivity|].
  split; [reflexivity|]. eexists. split; reflexivity.
Qed.

Print Assumptions C43_nodup.
Print Assumptions C43_calls.
Print Assumptions C84_append_partial.
Print Assumptions C84_error_partial.
Print Assumptions C84_all_or_nothing_refuted.
Print Assumptions C84_own_object_refuted.
Print Assumptions C84_reference.
Print Assumptions C84_assign.
Print Assumptions C85_count.
Print Assumptions C85_alive.
Print Assumptions C85_equal.
Print Assumptions C85_root.
Print Assumptions C85_set_root.
Print Assumptions C87_index.
Print Assumptions C87_ipairs_partial.
Print Assumptions C87_erase_in_loop_refuted.
Print Assumptions C87_objects.
