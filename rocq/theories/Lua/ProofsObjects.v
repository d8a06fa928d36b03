(** Proofs about the object lists and the references into them. *)

From Coq Require Import List ZArith Bool Arith Lia.
From Verif Require Import Lua.Model Lua.Spec.
Import ListNotations.

Section Objects.
Context {A : Type}.
Variable grow : nat -> nat.

Lemma push_items (v : vec A) a : items (push_back grow v a) = items v ++ [a].
Proof. unfold push_back. destruct (_ <? _); reflexivity. Qed.

Lemma deref_value (v : vec A) r : deref v r = value v (Obj r).
Proof. reflexivity. Qed.

(** How many arguments can be taken before the block moves. *)
Definition room (v : vec A) : nat := cap v - List.length (items v).

(** Where the vector [u] stands after the values [xs] were pushed on [v]. *)
Definition after (v : vec A) (xs : list A) (u : vec A) : Prop :=
  items u = items v ++ xs /\
  (if List.length xs <=? room v
   then cap u = cap v /\ block u = block v
   else block v < block u).

Lemma after_nil v : after v [] v.
Proof. split; [symmetry; apply app_nil_r|]. cbn. auto. Qed.

Lemma after_push v xs u a : List.length (items v) <= cap v ->
  after v xs u -> after v (xs ++ [a]) (push_back grow u a).
Proof.
  intros C [I B]. split; [rewrite push_items, I, app_assoc; reflexivity|].
  rewrite app_length; cbn [List.length]. unfold room in *.
  unfold push_back. rewrite I, app_length.
  destruct (Nat.leb_spec (List.length xs) (cap v - List.length (items v))) as [L|L].
  - destruct B as [B1 B2]. rewrite B1.
    destruct (Nat.leb_spec (List.length xs + 1) (cap v - List.length (items v))) as [L'|L'].
    + destruct (Nat.ltb_spec (List.length (items v) + List.length xs) (cap v)); cbn; [auto|lia].
    + destruct (Nat.ltb_spec (List.length (items v) + List.length xs) (cap v)); cbn; lia.
  - destruct (Nat.leb_spec (List.length xs + 1) (cap v - List.length (items v))); [lia|].
    destruct (_ <? _); cbn; lia.
Qed.

(** The value of an argument while [append] is at work: unchanged as long as
    the block has not moved, lost afterwards. *)
Lemma value_after v xs u r x : after v xs u -> value v (Obj r) = Some x ->
  deref u r = if List.length xs <=? room v then Some x else None.
Proof.
  intros [I B] V. cbn in V. unfold deref.
  destruct (Nat.eqb_spec (in_block r) (block v)) as [E|E]; [|discriminate].
  destruct (_ <=? _).
  - destruct B as [_ B]. rewrite B, E, Nat.eqb_refl, I.
    rewrite nth_error_app1; [exact V|]. apply nth_error_Some. congruence.
  - destruct (Nat.eqb_spec (in_block r) (block u)); [lia|reflexivity].
Qed.

(** An own reference among the arguments, past the room of the block. *)
Definition late (v : vec A) (n : nat) (args : list (arg A)) : Prop :=
  exists pre r post, args = pre ++ Obj r :: post /\ room v < n + List.length pre.

Lemma late_cons v n a args : late v (S n) args -> late v n (a :: args).
Proof.
  intros (pre & r & post & -> & H). exists (a :: pre), r, post. split; [reflexivity|cbn; lia].
Qed.

Lemma late_inv v n a args : late v n (a :: args) ->
  (exists r, a = Obj r /\ room v < n) \/ late v (S n) args.
Proof.
  intros ([|b pre] & r & post & E & H); cbn in *.
  - injection E as -> ->. left. exists r. split; [reflexivity|lia].
  - injection E as -> ->. right. exists pre, r, post. split; [reflexivity|lia].
Qed.

Lemma append_gen (v : vec A) (tl : list (arg A)) : List.length (items v) <= cap v ->
  (tl = [] \/ exists rest, tl = Bad :: rest) ->
  forall args xs ys u i, after v xs u -> map (value v) args = map Some ys ->
  (late v (List.length xs) args /\ fst (append_from grow i (args ++ tl) u) = Ub) \/
  (~ late v (List.length xs) args /\
   exists u', after v (xs ++ ys) u' /\
     append_from grow i (args ++ tl) u =
       (match tl with [] => Ok | _ => ArgError (i + List.length args) end, u')).
Proof.
  intros C Htl. induction args as [|a args IH]; intros xs ys u i Hu Hv.
  - destruct ys; [|discriminate]. right. split.
    { intros (pre & r & post & E & _). destruct pre; discriminate. }
    exists u. rewrite app_nil_r. split; [exact Hu|]. cbn [app].
    destruct Htl as [->|(rest & ->)]; cbn; [reflexivity|].
    rewrite Nat.add_0_r. reflexivity.
  - destruct ys as [|y ys]; [discriminate|]. cbn [map] in Hv. injection Hv as Ha Hv.
    assert (Step : (late v (List.length (xs ++ [y])) args /\
        fst (append_from grow (S i) (args ++ tl) (push_back grow u y)) = Ub) \/
      (~ late v (List.length (xs ++ [y])) args /\
       exists u', after v ((xs ++ [y]) ++ ys) u' /\
         append_from grow (S i) (args ++ tl) (push_back grow u y) =
           (match tl with [] => Ok | _ => ArgError (S i + List.length args) end, u'))).
    { apply IH; [|exact Hv]. apply after_push; assumption. }
    rewrite app_length, Nat.add_1_r in Step. rewrite <- app_assoc in Step. cbn [app] in Step.
    assert (R : forall k, i + S k = S i + k) by (intros; lia).
    destruct a as [b|r|]; cbn [app append_from].
    + injection Ha as ->.
      destruct Step as [[L E]|[L (u' & U & E)]].
      * left. split; [exact (late_cons _ _ _ _ L)|exact E].
      * right. split.
        { intros K. destruct (late_inv _ _ _ _ K) as [(r & F & _)|K']; [discriminate|auto]. }
        exists u'. split; [exact U|]. cbn [List.length]. rewrite R. exact E.
    + rewrite (value_after _ _ _ _ _ Hu Ha).
      destruct (Nat.leb_spec (List.length xs) (room v)) as [Q|Q].
      * destruct Step as [[L E]|[L (u' & U & E)]].
        -- left. split; [exact (late_cons _ _ _ _ L)|exact E].
        -- right. split.
           { intros K. destruct (late_inv _ _ _ _ K) as [(r' & _ & F)|K']; [lia|auto]. }
           exists u'. split; [exact U|]. cbn [List.length]. rewrite R. exact E.
      * left. split; [|reflexivity]. exists [], r, args. split; [reflexivity|cbn; lia].
    + discriminate.
Qed.

(** ** Assigning through a reference *)

Lemma assign_ok r f (v v' : vec A) : oassign r f v = (Ok, v') ->
  exists a, deref v r = Some a /\ deref v' r = Some (f a) /\
  List.length (items v') = List.length (items v) /\ cap v' = cap v /\ block v' = block v /\
  forall n, n <> at_pos r -> nth_error (items v') n = nth_error (items v) n.
Proof.
  unfold oassign. destruct (deref v r) as [a|] eqn:E; [|discriminate].
  intros H. apply (f_equal snd) in H. cbn [snd] in H. subst v'. exists a. split; [reflexivity|].
  unfold deref in *. cbn [block items cap] in *.
  destruct (in_block r =? block v); [|discriminate].
  pose proof (nth_error_split _ _ E) as (l1 & l2 & S1 & S2).
  assert (F : firstn (at_pos r) (items v) = l1).
  { rewrite S1, <- S2, firstn_app, firstn_all, Nat.sub_diag, firstn_O, app_nil_r. reflexivity. }
  assert (K : skipn (S (at_pos r)) (items v) = l2).
  { rewrite S1, <- S2. clear. induction l1 as [|x l1 IH]; [reflexivity|exact IH]. }
  rewrite F, K, S1. repeat split.
  - rewrite nth_error_app2 by lia. rewrite S2, Nat.sub_diag. reflexivity.
  - rewrite !app_length. reflexivity.
  - intros n Hn. destruct (Nat.lt_ge_cases n (List.length l1)).
    + rewrite !nth_error_app1 by lia. reflexivity.
    + rewrite !nth_error_app2 by lia. destruct (n - List.length l1) eqn:D; [lia|reflexivity].
Qed.

(** ** Histories *)

Lemma append_mono args : forall i (v : vec A), List.length (items v) <= cap v ->
  (forall n, n < grow n) ->
  let v' := snd (append_from grow i args v) in
  block v <= block v' /\ List.length (items v) <= List.length (items v') /\
  List.length (items v') <= cap v' /\
  (forall n a, nth_error (items v) n = Some a -> nth_error (items v') n = Some a).
Proof.
  induction args as [|a args IH]; intros i v C G; cbn [append_from]; [cbn; auto|].
  assert (P : forall x,
    block v <= block (push_back grow v x) /\
    List.length (items v) <= List.length (items (push_back grow v x)) /\
    List.length (items (push_back grow v x)) <= cap (push_back grow v x) /\
    (forall n a, nth_error (items v) n = Some a ->
                 nth_error (items (push_back grow v x)) n = Some a)).
  { intros x. rewrite push_items, app_length. cbn [List.length]. unfold push_back.
    specialize (G (List.length (items v))).
    destruct (Nat.ltb_spec (List.length (items v)) (cap v)); cbn; repeat split; try lia;
    intros n y E; (rewrite nth_error_app1; [exact E|]; apply nth_error_Some; congruence). }
  assert (Q : forall x, let v' := snd (append_from grow (S i) args (push_back grow v x)) in
    block v <= block v' /\ List.length (items v) <= List.length (items v') /\
    List.length (items v') <= cap v' /\
    (forall n a, nth_error (items v) n = Some a -> nth_error (items v') n = Some a)).
  { intros x. destruct (P x) as (P1 & P2 & P3 & P4).
    destruct (IH (S i) (push_back grow v x) P3 G) as (Q1 & Q2 & Q3 & Q4).
    cbv zeta. repeat split; try lia. intros n y E. apply Q4, P4, E. }
  destruct a as [x|r|]; [apply Q| |cbn; auto].
  destruct (deref v r); [apply Q|cbn; auto].
Qed.

Lemma run_mono cs : (forall n, n < grow n) -> forall (v v' : vec A),
  List.length (items v) <= cap v -> orun grow cs v = Some v' ->
  block v <= block v' /\
  (~ In OClear cs -> List.length (items v) <= List.length (items v')).
Proof.
  intros G. induction cs as [|c cs IH]; intros v v' C R; cbn [orun] in R.
  { injection R as <-. auto. }
  assert (S : block v <= block (snd (ostep grow c v)) /\
    List.length (items (snd (ostep grow c v))) <= cap (snd (ostep grow c v)) /\
    (c <> OClear -> List.length (items v) <= List.length (items (snd (ostep grow c v))))).
  { destruct c as [args| |r f]; cbn [ostep].
    - destruct (append_mono args 2 v C G) as (? & ? & ? & _). auto.
    - cbn. repeat split; auto; try lia. congruence.
    - destruct (oassign r f v) as [s u] eqn:E. destruct s.
      + destruct (assign_ok _ _ _ _ E) as (a & _ & _ & L & K & B & _). cbn. lia.
      + unfold oassign in E. destruct (deref v r); discriminate.
      + unfold oassign in E. destruct (deref v r); [discriminate|]. injection E as <-. cbn. lia. }
  destruct (ostep grow c v) as [s u]. cbn [snd] in S. destruct S as (S1 & S2 & S3).
  destruct s; [| |discriminate].
  - destruct (IH u v' S2 R) as (I1 & I2). split; [lia|].
    intros N. assert (c <> OClear /\ ~ In OClear cs) as [N1 N2]
      by (split; intro K; apply N; [left; auto|right; auto]).
    specialize (S3 N1). specialize (I2 N2). lia.
  - destruct (IH u v' S2 R) as (I1 & I2). split; [lia|].
    intros N. assert (c <> OClear /\ ~ In OClear cs) as [N1 N2]
      by (split; intro K; apply N; [left; auto|right; auto]).
    specialize (S3 N1). specialize (I2 N2). lia.
Qed.

End Objects.
