(** Loops with binary fuel.

    [loop p f s] iterates a loop body [f] at most [Pos.to_nat p] times,
    starting from state [s].  The body answers [inl s'] to continue with state
    [s'] and [inr r] to leave the loop with result [r].  Running out of fuel is
    visible: the answer is then [inl] of the last state, never a result.
    Fuel is a binary number so a bound such as 2^64 costs nothing. *)

From Coq Require Import PArith ZArith Lia.

Section Loop.
  Context {S R : Type}.
  Variable f : S -> S + R.

  Fixpoint loop (p : positive) (s : S) : S + R :=
    match p with
    | xH => f s
    | xO q =>
        match loop q s with
        | inl s' => loop q s'
        | inr r => inr r
        end
    | xI q =>
        match f s with
        | inl s0 =>
            match loop q s0 with
            | inl s' => loop q s'
            | inr r => inr r
            end
        | inr r => inr r
        end
    end.

  (** Reference version with unary fuel, used in proofs only. *)
  Fixpoint loop_nat (n : nat) (s : S) : S + R :=
    match n with
    | O => inl s
    | Datatypes.S m =>
        match f s with
        | inl s' => loop_nat m s'
        | inr r => inr r
        end
    end.

  Lemma loop_nat_add : forall n m s,
    loop_nat (n + m) s =
    match loop_nat n s with inl s' => loop_nat m s' | inr r => inr r end.
  Proof.
    induction n as [|n IH]; intros m s; cbn; [reflexivity|].
    destruct (f s) as [s'|r]; [apply IH|reflexivity].
  Qed.

  Lemma loop_eq_nat : forall p s, loop p s = loop_nat (Pos.to_nat p) s.
  Proof.
    induction p as [q IH|q IH|]; intros s; cbn [loop].
    - replace (Pos.to_nat q~1) with (1 + (Pos.to_nat q + Pos.to_nat q)) by lia.
      cbn [plus loop_nat]. destruct (f s) as [s0|r]; [|reflexivity].
      rewrite loop_nat_add, <- IH.
      destruct (loop q s0) as [s'|r]; [apply IH|reflexivity].
    - replace (Pos.to_nat q~0) with (Pos.to_nat q + Pos.to_nat q) by lia.
      rewrite loop_nat_add, <- IH.
      destruct (loop q s) as [s'|r]; [apply IH|reflexivity].
    - change (Pos.to_nat 1) with 1. cbn [loop_nat]. destruct (f s); reflexivity.
  Qed.

  (** Invariant rule: what holds initially, is kept by the body, and implies
      [Q] on leaving, gives [Q] for every result of the loop. *)
  Lemma loop_nat_inv (I : S -> Prop) (Q : R -> Prop) :
    (forall s s', I s -> f s = inl s' -> I s') ->
    (forall s r, I s -> f s = inr r -> Q r) ->
    forall n s r, I s -> loop_nat n s = inr r -> Q r.
  Proof.
    intros Hstep Hexit n. induction n as [|n IH]; intros s r Hs; cbn; [discriminate|].
    destruct (f s) as [s'|r'] eqn:E.
    - intros H. eapply IH; [|exact H]. eapply Hstep; eauto.
    - intros H. inversion H; subst. eapply Hexit; eauto.
  Qed.

  Lemma loop_inv (I : S -> Prop) (Q : R -> Prop) :
    (forall s s', I s -> f s = inl s' -> I s') ->
    (forall s r, I s -> f s = inr r -> Q r) ->
    forall p s r, I s -> loop p s = inr r -> Q r.
  Proof.
    intros H1 H2 p s r Hs H. rewrite loop_eq_nat in H.
    eapply loop_nat_inv; eauto.
  Qed.

  (** Termination rule: a measure that drops at every continuing step and
      starts below the fuel guarantees a result. *)
  Lemma loop_nat_terminates (I : S -> Prop) (mu : S -> Z) :
    (forall s, I s -> (0 <= mu s)%Z) ->
    (forall s s', I s -> f s = inl s' -> I s' /\ (mu s' < mu s)%Z) ->
    forall n s, I s -> (mu s < Z.of_nat n)%Z -> exists r, loop_nat n s = inr r.
  Proof.
    intros Hpos Hstep n. induction n as [|n IH]; intros s Hs Hmu.
    - specialize (Hpos s Hs). lia.
    - cbn. destruct (f s) as [s'|r] eqn:E; [|eauto].
      destruct (Hstep s s' Hs E) as [Hs' Hlt]. apply IH; [assumption|lia].
  Qed.

  Lemma loop_terminates (I : S -> Prop) (mu : S -> Z) :
    (forall s, I s -> (0 <= mu s)%Z) ->
    (forall s s', I s -> f s = inl s' -> I s' /\ (mu s' < mu s)%Z) ->
    forall p s, I s -> (mu s < Zpos p)%Z -> exists r, loop p s = inr r.
  Proof.
    intros H1 H2 p s Hs Hmu. rewrite loop_eq_nat.
    eapply loop_nat_terminates; eauto. lia.
  Qed.
End Loop.
