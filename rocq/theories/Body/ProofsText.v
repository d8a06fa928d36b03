(** Reading corners from text. *)

From Coq Require Import ZArith Bool List String.
From Verif.Base Require Import Num.
From Verif.Body Require Import Model.
Import ListNotations.

Section Text.
Context {K : Num}.
Variable scan : string -> option K * option K * option Z.

Lemma load_complete lines vals :
  Forall2 (fun line v => let '(a, b, s) := v in scan line = (Some a, Some b, Some s)) lines vals ->
  load_txt scan lines = mkLoaded (map (fun v => let '(a, b, s) := v in (a, b, negb (s =? 0)%Z)) vals) false.
Proof.
  unfold load_txt. generalize (@nofZ K 0) at 1. generalize (@nofZ K 0). generalize 0%Z at 1.
  intros z u v H. revert z u v. induction H as [|line [[a b] s] t vs E F IH]; intros z u v; [reflexivity|].
  cbn [load_lines]. rewrite E. rewrite IH. reflexivity.
Qed.

Lemma load_plain lines vals :
  Forall2 (fun line v => let '(a, b) := v in scan line = (Some a, Some b, None)) lines vals ->
  load_txt scan lines = mkLoaded (map (fun v => let '(a, b) := v in (a, b, false)) vals) false.
Proof.
  unfold load_txt. generalize (@nofZ K 0) at 1. generalize (@nofZ K 0).
  intros u v H. revert u v. induction H as [|line [a b] t vs E F IH]; intros u v; [reflexivity|].
  cbn [load_lines]. rewrite E. rewrite IH. reflexivity.
Qed.

Lemma load_bad lines : failed (load_txt scan lines) = true <->
  exists line, In line lines /\ forall a b s, scan line <> (Some a, Some b, s).
Proof.
  unfold load_txt. generalize (@nofZ K 0) at 1. generalize (@nofZ K 0). generalize 0%Z.
  induction lines as [|line t IH]; intros z u v; cbn [load_lines].
  - split; [discriminate|intros (l & [] & _)].
  - destruct (scan line) as [[fx fy] fs] eqn:E.
    destruct fx as [a|]; [destruct fy as [b|]|]; cbn [failed].
    + rewrite IH. split.
      * intros (l & I & H). exists l. split; [right|]; auto.
      * intros (l & [<-|I] & H); [exfalso; eapply H; exact E|]. exists l. auto.
    + split; auto. intros _. exists line. split; [left; auto|]. intros. rewrite E. discriminate.
    + split; auto. intros _. exists line. split; [left; auto|]. intros. rewrite E. discriminate.
Qed.
End Text.
