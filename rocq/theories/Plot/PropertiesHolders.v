(** C137: the holders and springs in the pictures of vvplot. *)

From Coq Require Import ZArith Bool List String Ascii Reals Lia Lra.
From Flocq Require Import Core.Core IEEE754.BinarySingleNaN.
From Verif.Base Require Import Num F64.
From Verif.Xtract Require Import Spec.
From Verif.Print Require Import Model ModelInfo Spec Proofs.
From Verif.Isoline Require Import ProofsLevels ProofsSteps.
From Verif.Plot Require Import ModelHolders ProofsScale.
Import ListNotations.
Local Open Scope string_scope.
Local Open Scope R_scope.

(** A text that is read as a double to six digits. *)
Definition tells (s : string) (x : f64) : Prop := word s /\ exists v, reads s v /\ Rabs (v - B2R x) * 200000 <= Rabs (B2R x).

Lemma num_tells x : is_finite x = true -> tells (num x) x.
Proof.
  intros F. split; [apply show_g_word|]. exists (printed 6 (of_double x)).
  split; [apply show_g_printed; [lia|apply finite_double, F]|].
  pose proof (printed_near 6 (of_double x) ltac:(lia)) as N. rewrite real_double in N by exact F.
  replace 200000 with (2 * 10 ^ (6 - 1)) by (simpl; lra). exact N.
Qed.
Lemma word_line s : word s -> without "010" s.
Proof. unfold word, without. rewrite Forall_forall. intros H I. apply H in I. unfold word_char in I. cbn in I.
  repeat (destruct I as [I|I]; [discriminate|]). exact I. Qed.
Lemma line_app a b : without "010" a -> without "010" b -> without "010" (a ++ " " ++ b).
Proof.
  unfold without. intros A B I. induction a as [|c a IH]; cbn in *.
  - destruct I as [I|I]; [discriminate|]. exact (B I).
  - destruct I as [I|I]; [apply A; left; exact I|]. apply IH; [intros J; apply A; right; exact J|exact I].
Qed.

(** One line for each body with the place of its holder, *)
Definition holder_texts b := num (hx b) ++ " " ++ num (hy b).
Theorem C137_holders l : Forall (fun b => is_finite (hx b) = true /\ is_finite (hy b) = true) l ->
  exists rows, pieces "010" rows (body_holders l) /\
    Forall2 (fun b row => exists s t, row = s ++ " " ++ t /\ tells s (hx b) /\ tells t (hy b)) l rows.
Proof.
  intros F. exists (map holder_texts l). split; [split|].
  - apply Forall_forall. intros r Hr. apply in_map_iff in Hr. destruct Hr as (b & <- & Hb).
    apply line_app; apply word_line, show_g_word.
  - unfold body_holders. rewrite map_map. f_equal. apply map_ext. intros b. unfold holder_line, holder_texts, nl.
    rewrite !append_assoc. reflexivity.
  - induction F as [|b l (X & Y) F IH]; cbn [map]; constructor; [|exact IH].
    exists (num (hx b)), (num (hy b)). split; [reflexivity|]. split; apply num_tells; assumption.
Qed.

(** and one with the place of its axis and the arrow from there to the holder. *)
Definition spring_texts b := num (ax b) ++ " " ++ (num (ay b) ++ " " ++ (num (@nsub F64 (hx b) (ax b)) ++ " " ++ num (@nsub F64 (hy b) (ay b)))).
Theorem C137_springs l : Forall (fun b => is_finite (@nadd F64 (hx b) (px b)) = true /\ is_finite (@nadd F64 (hy b) (py b)) = true /\
    is_finite (@nsub F64 (hx b) (@nadd F64 (hx b) (px b))) = true /\ is_finite (@nsub F64 (hy b) (@nadd F64 (hy b) (py b))) = true) l ->
  exists rows, pieces "010" rows (body_springs l) /\
    Forall2 (fun b row => exists s t u v, row = s ++ " " ++ (t ++ " " ++ (u ++ " " ++ v)) /\ tells s (@nadd F64 (hx b) (px b)) /\ tells t (@nadd F64 (hy b) (py b)) /\
      tells u (@nsub F64 (hx b) (@nadd F64 (hx b) (px b))) /\ tells v (@nsub F64 (hy b) (@nadd F64 (hy b) (py b)))) l rows.
Proof.
  intros F. exists (map spring_texts l). split; [split|].
  - apply Forall_forall. intros r Hr. apply in_map_iff in Hr. destruct Hr as (b & <- & Hb).
    repeat apply line_app; apply word_line, show_g_word.
  - unfold body_springs. rewrite map_map. f_equal. apply map_ext. intros b. unfold spring_line, spring_texts, nl.
    rewrite !append_assoc. reflexivity.
  - induction F as [|b l (X & Y & U & V) F IH]; cbn [map]; constructor; [|exact IH].
    do 4 eexists. split; [reflexivity|]. split; [exact (num_tells _ X)|]. split; [exact (num_tells _ Y)|]. split; [exact (num_tells _ U)|exact (num_tells _ V)].
Qed.

(** The arrow ends at the holder, to six digits of the place of the axis. *)
Theorem C137_tip_partial (b : held) v w : is_finite (hx b) = true -> is_finite (ax b) = true ->
  Rabs (B2R (hx b) - B2R (ax b)) <= bpow radix2 1023 ->
  reads (num (ax b)) v -> reads (num (@nsub F64 (hx b) (ax b))) w ->
  Rabs (v + w - B2R (hx b)) <= (Rabs (B2R (ax b)) + 2 * Rabs (B2R (hx b) - B2R (ax b))) / 200000 + bpow radix2 (-960).
Proof.
  intros Fh Fa L V W. destruct (f64_sub_R (hx b) (ax b) 1023 Fh Fa L ltac:(lia)) as (R & F).
  destruct (num_tells (ax b) Fa) as (_ & v' & V' & Nv). destruct (num_tells _ F) as (_ & w' & W' & Nw).
  rewrite (reads_fun _ _ _ V V'), (reads_fun _ _ _ W W'). rewrite R in *.
  set (h := B2R (hx b)) in *. set (a := B2R (ax b)) in *. set (r := rnd (h - a)) in *. set (t := bpow radix2 (-960)) in *.
  assert (P : 0 < t) by apply bpow_gt_0. pose proof (Rabs_pos (h - a)).
  pose proof (rnd_near (h - a) (Rabs (h - a) + t) ltac:(lra) ltac:(fold t; lra)) as N. fold r in N.
  assert (T : / 2 ^ 53 <= / 1000000) by (apply Rinv_le; lra).
  assert (T2 : / 2 ^ 53 * (Rabs (h - a) + t) <= / 1000000 * (Rabs (h - a) + t)) by (apply Rmult_le_compat_r; lra).
  pose proof (Rabs_triang (r - (h - a)) (h - a)) as T3. replace (r - (h - a) + (h - a)) with r in T3 by ring.
  replace (v' + w' - h) with ((v' - a) + (w' - r) + (r - (h - a))) by ring.
  pose proof (Rabs_triang ((v' - a) + (w' - r)) (r - (h - a))). pose proof (Rabs_triang (v' - a) (w' - r)). lra.
Qed.

(** Ten million away the arrow of a spring of length one ends beside the holder. *)
Theorem C137_tip_refuted : exists b, num (hx b) = "1e+07" /\ num (ax b) = "1e+07" /\ num (@nsub F64 (hx b) (ax b)) = "-1".
Proof. exists (mkHeld (f64_ofZ 10000000) (f64_ofZ 0) (f64_ofZ 1) (f64_ofZ 0)). repeat split; vm_compute; reflexivity. Qed.

Example C137_ex : body_springs [mkHeld (f64_ofZ 3) (f64_ofZ 1) (f64_dec 5 1) (f64_ofZ (-1)); mkHeld (f64_ofZ 0) (f64_ofZ 0) (f64_ofZ 0) (f64_ofZ 0)]
  = "3.5 0 -0.5 1" ++ nl ++ "0 0 0 0" ++ nl.
Proof. vm_compute. reflexivity. Qed.
Example C137_ex_holders : body_holders [mkHeld (f64_ofZ 3) (f64_ofZ 1) (f64_dec 5 1) (f64_ofZ (-1))] = "3 1" ++ nl.
Proof. vm_compute. reflexivity. Qed.

Print Assumptions C137_holders.
Print Assumptions C137_springs.
Print Assumptions C137_tip_partial.
Print Assumptions C137_tip_refuted.
