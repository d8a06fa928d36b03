(** Properties C06, C07: expressions of time. *)

From Coq Require Import Bool List String ZArith.
From Flocq Require Import IEEE754.BinarySingleNaN.
From Verif.Base Require Import Num.
From Verif.Eval Require Import Model Spec Proofs.
Import ListNotations.
Local Open Scope string_scope.

Lemma zero_blind chunk (denote : chunk -> f64 -> outcome) : forall c t t',
  not_minus_zero t -> not_minus_zero t' -> @neqb F64 t t' = true -> denote c t = denote c t'.
Proof. intros c t t' G G' E. f_equal. apply eqb_not_minus_zero; assumption. Qed.

Lemma good_ops ops : (forall i t, In (Eval i t) ops -> t <> B754_zero true) -> Forall (good_op not_minus_zero) ops.
Proof.
  intros H. rewrite Forall_forall. intros x Hx. destruct x; try exact I. apply (H i). assumption.
Qed.

(** * C06 *)

(** For every interpreter whose chunks are pure functions of [t], and as long as
    no expression is evaluated at -0, the answers to every history of operations are those
    of objects that remember a text only and evaluate it afresh. *)
Theorem C06_cache_invisible_partial :
  forall lua (init : lua) chunk (load : string -> option chunk) call (denote : chunk -> f64 -> outcome),
  (forall l c t, snd (call l c t) = denote c t) ->
  forall ops : list op, (forall i t, In (Eval i t) ops -> t <> B754_zero true) ->
  run lua init chunk load call (start lua init chunk) ops =
  spec_run (fun s => option_map denote (match load ("return " ++ s) with Some c => Some c | None => load s end))
    (fun _ => "") ops.
Proof.
  intros lua init chunk load call denote P ops Z.
  refine (run_ok lua init chunk load call denote P not_minus_zero (zero_blind chunk denote) ops _ _ _
           (start_ok lua init chunk load denote not_minus_zero)).
  apply good_ops. assumption.
Qed.
Print Assumptions C06_cache_invisible_partial.

(** A small interpreter: texts "1", "t", "1/t"; it counts its calls. *)
Inductive demo := One | Time | Inverse.
Definition demo_load (s : string) : option demo :=
  if String.eqb s "return 1" then Some One
  else if String.eqb s "return t" then Some Time
  else if String.eqb s "return 1/t" then Some Inverse
  else None.
Definition demo_denote (c : demo) (t : f64) : outcome :=
  match c with One => Number (f64_ofZ 1) | Time => Number t | Inverse => Number (@ndiv F64 (f64_ofZ 1) t) end.
Definition demo_call (l : nat) (c : demo) (t : f64) : nat * outcome := (S l, demo_denote c t).

Definition show (a : answer) : option (SpecFloat.spec_float) + unit :=
  match a with Done => inl None | Value x => inl (Some (B2SF x)) | Failed => inr tt end.
Definition z (n : Z) := @inl _ unit (Some (B2SF (f64_ofZ n))).

Example C06_case :
  map show (run nat 0%nat demo demo_load demo_call (start nat 0%nat demo)
    [Eval 0 (f64_ofZ 5); Assign 0 "t"; Eval 0 (f64_ofZ 5); Eval 0 (f64_ofZ 6); Eval 0 (f64_ofZ 5);
     Assign 0 "t+"; Eval 0 (f64_ofZ 5); Copy 1 0; Assign 0 "1"; Eval 0 (f64_ofZ 5); Eval 1 (f64_ofZ 5);
     Assign 0 ""; Eval 0 (f64_ofZ 5)])
  = [z 0; inl None; z 5; z 6; z 5; inr tt; z 5; inl None; inl None; z 1; z 5; inl None; z 0].
Proof. vm_compute. reflexivity. Qed.

(** With -0 it is false: "1/t" at 0 and then at -0. *)
Theorem C06_signed_zero_refuted :
  exists (denote : demo -> f64 -> outcome) ops,
  run nat 0%nat demo demo_load (fun l c t => (l, denote c t)) (start nat 0%nat demo) ops <>
  spec_run (fun s => option_map denote (match demo_load ("return " ++ s) with Some c => Some c | None => demo_load s end))
    (fun _ => "") ops.
Proof.
  exists demo_denote, [Assign 0 "1/t"; Eval 0 (B754_zero false); Eval 0 (B754_zero true)].
  intros H. apply (f_equal (fun l => nth 2 (map show l) (inr tt))) in H.
  vm_compute in H. discriminate.
Qed.
Print Assumptions C06_signed_zero_refuted.

(** Without purity it is false: a chunk that returns how often it was called
    gives the cached count. *)
Theorem C06_impure_refuted :
  exists (call : nat -> unit -> f64 -> nat * outcome) ops n,
  (forall l c t, call l c t = (S l, Number (f64_ofZ (Z.of_nat l)))) /\
  nth 1 (map show (run nat 0%nat unit (fun _ => Some tt) call (start nat 0%nat unit) ops)) (inr tt) = n /\
  nth 2 (map show (run nat 0%nat unit (fun _ => Some tt) call (start nat 0%nat unit) ops)) (inr tt) = n.
Proof.
  exists (fun l _ _ => (S l, Number (f64_ofZ (Z.of_nat l)))),
    [Assign 0 "count()"; Eval 0 (f64_ofZ 7); Eval 0 (f64_ofZ 7)], (z 1).
  split; [reflexivity|]. vm_compute. split; reflexivity.
Qed.
Print Assumptions C06_impure_refuted.

(** * C07 *)

(** A refused assignment after any history changes neither the text of any
    object nor any later answer, for pure chunks.  Missing: chunks with side
    effects, see below. *)
Theorem C07_rejected_partial :
  forall lua (init : lua) chunk (load : string -> option chunk) call (denote : chunk -> f64 -> outcome),
  (forall l c t, snd (call l c t) = denote c t) ->
  forall (before later : list op) i s st',
  (forall k t, In (Eval k t) (before ++ later)%list -> t <> B754_zero true) ->
  let st := after lua init chunk load call (start lua init chunk) before in
  step lua init chunk load call st (Assign i s) = (st', Failed) ->
  (forall k, expr lua chunk (st' k) = expr lua chunk (st k)) /\
  run lua init chunk load call st' later = run lua init chunk load call st later.
Proof.
  intros lua init chunk load call denote P before later i s st' Z st H.
  apply good_ops in Z. apply Forall_app in Z as (Z1 & Z2).
  pose proof (after_ok lua init chunk load call denote P _ (zero_blind chunk denote) before Z1 _ _ (start_ok lua init chunk load denote not_minus_zero)) as A.
  fold st in A. pose proof (step_ok lua init chunk load call denote P _ (zero_blind chunk denote) st _ (Assign i s) I A) as (B & C).
  rewrite H in B, C. cbn [fst snd] in B, C.
  assert (E : fst (spec_step (meaning chunk load denote) (spec_after chunk load denote (fun _ => "") before) (Assign i s))
              = spec_after chunk load denote (fun _ => "") before).
  { cbn [spec_step] in *. unfold set_text in *. destruct (_ || _); [discriminate|reflexivity]. }
  rewrite E in B. split.
  - intros k. destruct (A k) as (a & _). destruct (B k) as (b & _). congruence.
  - rewrite (run_ok lua init chunk load call denote P _ (zero_blind chunk denote) later Z2 _ _ A).
    rewrite (run_ok lua init chunk load call denote P _ (zero_blind chunk denote) later Z2 _ _ B). reflexivity.
Qed.
Print Assumptions C07_rejected_partial.

(** Conversely a text is refused exactly when it is not empty and either does
    not compile or does not yield a number at 0. *)
Theorem C07_refused_iff : forall lua (init : lua) chunk (load : string -> option chunk) call st i s,
  let c := match load ("return " ++ s) with Some c => Some c | None => load s end in
  snd (step lua init chunk load call st (Assign i s)) = Failed <->
  s <> "" /\ (c = None \/ exists k, c = Some k /\
    forall x, snd (call (state lua chunk (st i)) k (f64_ofZ 0)) <> Number x).
Proof.
  intros lua init chunk load call st i s. cbv zeta. cbn [step]. unfold assign, compile.
  destruct (String.eqb s "") eqn:E.
  { apply String.eqb_eq in E. split; [discriminate|]. intros (H & _). congruence. }
  apply String.eqb_neq in E.
  destruct (match load ("return " ++ s) with Some c => Some c | None => load s end) as [k|].
  2:{ cbn. split; auto. }
  destruct (call (state lua chunk (st i)) k (f64_ofZ 0)) as (l & r) eqn:CE.
  destruct r as [x| |]; cbn [snd].
  - split; [discriminate|]. intros (_ & [H|(k' & H & N)]); [discriminate|].
    injection H as <-. rewrite CE in N. cbn in N. congruence.
  - split; [|reflexivity]. intros _. split; [assumption|]. right. exists k. split; [reflexivity|]. rewrite CE. cbn. discriminate.
  - split; [|reflexivity]. intros _. split; [assumption|]. right. exists k. split; [reflexivity|]. rewrite CE. cbn. discriminate.
Qed.
Print Assumptions C07_refused_iff.

Example C07_case :
  map show (run nat 0%nat demo demo_load demo_call (start nat 0%nat demo)
    [Assign 0 "t"; Eval 0 (f64_ofZ 5); Assign 0 "t)"; Eval 0 (f64_ofZ 5); Eval 0 (f64_ofZ 9)])
  = [inl None; z 5; inr tt; z 5; z 9].
Proof. vm_compute. reflexivity. Qed.

(** False for chunks with side effects: a refused script that changes a global
    variable changes the accepted expression that reads it. *)
Theorem C07_side_effect_refuted :
  exists (call : nat -> bool -> f64 -> nat * outcome) (load : string -> option bool),
  let st := after nat 1%nat bool load call (start nat 1%nat bool) [Assign 0 "x"] in
  let st' := fst (step nat 1%nat bool load call st (Assign 0 "x=2")) in
  snd (step nat 1%nat bool load call st (Assign 0 "x=2")) = Failed /\
  map show (run nat 1%nat bool load call st [Eval 0 (f64_ofZ 3)]) <>
  map show (run nat 1%nat bool load call st' [Eval 0 (f64_ofZ 3)]).
Proof.
  exists (fun (l : nat) (c : bool) (_ : f64) => if c then (l, Number (f64_ofZ (Z.of_nat l))) else (2%nat, NotNumber)),
    (fun s => if String.eqb s "return x" then Some true else if String.eqb s "x=2" then Some false else None).
  cbv zeta. split; [reflexivity|]. vm_compute. discriminate.
Qed.
Print Assumptions C07_side_effect_refuted.
