From Coq Require Import ZArith Bool List String Arith.
From Flocq Require Import IEEE754.BinarySingleNaN.
From Verif.Base Require Import Num.
From Verif.Eval Require Import Model Spec.
Import ListNotations.
Local Open Scope string_scope.

Section Proofs.
Variables (lua : Type) (lua_init : lua) (chunk : Type).
Variable load : string -> option chunk.
Variable call : lua -> chunk -> f64 -> lua * outcome.
Variable denote : chunk -> f64 -> outcome.
Hypothesis pure : forall l c t, snd (call l c t) = denote c t.
Variable good : f64 -> Prop.      (* the times asked for *)
Hypothesis zero_blind : forall c t t', good t -> good t' -> @neqb F64 t t' = true -> denote c t = denote c t'.

Definition meaning (s : string) : option (f64 -> outcome) :=
  option_map denote (compile chunk load s).

Notation teval := (teval lua chunk).
Notation assign := (assign lua chunk load call).
Notation eval := (eval lua chunk call).
Notation expr := (expr lua chunk).
Notation evaluator := (evaluator lua chunk).
Notation time1 := (time1 lua chunk).
Notation time2 := (time2 lua chunk).
Notation value1 := (value1 lua chunk).
Notation value2 := (value2 lua chunk).

(** A cached pair is a value of the current chunk or can never be hit. *)
Definition entry_ok (c : chunk) (t v : f64) : Prop :=
  (forall x, @neqb F64 x t = false) \/ (good t /\ denote c t = Number v).

Definition ok (o : teval) (s : string) : Prop :=
  expr o = s /\
  (s <> "" -> exists c, compile chunk load s = Some c /\ evaluator o = Some c /\
     acceptable meaning s = true /\ entry_ok c (time1 o) (value1 o) /\ entry_ok c (time2 o) (value2 o)).

Lemma nan_eq (x : f64) : @neqb F64 x f64_nan = false.
Proof. unfold neqb, F64, f64_nan, Beqb. destruct x as [[]|[]| |[] m e H]; reflexivity. Qed.

Lemma ok_new : ok (new lua lua_init chunk) "".
Proof. split; [reflexivity|]. intros H. congruence. Qed.

Lemma assign_ok o s0 s : ok o s0 ->
  ok (fst (assign o s)) (if String.eqb s "" || acceptable meaning s then s else s0) /\
  snd (assign o s) = if String.eqb s "" || acceptable meaning s then Done else Failed.
Proof.
  intros (E & K). unfold Model.assign. destruct (String.eqb s "") eqn:ES.
  { apply String.eqb_eq in ES. subst s. cbn [orb fst snd]. split; [|reflexivity]. split; [reflexivity|]. congruence. }
  cbn [orb]. apply String.eqb_neq in ES.
  unfold acceptable, meaning. destruct (compile chunk load s) as [c|] eqn:C.
  2:{ cbn. split; [|reflexivity]. split; assumption. }
  cbn [option_map]. pose proof (pure (state lua chunk o) c (f64_ofZ 0%Z)) as PU.
  destruct (call (state lua chunk o) c (f64_ofZ 0%Z)) as (l & r). cbn [snd] in PU. subst r.
  destruct (denote c (f64_ofZ 0%Z)) as [x| |] eqn:D; cbn [fst snd].
  - split; [|reflexivity]. split; [reflexivity|]. intros _. exists c.
    split; [assumption|]. split; [reflexivity|]. split.
    + unfold acceptable, meaning. rewrite C. cbn [option_map]. rewrite D. reflexivity.
    + split; left; intros y; apply nan_eq.
  - split; [|reflexivity]. split; assumption.
  - split; [|reflexivity]. split; assumption.
Qed.

Lemma eval_ok o s t : good t -> ok o s ->
  ok (fst (eval o t)) s /\ snd (eval o t) = value_of meaning s t.
Proof.
  intros GT (E & K). unfold Model.eval, value_of. rewrite E.
  destruct (String.eqb s "") eqn:ES.
  { cbn. split; [split; assumption|reflexivity]. }
  apply String.eqb_neq in ES. destruct (K ES) as (c & C & EV & A & E1 & E2).
  replace (meaning s) with (Some (denote c)) by (unfold meaning; rewrite C; reflexivity).
  destruct (@neqb F64 t (time2 o)) eqn:T2.
  { split; [split; assumption|]. destruct E2 as [E2|(G2 & E2)]; [rewrite E2 in T2; discriminate|].
    rewrite (zero_blind c _ _ GT G2 T2), E2. reflexivity. }
  destruct (@neqb F64 t (time1 o)) eqn:T1.
  { split; [split; assumption|]. destruct E1 as [E1|(G1 & E1)]; [rewrite E1 in T1; discriminate|].
    rewrite (zero_blind c _ _ GT G1 T1), E1. reflexivity. }
  rewrite EV. pose proof (pure (state lua chunk o) c t) as PU.
  destruct (call (state lua chunk o) c t) as (l & r). cbn [snd] in PU. subst r.
  destruct (denote c t) as [x| |] eqn:D; cbn [fst snd].
  - split; [|reflexivity]. split; [reflexivity|]. intros _. exists c.
    split; [assumption || reflexivity|]. split; [assumption || reflexivity|]. split; [assumption || reflexivity|]. split; [right; split; [exact GT|exact D]|exact E1].
  - split; [|reflexivity]. split; [assumption || reflexivity|]. intros _. exists c. split; [assumption || reflexivity|]. split; [assumption || reflexivity|]. split; [assumption || reflexivity|]. split; [exact E1|exact E2].
  - split; [|reflexivity]. split; [assumption || reflexivity|]. intros _. exists c. split; [assumption || reflexivity|]. split; [assumption || reflexivity|]. split; [assumption || reflexivity|]. split; [exact E1|exact E2].
Qed.

Notation step := (step lua lua_init chunk load call).

Definition all_ok (st : nat -> teval) (txt : nat -> string) := forall i, ok (st i) (txt i).

Definition good_op (x : op) : Prop := match x with Eval _ t => good t | _ => True end.

Lemma step_ok st txt x : good_op x -> all_ok st txt ->
  all_ok (fst (step st x)) (fst (spec_step meaning txt x)) /\
  snd (step st x) = snd (spec_step meaning txt x).
Proof.
  intros GX H. destruct x as [i|i s|i j|i t]; cbn [Model.step spec_step].
  - split; [|reflexivity]. intros k. cbn [fst]. unfold update. destruct (k =? i)%nat; [apply ok_new|apply H].
  - destruct (assign_ok (st i) (txt i) s (H i)) as (A & B). unfold set_text.
    destruct (assign (st i) s) as (o & a). cbn [fst snd] in *.
    destruct (String.eqb s "" || acceptable meaning s); cbn [fst snd]; (split; [|assumption]);
      intros k; unfold update; destruct (Nat.eqb_spec k i); try apply H; subst; assumption.
  - destruct (assign_ok (st i) (txt i) (txt j) (H i)) as (A & B). unfold set_text.
    destruct (H j) as (Ej & _). rewrite Ej.
    destruct (assign (st i) (txt j)) as (o & a). cbn [fst snd] in *.
    destruct (String.eqb (txt j) "" || acceptable meaning (txt j)); cbn [fst snd]; (split; [|assumption]);
      intros k; unfold update; destruct (Nat.eqb_spec k i); try apply H; subst; assumption.
  - destruct (eval_ok (st i) (txt i) t GX (H i)) as (A & B).
    destruct (eval (st i) t) as (o & a). cbn [fst snd] in *. split; [|assumption].
    intros k; unfold update; destruct (Nat.eqb_spec k i); try apply H; subst; assumption.
Qed.

Lemma run_ok l : Forall good_op l -> forall st txt, all_ok st txt ->
  run lua lua_init chunk load call st l = spec_run meaning txt l.
Proof.
  intros GL. induction GL as [|x l GX GL IH]; intros st txt H; [reflexivity|].
  destruct (step_ok st txt x GX H) as (A & B). cbn [run spec_run].
  destruct (step st x) as (st' & a). destruct (spec_step meaning txt x) as (txt' & b).
  cbn [fst snd] in *. subst b. f_equal. apply IH. assumption.
Qed.

Lemma start_ok : all_ok (start lua lua_init chunk) (fun _ => "").
Proof. intros i. apply ok_new. Qed.

Fixpoint spec_after (txt : nat -> string) (l : list op) : nat -> string :=
  match l with
  | [] => txt
  | x :: t => spec_after (fst (spec_step meaning txt x)) t
  end.

Lemma after_ok l : Forall good_op l -> forall st txt, all_ok st txt ->
  all_ok (after lua lua_init chunk load call st l) (spec_after txt l).
Proof.
  intros GL. induction GL as [|x l GX GL IH]; intros st txt H; [assumption|].
  destruct (step_ok st txt x GX H) as (A & _). apply IH. assumption.
Qed.

End Proofs.

Definition not_minus_zero (t : f64) : Prop := t <> B754_zero true.

Lemma eqb_not_minus_zero (t t' : f64) :
  not_minus_zero t -> not_minus_zero t' -> Beqb t t' = true -> t = t'.
Proof.
  intros G G' E. apply B2SF_inj. unfold Beqb, SpecFloat.SFeqb in E.
  destruct t as [[]|[]| |s m e H]; destruct t' as [[]|[]| |s' m' e' H'];
    try (exfalso; apply G; reflexivity); try (exfalso; apply G'; reflexivity);
    try reflexivity; try discriminate; try (destruct s; discriminate); try (destruct s'; discriminate).
  cbn [B2SF SpecFloat.SFcompare] in *. destruct s, s'; try discriminate.
  - destruct (Z.compare_spec e e'); try discriminate. subst.
    destruct (Pos.compare_cont Eq m m') eqn:C; try discriminate.
    apply Pos.compare_eq in C. subst. reflexivity.
  - destruct (Z.compare_spec e e'); try discriminate. subst.
    destruct (Pos.compare_cont Eq m m') eqn:C; try discriminate.
    apply Pos.compare_eq in C. subst. reflexivity.
Qed.
