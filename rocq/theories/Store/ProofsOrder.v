(** Which spaces can be saved, the order above one hundred bodies, the state before. *)

From Coq Require Import List Arith ZArith Bool String Ascii Permutation Lia Sorted.
From Flocq Require Import IEEE754.BinarySingleNaN.
From Verif.Base Require Import Num F64 F32.
From Verif.Body Require Model.
From Verif.Store Require Import Model Spec Proofs ProofsLoad ProofsSpace.
Import ListNotations.
Local Open Scope string_scope.
Local Open Scope list_scope.

(** * Which spaces can be saved *)

Lemma valid_iff b : invalid b = false <->
  (let '(x, y, o) := damping b in is_finite x = true /\ is_finite y = true /\ is_finite o = true)
  /\ (let '(x, y, o) := kspring b in
      Forall (fun k => nnan (n:=F64) k = false /\ nltb (n:=F64) k (f64_ofZ 0) = false) [x; y; o])
  /\ (let '(x, y, o) := collision_min b in let '(x', y', o') := collision_max b in
      nleb (n:=F64) x' x = false /\ nleb (n:=F64) y' y = false /\ nleb (n:=F64) o' o = false).
Proof.
  unfold invalid, params, Body.Model.first_error.
  cbn [Body.Model.damping Body.Model.kspring Body.Model.collision_min Body.Model.collision_max].
  destruct (damping b) as [[dx dy] dz], (kspring b) as [[kx ky] ka],
    (collision_min b) as [[lx ly] la], (collision_max b) as [[hx hy] ha].
  assert (D : forall x, @Body.Model.bad_damping F64 x = negb (is_finite x)) by reflexivity.
  assert (K : forall x, @Body.Model.bad_kspring F64 x = false <->
            nnan (n:=F64) x = false /\ nltb (n:=F64) x (f64_ofZ 0) = false).
  { intros x. unfold Body.Model.bad_kspring. rewrite orb_false_iff. reflexivity. }
  assert (R : forall x y, @Body.Model.bad_range F64 x y = nleb (n:=F64) y x) by reflexivity.
  rewrite !D, !R.
  assert (F3 : forall (P : f64 -> Prop) x y z, Forall P [x; y; z] <-> P x /\ P y /\ P z).
  { intros P x y z. split.
    - intros H. inversion H as [|? ? Hx H1]; subst. inversion H1 as [|? ? Hy H2]; subst.
      inversion H2 as [|? ? Hz _]; subst. auto.
    - intros (A & B & C). repeat constructor; auto. }
  rewrite F3, <- !K. clear D R F3 K.
  destruct (is_finite dx), (is_finite dy), (is_finite dz); cbn [negb];
    try (split; [discriminate|intros ((? & ? & ?) & _); discriminate]).
  destruct (@Body.Model.bad_kspring F64 kx), (@Body.Model.bad_kspring F64 ky), (@Body.Model.bad_kspring F64 ka);
    try (split; [discriminate|intros (_ & (? & ? & ?) & _); discriminate]).
  destruct (nleb (n:=F64) hx lx), (nleb (n:=F64) hy ly), (nleb (n:=F64) ha la);
    try (split; [discriminate|intros (_ & _ & (? & ? & ?)); discriminate]).
  split; auto 10.
Qed.

Lemma write_body_iff r b : (exists d, write_body r b = Ok d) <->
  alist b <> [] /\
  (forall a a', In a (alist b) -> In a' (alist b) -> Beqb (heat_const a) (heat_const a') = true).
Proof.
  unfold write_body. destruct (alist b) as [|first tl] eqn:AL.
  - split; [intros (d & H); discriminate|]. intros (H & _). congruence.
  - set (l := first :: tl). cbv zeta.
    destruct (forallb (fun a => Beqb (heat_const a) (heat_const first)) l) eqn:HT; cbn [negb].
    + split; [|intros _; eauto]. intros _. split; [unfold l; discriminate|].
      rewrite forallb_forall in HT. intros a a' I I'.
      eapply beq_trans; [apply HT; exact I|]. apply beq_sym. apply HT. exact I'.
    + split; [intros (d & H); discriminate|]. intros (_ & H). exfalso.
      assert (X : forallb (fun a => Beqb (heat_const a) (heat_const first)) l = true).
      { apply forallb_forall. intros a I. apply H; auto. left. reflexivity. }
      congruence.
Qed.

Lemma root_name_iff n r : (exists s, root_name n r = Ok s) <-> (r = NoRoot \/ exists i, r = RootAt i /\ i < n).
Proof.
  destruct r as [|i|]; cbn [root_name].
  - split; eauto.
  - destruct (Nat.ltb_spec i n) as [L|L]; split; eauto.
    + intros (s & H). discriminate.
    + intros [H|(j & E & H)]; [discriminate|]. assert (i = j) by congruence. lia.
  - split; [intros (s & H); discriminate|]. intros [H|(j & E & _)]; discriminate.
Qed.

Lemma write_bodies_iff n i l : (exists bs, write_bodies n i l = Ok bs) <->
  Forall (fun b => (exists r, root_name n (root_body b) = Ok r) /\ forall r, exists d, write_body r b = Ok d) l.
Proof.
  revert i. induction l as [|b tl IH]; intros i; cbn [write_bodies].
  - split; eauto.
  - split.
    + intros (bs & H). apply bind_ok in H. destruct H as (r & R & H). apply bind_ok in H. destruct H as (d & D & H).
      apply bind_ok in H. destruct H as (rest & E & _). constructor.
      * split; eauto. intros r'. apply write_body_iff. apply (proj1 (write_body_iff r b)). eauto.
      * apply (IH (S i)). eauto.
    + intros H. inversion H as [|? ? ((r & R) & D) T]; subst.
      destruct (D r) as (d & E). apply (IH (S i)) in T. destruct T as (bs & B).
      rewrite R. cbn [bind]. rewrite E. cbn [bind]. rewrite B. cbn [bind]. eauto.
Qed.

Lemma savable_iff meta s : (exists f, save meta s = Ok f) <-> savable s.
Proof.
  unfold save, savable, savable_body.
  assert (V : existsb invalid (bodies s) = false <-> Forall (fun b => invalid b = false) (bodies s)).
  { induction (bodies s) as [|b tl IH]; cbn [existsb]; [split; auto|].
    rewrite orb_false_iff, IH. split.
    - intros (A & B). constructor; auto.
    - intros H. inversion H; subst. auto. }
  set (n := List.length (bodies s)).
  rewrite Forall_forall.
  destruct (existsb invalid (bodies s)) eqn:IV.
  - split; [intros (f & H); discriminate|]. intros H. exfalso.
    assert (X : true = false); [apply V|discriminate].
    apply Forall_forall. intros b I. apply valid_iff. destruct (H b I) as (_ & _ & A & B & C & _). auto.
  - assert (V' := proj1 V eq_refl). rewrite Forall_forall in V'. split.
    + intros (f & H). apply bind_ok in H. destruct H as (bs & W & _).
      assert (X : exists bs, write_bodies n 0 (bodies s) = Ok bs) by eauto.
      apply write_bodies_iff in X. rewrite Forall_forall in X. intros b I.
      destruct (X b I) as (R & D). apply root_name_iff in R.
      assert (D' := proj1 (write_body_iff "" b) (D "")).
      assert (VB := proj1 (valid_iff b) (V' b I)). tauto.
    + intros H.
      assert (X : exists bs, write_bodies n 0 (bodies s) = Ok bs).
      { apply write_bodies_iff. apply Forall_forall. intros b I.
        destruct (H b I) as (A & B & _ & _ & _ & R). split.
        - apply root_name_iff. exact R.
        - intros r. apply write_body_iff. auto. }
      destruct X as (bs & W). rewrite W. cbn [bind]. eauto.
Qed.

(** * More than one hundred bodies *)

Lemma leb_trans a b c : String.leb a b = true -> String.leb b c = true -> String.leb a c = true.
Proof.
  revert b c. induction a as [|x a IH]; intros [|y b] [|z c]; unfold String.leb; cbn [String.compare]; auto; try discriminate.
  intros H1 H2.
  pose proof (IH b c) as X. unfold String.leb in X.
  destruct (Ascii.compare x y) eqn:C1; try discriminate;
    destruct (Ascii.compare y z) eqn:C2; try discriminate;
    unfold Ascii.compare in *; rewrite ?N.compare_eq_iff, ?N.compare_lt_iff in *.
  - assert (C : (N_of_ascii x ?= N_of_ascii z)%N = Eq) by (apply N.compare_eq_iff; lia). rewrite C. auto.
  - assert (C : (N_of_ascii x ?= N_of_ascii z)%N = Lt) by (apply N.compare_lt_iff; lia). rewrite C. auto.
  - assert (C : (N_of_ascii x ?= N_of_ascii z)%N = Lt) by (apply N.compare_lt_iff; lia). rewrite C. auto.
  - assert (C : (N_of_ascii x ?= N_of_ascii z)%N = Lt) by (apply N.compare_lt_iff; lia). rewrite C. auto.
Qed.
Lemma leb_total a b : String.leb a b = false -> String.leb b a = true.
Proof. intros H. destruct (String.leb_total a b) as [X|X]; congruence. Qed.

Definition ordered := StronglySorted (fun a b => String.leb a b = true).
Lemma insert_ordered x l : ordered l -> ordered (insert x l).
Proof.
  unfold ordered. induction 1 as [|y tl S IH F]; cbn [insert].
  - repeat constructor.
  - destruct (String.leb x y) eqn:E.
    + constructor; [constructor; auto|]. constructor; auto.
      eapply Forall_impl; [|exact F]. intros a Ha. eapply leb_trans; eauto.
    + constructor; auto. apply Forall_forall. intros a I.
      apply (Permutation_in _ (insert_perm x tl)) in I. destruct I as [<-|I].
      * apply leb_total. exact E.
      * rewrite Forall_forall in F. apply F. exact I.
Qed.
Lemma sort_ordered l : ordered (sort l).
Proof. induction l as [|x tl IH]; cbn [sort]; [constructor|]. apply insert_ordered. exact IH. Qed.

Lemma ordered_nth l i j a b : ordered l -> i < j -> nth_error l i = Some a -> nth_error l j = Some b ->
  String.leb a b = true.
Proof.
  intros O. revert i j. induction O as [|x tl S IH F]; intros i j L A B; [destruct i; discriminate|].
  destruct j as [|j]; [lia|]. cbn [nth_error] in B. destruct i as [|i]; cbn [nth_error] in A.
  - assert (x = a) by congruence. subst x. rewrite Forall_forall in F. apply F. eapply nth_error_In; eauto.
  - apply (IH i j); auto. lia.
Qed.

Lemma nth_error_seq n k : k < n -> nth_error (seq 0 n) k = Some k.
Proof.
  intros H. rewrite (nth_error_nth' _ 0) by (rewrite seq_length; exact H).
  rewrite seq_nth by exact H. reflexivity.
Qed.

(** With more than one hundred bodies the order of the names is not that of the bodies. *)
Lemma order_broken n p : 100 < n -> sort (map body_name (seq 0 n)) = map body_name p -> p <> seq 0 n.
Proof.
  intros H E ->.
  assert (O := sort_ordered (map body_name (seq 0 n))). rewrite E in O.
  assert (X : String.leb (body_name 11) (body_name 100) = true).
  { apply (ordered_nth _ 11 100 _ _ O); [lia|..]; rewrite nth_error_map, nth_error_seq by lia; reflexivity. }
  vm_compute in X. discriminate.
Qed.

(** * The state before *)

Section Before.
Variable accepts : string -> bool.
Variable properties : list vec -> f64 * vec * f64.

Definition with_sources (s : space) (l : list tobj) : space :=
  mkSpace (caption s) (re s) (pr s) (inf_g s) (inf_vx s) (inf_vy s) (inf_marker s) (gravity s) (time s) (dt s)
    (dt_save s) (dt_streak s) (dt_profile s) (finish s) (bodies s) (vortices s) (heat s) l
    (streak_sources s) (streak s).

Lemma load_before f s0 s0' s :
  load accepts properties f s0 = Ok s ->
  exists l l', read_list f "source" (sources s0) = Ok l /\ read_list f "source" (sources s0') = Ok l'
    /\ sources s = l /\ load accepts properties f s0' = Ok (with_sources s l').
Proof.
  unfold load. intros H.
  repeat match type of H with
  | bind ?o _ = Ok _ =>
      lazymatch o with
      | read_list _ "source" _ => fail
      | _ => let a := fresh "v" in let E := fresh "E" in
             apply bind_ok in H; destruct H as (a & E & H); cbv beta in H;
             rewrite ?(bind_eq _ _ _ E)
      end
  end.
  apply bind_ok in H. destruct H as (so & ES & H). cbv zeta in H.
  assert (X : exists l', read_list f "source" (sources s0') = Ok l').
  { unfold read_list in *. destruct (assoc "source" (objects f)) as [[]|]; try discriminate; eauto. }
  destruct X as (l' & EL). rewrite (bind_eq _ _ _ EL). cbv zeta.
  apply bind_ok in H. destruct H as (bs & EB & H). rewrite (bind_eq _ _ _ EB). apply ok_inj in H. subst s.
  exists so, l'. repeat split; auto.
Qed.

Lemma fill_fill rows l l' : Forall2 same_obj (fill rows l) (fill rows l').
Proof.
  revert l l'. induction rows as [|[[x y] g] tl IH]; intros l l'; cbn [fill]; constructor; auto. repeat split.
Qed.
End Before.

(** * Bodies in order *)

Lemma Forall2_nth {A B} (P : A -> B -> Prop) l : forall m, List.length m = List.length l ->
  (forall k a b, nth_error l k = Some a -> nth_error m k = Some b -> P a b) -> Forall2 P l m.
Proof.
  induction l as [|a l IH]; intros [|b m] L H; cbn [List.length] in L; try discriminate; constructor.
  - apply (H 0); reflexivity.
  - apply IH; [lia|]. intros k x y X Y. apply (H (S k)); auto.
Qed.

Lemma in_order l m : same_bodies (seq 0 (List.length l)) l m ->
  Forall2 (fun a b => same_body a b /\ root_body b = root_body a) l m.
Proof.
  intros (_ & LE & K). apply Forall2_nth; auto. intros k a b A B.
  assert (KL : k < List.length l) by (apply nth_error_Some; congruence).
  destruct (K k k (nth_error_seq _ _ KL)) as (a' & b' & A' & B' & S & R).
  rewrite A in A'. rewrite B in B'. assert (a' = a) by congruence. assert (b' = b) by congruence. subst a' b'.
  split; auto. unfold same_root in R. destruct (root_body a) as [|i|]; auto.
  - destruct R as (j & -> & J). f_equal.
    assert (JL : j < List.length l). { apply nth_error_Some. intros X. apply nth_error_None in X.
      assert (Y : nth_error (seq 0 (List.length l)) j = None) by (apply nth_error_None; rewrite seq_length; exact X).
      congruence. }
    rewrite nth_error_seq in J by exact JL. congruence.
  - destruct R.
Qed.
