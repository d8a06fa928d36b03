(** Lemmas about archives and about replacing names in a script. *)

From Coq Require Import List ZArith Bool String Ascii Arith Lia Sorted NArith.
From Coq Require Import Decimal DecimalString.
From Verif.Plot Require Import Model Spec.
Import ListNotations.
Local Open Scope string_scope.
Local Arguments ascii_dec : simpl never.

(** * Files in order *)

Definition below (a b : string * string) : Prop := String.compare (fst a) (fst b) = Lt.

Lemma compare_trans a b c : String.compare a b = Lt -> String.compare b c = Lt -> String.compare a c = Lt.
Proof.
  revert b c. induction a as [|x a IH]; intros [|y b] [|z c]; cbn [String.compare]; auto; try discriminate.
  unfold Ascii.compare.
  destruct (N_of_ascii x ?= N_of_ascii y)%N eqn:C1; try discriminate;
    destruct (N_of_ascii y ?= N_of_ascii z)%N eqn:C2; try discriminate;
    rewrite ?N.compare_eq_iff, ?N.compare_lt_iff in *; intros H1 H2.
  - assert (C : (N_of_ascii x ?= N_of_ascii z)%N = Eq) by (apply N.compare_eq_iff; lia). rewrite C. eauto.
  - assert (C : (N_of_ascii x ?= N_of_ascii z)%N = Lt) by (apply N.compare_lt_iff; lia). rewrite C. auto.
  - assert (C : (N_of_ascii x ?= N_of_ascii z)%N = Lt) by (apply N.compare_lt_iff; lia). rewrite C. auto.
  - assert (C : (N_of_ascii x ?= N_of_ascii z)%N = Lt) by (apply N.compare_lt_iff; lia). rewrite C. auto.
Qed.
Lemma compare_refl a : String.compare a a = Eq.
Proof. destruct (String.compare a a) eqn:E; [reflexivity| |]; pose proof (String.compare_antisym a a) as A; rewrite E in A; discriminate. Qed.
Lemma compare_gt a b : String.compare a b = Gt -> String.compare b a = Lt.
Proof. intros E. rewrite String.compare_antisym, E. reflexivity. Qed.

Lemma insert_in n s l f : In f (insert n s l) -> f = (n, s) \/ In f l.
Proof.
  induction l as [|[m t] l IH]; cbn; [intuition|].
  destruct (String.compare n m); cbn; intuition.
Qed.
Lemma insert_sorted n s l : StronglySorted below l -> StronglySorted below (insert n s l).
Proof.
  induction 1 as [|[m t] l S IH F]; cbn; [repeat constructor|].
  destruct (String.compare n m) eqn:C.
  - apply String.compare_eq_iff in C. subst m. constructor; [exact S|]. rewrite Forall_forall in *. intros f I. exact (F f I).
  - constructor; [constructor; assumption|]. constructor; [exact C|]. rewrite Forall_forall in *.
    intros f I. eapply compare_trans; [exact C|exact (F f I)].
  - constructor; [exact IH|]. rewrite Forall_forall in *. intros f I. destruct (insert_in _ _ _ _ I) as [-> |I'].
    + exact (compare_gt _ _ C).
    + exact (F f I').
Qed.
Lemma insert_last n s l : (forall f, In f l -> String.compare (fst f) n = Lt) -> insert n s l = (l ++ [(n, s)])%list.
Proof.
  induction l as [|[m t] l IH]; intros H; [reflexivity|]. cbn.
  pose proof (H (m, t) (or_introl eq_refl)) as C. cbn in C. rewrite String.compare_antisym, C. cbn.
  rewrite IH; [reflexivity|]. intros f I. apply H. right. exact I.
Qed.

Lemma done_sorted l : StronglySorted below (files (does_all l)).
Proof.
  unfold does_all. assert (G : forall p, StronglySorted below (files p) -> StronglySorted below (files (fold_left does l p))).
  { induction l as [|a l IH]; intros p H; [exact H|]. cbn. apply IH. destruct a; cbn; [apply insert_sorted|]; exact H. }
  apply G. constructor.
Qed.

Lemma find_insert_same n s l : List.find (fun f => String.eqb (fst f) n) (insert n s l) = Some (n, s).
Proof.
  induction l as [|[m t] l IH]; cbn; [rewrite String.eqb_refl; reflexivity|].
  destruct (String.compare n m) eqn:C; cbn; rewrite ?String.eqb_refl; try reflexivity.
  destruct (String.eqb_spec m n) as [-> |]; [rewrite compare_refl in C; discriminate|exact IH].
Qed.
Lemma find_insert_other n s l m : m <> n ->
  List.find (fun f => String.eqb (fst f) m) (insert n s l) = List.find (fun f => String.eqb (fst f) m) l.
Proof.
  intros N. assert (E : String.eqb n m = false) by (apply String.eqb_neq; congruence).
  induction l as [|[k t] l IH]; cbn; [rewrite E; reflexivity|].
  destruct (String.compare n k) eqn:C; cbn; rewrite ?E; try reflexivity.
  - apply String.compare_eq_iff in C. subst k. rewrite E. reflexivity.
  - rewrite IH. reflexivity.
Qed.
Lemma get_add p n s m : get (add p n s) m = if String.eqb m n then Some s else get p m.
Proof.
  unfold get, add. cbn [files]. destruct (String.eqb_spec m n) as [-> |N].
  - rewrite find_insert_same. reflexivity.
  - rewrite (find_insert_other n s (files p) m N). reflexivity.
Qed.
Lemma get_write p t n : get (write p t) n = get p n.
Proof. reflexivity. Qed.

Lemma sorted_get l sc n s : StronglySorted below l -> (In (n, s) l <-> get (mkPlotter sc l) n = Some s).
Proof.
  unfold get. cbn [files]. induction 1 as [|[m t] l S IH F]; cbn; [split; [tauto|discriminate]|].
  destruct (String.eqb_spec m n) as [-> |N]; cbn.
  - split; [|intros [= ->]; left; reflexivity]. intros [[= ->]|I]; [reflexivity|].
    rewrite Forall_forall in F. specialize (F _ I). unfold below in F. cbn in F. rewrite compare_refl in F. discriminate.
  - rewrite <- IH. split; [intros [[= -> ->]|]; [congruence|assumption]|right; assumption].
Qed.

(** * Loading what was saved *)

Lemma load_files stack l : forall p,
  (forall f, In f l -> String.length (snd f) <= stack /\ fst f <> "plot.gp") ->
  StronglySorted below (files p ++ l) ->
  load stack p l = Some (mkPlotter (script p) (files p ++ l)).
Proof.
  unfold load. induction l as [|[n s] l IH]; intros p H S; cbn.
  - rewrite app_nil_r. destruct p; reflexivity.
  - destruct (H (n, s) (or_introl eq_refl)) as [L N]. cbn in L, N.
    rewrite (proj2 (Nat.leb_le _ _) L), (proj2 (String.eqb_neq _ _) N).
    assert (E : insert n s (files p) = (files p ++ [(n, s)])%list).
    { apply insert_last. intros f I. clear - S I. induction (files p) as [|g q IHq]; [destruct I|].
      cbn in S. inversion S as [|? ? S' F]; subst. destruct I as [-> |I].
      - rewrite Forall_forall in F. apply (F (n, s)). apply in_or_app. right. left. reflexivity.
      - exact (IHq S' I). }
    unfold add. rewrite E, IH; cbn [script files].
    + rewrite <- app_assoc. reflexivity.
    + intros f I. apply H. right. exact I.
    + rewrite <- app_assoc. exact S.
Qed.

Lemma load_save stack p : StronglySorted below (files p) -> archivable stack p -> load stack new_plotter (save p) = Some p.
Proof.
  intros S [LS H]. unfold load, save. cbn [fold_left load_entry snd fst].
  rewrite (proj2 (Nat.leb_le _ _) LS). cbn [String.eqb Ascii.eqb Bool.eqb].
  change (load stack (write new_plotter (script p)) (files p) = Some p).
  rewrite load_files; [destruct p; reflexivity| |exact S].
  intros [n s] I. cbn. destruct p as [sc l]. apply (H n s). apply (sorted_get l sc n s S). exact I.
Qed.

Lemma load_none stack l : fold_left (load_entry stack) l None = None.
Proof. induction l; [reflexivity|exact IHl]. Qed.
Lemma load_big stack p l n s : In (n, s) l -> stack < String.length s -> load stack p l = None.
Proof.
  intros I L. unfold load. revert p. induction l as [|[m t] l IH]; [destruct I|]. intros p. cbn.
  destruct I as [[= -> ->]|I].
  - rewrite (proj2 (Nat.leb_gt _ _) L). apply load_none.
  - destruct (Nat.leb (String.length t) stack); [|apply load_none]. exact (IH I _).
Qed.

(** * Segments of a script *)

(** The texts between the quotes, and the script made of them. *)
Definition joined (l : list string) : string := String.concat "'" l.

Lemma app_assoc_s a b c : (a ++ b) ++ c = a ++ (b ++ c).
Proof. induction a; cbn; [reflexivity|rewrite IHa; reflexivity]. Qed.
Lemma app_nil_s a : a ++ "" = a.
Proof. induction a; cbn; [reflexivity|rewrite IHa; reflexivity]. Qed.
Lemma length_s a b : String.length (a ++ b) = String.length a + String.length b.
Proof. induction a; cbn; [reflexivity|rewrite IHa; reflexivity]. Qed.
Lemma substring_all s : String.substring 0 (String.length s) s = s.
Proof. induction s; cbn; [reflexivity|rewrite IHs; reflexivity]. Qed.
Lemma substring_skip a s : String.substring (String.length a) (String.length (a ++ s) - String.length a) (a ++ s) = s.
Proof.
  rewrite length_s, Nat.add_comm, Nat.add_sub. induction a; cbn; [apply substring_all|exact IHa].
Qed.
Lemma prefix_app a s : String.prefix a (a ++ s) = true.
Proof. induction a as [|c a IH]; cbn; [destruct s; reflexivity|]. destruct (ascii_dec c c); [exact IH|congruence]. Qed.
Lemma quote_free_cons c s : quote_free (String c s) -> c <> quote /\ quote_free s.
Proof. intros H. split; [intros ->; apply H; left; reflexivity|intros I; apply H; right; exact I]. Qed.
Lemma quote_free_app a b : quote_free (a ++ b) <-> quote_free a /\ quote_free b.
Proof.
  unfold quote_free. induction a as [|c a IH]; cbn; [tauto|]. rewrite (Decidable.not_or_iff (c = quote) (In quote (list_ascii_of_string (a ++ b)))).
  rewrite (Decidable.not_or_iff (c = quote) (In quote (list_ascii_of_string a))), IH. tauto.
Qed.

(** A quoted name at the start of the rest of a script. *)
Lemma prefix_name n x r : quote_free n -> quote_free x ->
  String.prefix (n ++ "'") (joined (x :: r)) = (String.eqb x n && negb (match r with [] => true | _ => false end))%bool.
Proof.
  revert n. induction x as [|c x IH]; intros [|d n] QN QX.
  - destruct r as [|y r]; [reflexivity|]. change (joined ("" :: y :: r)) with (String "'" (joined (y :: r))).
    generalize (joined (y :: r)). intros t. cbn. destruct t; reflexivity.
  - destruct (quote_free_cons _ _ QN) as [ND _]. destruct r; [reflexivity|]. cbn.
    destruct (ascii_dec d "'"); [contradiction|reflexivity].
  - destruct (quote_free_cons _ _ QX) as [NC _]. assert (EJ : forall l, joined (String c x :: l) = String c (joined (x :: l))) by (intros [|]; reflexivity).
    rewrite EJ. cbn. destruct (ascii_dec "'" c) as [E|]; [symmetry in E; contradiction|reflexivity].
  - destruct (quote_free_cons _ _ QX) as [_ QX']. destruct (quote_free_cons _ _ QN) as [_ QN'].
    specialize (IH n QN' QX'). destruct r as [|y r].
    + cbn in *. destruct (ascii_dec d c) as [-> |ND].
      * rewrite Ascii.eqb_refl. exact IH.
      * rewrite andb_false_r. reflexivity.
    + cbn [joined String.concat append String.prefix String.eqb] in *. destruct (ascii_dec d c) as [-> |ND].
      * rewrite Ascii.eqb_refl. exact IH.
      * destruct (Ascii.eqb_spec c d); [congruence|reflexivity].
Qed.

(** Replacing the first quoted name in terms of the segments. *)
Fixpoint rep (n new : string) (l : list string) : list string :=
  match l with
  | [] => []
  | x :: r => match r with [] => [x] | _ :: _ => if String.eqb x n then new :: r else x :: rep n new r end
  end.

Lemma rep_cons n new x y r :
  rep n new (x :: y :: r) = if String.eqb x n then new :: y :: r else x :: rep n new (y :: r).
Proof. reflexivity. Qed.

Lemma replace_segments n new s0 r : quote_free n -> Forall quote_free (s0 :: r) ->
  replace_first ("'" ++ n ++ "'") ("'" ++ new ++ "'") (joined (s0 :: r)) = joined (s0 :: rep n new r).
Proof.
  intros QN. revert s0. induction r as [|x r IH]; intros s0 Q; inversion Q as [|? ? Q0 QR]; subst.
  - cbn [rep joined String.concat]. clear Q QR. induction s0 as [|c s0 IH]; [reflexivity|].
    destruct (quote_free_cons _ _ Q0) as [NC Q1]. cbn. destruct (ascii_dec "'" c) as [E|]; [symmetry in E; contradiction|].
    f_equal. exact (IH Q1).
  - inversion QR as [|? ? QX QR']; subst.
    induction s0 as [|c s0 IHs].
    + change (joined ("" :: x :: r)) with (String "'" (joined (x :: r))).
      assert (E0 : joined ("" :: rep n new (x :: r)) = String "'" (joined (rep n new (x :: r)))).
      { destruct r as [|y r]; [reflexivity|]. rewrite rep_cons. destruct (String.eqb x n); reflexivity. }
      rewrite E0.
      cbn [replace_first append String.prefix]. destruct (ascii_dec "'" "'") as [_|]; [|congruence].
      rewrite prefix_name by assumption.
      destruct (String.eqb_spec x n) as [-> |NX].
      * destruct r as [|y r].
        -- cbn [negb andb rep]. change (joined [n]) with n. f_equal.
           specialize (IH n QR). exact IH.
        -- cbn [negb andb]. rewrite rep_cons, String.eqb_refl.
           change (joined (n :: y :: r)) with (n ++ "'" ++ joined (y :: r)).
           change (joined (new :: y :: r)) with (new ++ "'" ++ joined (y :: r)).
           replace (n ++ "'" ++ joined (y :: r)) with ((n ++ "'") ++ joined (y :: r)) by apply app_assoc_s.
           change (String "'" (n ++ "'")) with ("'" ++ (n ++ "'")).
           change (String "'" ((n ++ "'") ++ joined (y :: r))) with (("'" ++ (n ++ "'")) ++ joined (y :: r)).
           rewrite substring_skip. cbn [append]. rewrite app_assoc_s. reflexivity.
      * cbn [andb]. change (String "'" (n ++ "'")) with ("'" ++ n ++ "'"). change (String "'" (new ++ "'")) with ("'" ++ new ++ "'").
        rewrite (IH x QR). destruct r as [|y r]; [reflexivity|]. rewrite rep_cons.
        rewrite (proj2 (String.eqb_neq _ _) NX). reflexivity.
    + destruct (quote_free_cons _ _ Q0) as [NC Q1].
      assert (EJ : forall l, joined (String c s0 :: l) = String c (joined (s0 :: l))) by (intros [|]; reflexivity).
      rewrite !EJ. cbn [replace_first append String.prefix]. destruct (ascii_dec "'" c) as [E|]; [symmetry in E; contradiction|].
      f_equal. apply IHs; [constructor; assumption|exact Q1].
Qed.
