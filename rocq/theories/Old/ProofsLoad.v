(** The whole file of the old format. *)

From Coq Require Import ZArith Bool List Arith Ascii String Lia.
From Verif Require Import Old.Model Old.Spec Old.Proofs.
Import ListNotations.
Local Open Scope Z_scope.

Section Loading.
Variable file : bytes.
Variable stack : Z.
Variable accepts : bytes -> bool.
Variable to_float : bytes -> bytes.
Variable body0 : body.

(** [say] with the special segment left alone. *)
Definition kept (l : list segment) (b : body) : body := with_number (special b) (with_segments to_float l b).
Definition say_kept (S : space) (c : chapter) : space :=
  match c with
  | Body l => mkSpace (heading S) (update_last (kept l) (bodies S)) (vortices S) (heats S) (streak_sources S) (streaks S)
  | c => say to_float body0 S c
  end.

Lemma body_list_at pos b l : at_pos file pos (put_chapter (Body l)) -> good stack accepts (Body l) ->
  exists pos', body_list file to_float b pos = Done (kept l b, pos').
Proof.
  intros H [F B]. cbn [put_chapter] in H. apply at_app in H as [H1 H2]. rewrite put_length in H2.
  unfold body_list. erewrite bind_step; [| apply fresh_at; [exact H1 | apply put_length]]. cbn beta.
  rewrite int64_put, Nat2Z.id by lia.
  destruct (segments_at file to_float l _ att0 b H2 F eq_refl eq_refl eq_refl) as [pos' E].
  exists pos'. exact E.
Qed.

Lemma section_at pos S c : at_pos file pos (put_chapter c) -> good stack accepts c ->
  sized_head (heading S) -> sized_body body0 -> (match c with Body _ => bodies S <> [] | _ => True end) ->
  exists pos', section file stack accepts to_float body0 (title c) S pos = Done (say_kept S c, pos').
Proof.
  intros H G Sh Sb N. destruct c as [h u | k l | b | l].
  - change (section file stack accepts to_float body0 (title (Header h u)) S pos) with
      (bind (header file stack accepts (heading S)) (fun h => ret (mkSpace h (bodies S) (vortices S) (heats S) (streak_sources S) (streaks S))) pos).
    cbn [put_chapter] in H. apply at_app in H as [H _].
    destruct (header_at _ _ _ _ (heading S) _ H G Sh) as [pos' E]. rewrite (bind_step _ _ _ _ _ E). eexists. reflexivity.
  - destruct G as [F B]. cbn [put_chapter] in H.
    destruct k.
    + destruct (load_list_at _ _ (vortices S) _ H F B) as [pos' E]. exists pos'.
      change (bind (load_list file (vortices S)) (fun l => ret (mkSpace (heading S) (bodies S) l (heats S) (streak_sources S) (streaks S))) pos = Done (say_kept S (Objects Vortexes l), pos')).
      now rewrite (bind_step _ _ _ _ _ E).
    + destruct (load_list_at _ _ (heats S) _ H F B) as [pos' E]. exists pos'.
      change (bind (load_list file (heats S)) (fun l => ret (mkSpace (heading S) (bodies S) (vortices S) l (streak_sources S) (streaks S))) pos = Done (say_kept S (Objects Heat l), pos')).
      now rewrite (bind_step _ _ _ _ _ E).
    + destruct (load_list_at _ _ (streak_sources S) _ H F B) as [pos' E]. exists pos'.
      change (bind (load_list file (streak_sources S)) (fun l => ret (mkSpace (heading S) (bodies S) (vortices S) (heats S) l (streaks S))) pos = Done (say_kept S (Objects StrkSrc l), pos')).
      now rewrite (bind_step _ _ _ _ _ E).
    + destruct (load_list_at _ _ (streaks S) _ H F B) as [pos' E]. exists pos'.
      change (bind (load_list file (streaks S)) (fun l => ret (mkSpace (heading S) (bodies S) (vortices S) (heats S) (streak_sources S) l)) pos = Done (say_kept S (Objects Streak l), pos')).
      now rewrite (bind_step _ _ _ _ _ E).
  - cbn [put_chapter] in H. destruct (body_data_at _ _ _ _ _ _ H G Sb) as [pos' E]. exists pos'.
    change (bind (body_data file stack accepts body0) (fun b => ret (mkSpace (heading S) (bodies S ++ [b]) (vortices S) (heats S) (streak_sources S) (streaks S))) pos = Done (say_kept S (BData b), pos')).
    now rewrite (bind_step _ _ _ _ _ E).
  - change (section file stack accepts to_float body0 (title (Body l)) S pos) with
      (match rev (bodies S) with
       | [] => fun _ => Undefined
       | b :: before => bind (body_list file to_float b) (fun b => ret (mkSpace (heading S) (rev before ++ [b]) (vortices S) (heats S) (streak_sources S) (streaks S)))
       end pos).
    unfold say_kept, update_last. destruct (rev (bodies S)) as [|b before] eqn:R.
    + elim N. rewrite <- (rev_involutive (bodies S)), R. reflexivity.
    + destruct (body_list_at _ b _ H G) as [pos' E]. rewrite (bind_step _ _ _ _ _ E). eexists. reflexivity.
Qed.

Lemma over_length old new n : List.length old = n -> (List.length new <= n)%nat -> List.length (over old new) = n.
Proof. intros L M. unfold over. rewrite app_length, skipn_length. lia. Qed.
Lemma there_length pos n : (List.length (there file pos n) <= n)%nat.
Proof. apply firstn_le_length. Qed.
Lemma title_length c : List.length (title c) = 8%nat.
Proof. destruct c as [| [] | |]; reflexivity. Qed.
Lemma sized_say S c : sized_head (heading S) -> good stack accepts c -> sized_head (heading (say_kept S c)).
Proof. intros H G. destruct c as [| [] | |]; cbn [say_kept say heading]; try exact H. apply G. Qed.
Lemma update_last_nil {A} (f : A -> A) l : update_last f l = [] -> l = [].
Proof.
  unfold update_last. destruct (rev l) as [|a r] eqn:R; [intros _; rewrite <- (rev_involutive l), R; reflexivity|].
  intros E. destruct (rev r); discriminate.
Qed.

Lemma entries_at cs : forall i tmp comment S some,
  (forall j c, nth_error cs j = Some c ->
    match c with
    | None => at_pos file (16 * (i + j)) (put_number 8 0)
    | Some c => exists off, 0 < off < 2 ^ 63 /\ at_pos file (16 * (i + j)) (put_number 8 off ++ title c) /\
                            at_pos file (Z.to_nat off) (put_chapter c)
    end) ->
  List.length tmp = 8%nat -> List.length comment = 8%nat -> Forall (good stack accepts) (present cs) ->
  sized_head (heading S) -> sized_body body0 -> in_order some (present cs) -> (some = true -> bodies S <> []) ->
  entries file stack accepts to_float body0 (List.length cs) i tmp comment S = Done (fold_left say_kept (present cs) S).
Proof.
  induction cs as [|c cs IH]; intros i tmp comment S some H Lt Lc G Sh Sb O N; [reflexivity|].
  cbn [List.length entries].
  assert (H0 := H 0%nat c eq_refl). rewrite Nat.add_0_r in H0.
  assert (H' : forall j c, nth_error cs j = Some c ->
    match c with
    | None => at_pos file (16 * (i + 1 + j)) (put_number 8 0)
    | Some c => exists off, 0 < off < 2 ^ 63 /\ at_pos file (16 * (i + 1 + j)) (put_number 8 off ++ title c) /\
                            at_pos file (Z.to_nat off) (put_chapter c)
    end).
  { intros j d E. specialize (H (Datatypes.S j) d E). replace (i + 1 + j)%nat with (i + Datatypes.S j)%nat by lia. exact H. }
  replace (i * 16)%nat with (16 * i)%nat by lia.
  destruct c as [c|].
  - destruct H0 as (off & B & P & Q). apply at_app in P as [P1 P2]. rewrite put_length in P2.
    assert (E1 : there file (16 * i) 8 = put_number 8 off) by (rewrite <- (there_at file (16 * i) (put_number 8 off) P1) at 1; now rewrite put_length).
    rewrite E1, put_length. assert (E2 : there file (16 * i + 8) 8 = title c) by (rewrite <- (there_at _ _ _ P2) at 1; now rewrite title_length).
    rewrite E2. rewrite !over_all by (rewrite ?put_length, ?title_length; lia). rewrite int64_put by lia.
    destruct (Z.eqb_spec off 0); [lia|]. destruct (Z.ltb_spec off 0); [lia|].
    cbn [present] in G, O. inversion G as [|? ? G1 G2]; subst.
    destruct (section_at _ S c Q G1 Sh Sb) as [pos' E].
    { destruct c; try exact I. cbn [in_order] in O. destruct O as [-> _]. auto. }
    rewrite E. cbn [present fold_left].
    apply IH with (some := match c with BData _ => true | _ => some end); try assumption.
    + apply put_length. + apply title_length. + now apply sized_say.
    + destruct c; cbn [in_order] in O; try exact O. apply O.
    + destruct c as [| [] | |]; cbn [say_kept say bodies]; try exact N.
      * intros _ E'. destruct (bodies S); discriminate.
      * intros T E'. now apply (N T), (update_last_nil _ _ E').
  - assert (E1 : there file (16 * i) 8 = put_number 8 0) by (rewrite <- (there_at file (16 * i) (put_number 8 0) H0) at 1; now rewrite put_length).
    rewrite E1, over_all by (rewrite put_length; lia). rewrite (int64_put 0) by lia. cbn [Z.eqb].
    cbn [present] in *. apply IH with (some := some); try assumption; [apply put_length|].
    apply over_length; [assumption | apply there_length].
Qed.

Theorem load_at cs S : laid_out file cs -> Forall (good stack accepts) (present cs) ->
  sized_head (heading S) -> sized_body body0 -> in_order (match bodies S with [] => false | _ => true end) (present cs) ->
  load_v13 file stack accepts to_float body0 S = Done (fold_left say_kept (present cs) S).
Proof.
  intros [L H] G Sh Sb O. unfold load_v13. rewrite <- L.
  apply entries_at with (some := match bodies S with [] => false | _ => true end); try assumption; try reflexivity.
  destruct (bodies S); discriminate.
Qed.

(** * The special segment *)

Definition all_number (n : Z) (S : space) : Prop := Forall (fun b => special b = n) (bodies S).
Lemma update_last_app {A} (f : A -> A) l a : update_last f (l ++ [a]) = l ++ [f a].
Proof. unfold update_last. rewrite rev_app_distr. cbn. now rewrite rev_involutive. Qed.
Lemma by_last {A} (l : list A) : l = [] \/ exists l' a, l = l' ++ [a].
Proof. destruct l as [|x l]; [now left | right]. destruct (exists_last (l := x :: l)) as (l' & a & E); [discriminate|]. eauto. Qed.

Lemma renumber_same n S : all_number n S -> renumber n S = S.
Proof.
  destruct S as [h b v1 v2 v3 v4]. unfold all_number, renumber. cbn [bodies heading vortices heats streak_sources streaks]. intros F. f_equal.
  induction F as [|x b E F IH]; [reflexivity|]. cbn [map]. rewrite IH, <- E. destruct x; reflexivity.
Qed.
Lemma renumber_bodies n S T : renumber n S = renumber n T -> map (with_number n) (bodies S) = map (with_number n) (bodies T).
Proof. intros E. exact (f_equal bodies E). Qed.
Lemma renumber_say n S T c : renumber n S = renumber n T -> renumber n (say to_float body0 S c) = renumber n (say_kept T c).
Proof.
  intros E. assert (Eb := renumber_bodies _ _ _ E).
  assert (Eh := f_equal heading E). assert (E1 := f_equal vortices E). assert (E2 := f_equal heats E). assert (E3 := f_equal streak_sources E). assert (E4 := f_equal streaks E).
  cbn [renumber heading vortices heats streak_sources streaks] in Eh, E1, E2, E3, E4.
  destruct c as [h u | [] l | b | l]; cbn [say say_kept]; unfold renumber; cbn [bodies heading vortices heats streak_sources streaks];
    rewrite ?Eh, ?E1, ?E2, ?E3, ?E4; fold (with_number n); try (change (fun b => mkBody _ _ _ _ _ _ _ _ _ _ _ _ _ _ n _) with (with_number n)); f_equal;
    try (exact Eb).
  - rewrite !map_app. f_equal. exact Eb.
  - clear - Eb. fold (with_number n) in *.
    destruct (by_last (bodies S)) as [E1 | (l1 & a & E1)]; destruct (by_last (bodies T)) as [E2 | (l2 & b & E2)].
    + now rewrite E1, E2.
    + rewrite E1, E2, map_app in Eb. destruct (map (with_number n) l2); discriminate.
    + rewrite E1, E2, map_app in Eb. destruct (map (with_number n) l1); discriminate.
    + rewrite E1, E2 in *. rewrite !update_last_app, !map_app in *. cbn [map] in *.
      apply app_inj_tail in Eb as [Ea Eb]. f_equal; [exact Ea|]. f_equal.
      change (with_number n (with_segments to_float l (with_number n a)) = with_number n (kept l (with_number n b))).
      rewrite Eb. reflexivity.
Qed.
Lemma renumber_fold n cs : forall S T, renumber n S = renumber n T -> renumber n (fold_left (say to_float body0) cs S) = renumber n (fold_left say_kept cs T).
Proof. induction cs as [|c cs IH]; intros S T E; [exact E|]. cbn [fold_left]. apply IH, renumber_say, E. Qed.
Lemma all_number_say S c : all_number (special body0) S -> all_number (special body0) (say_kept S c).
Proof.
  unfold all_number. intros F. destruct c as [h u | [] l | b | l]; cbn [say_kept say bodies]; try exact F.
  - apply Forall_app. split; [exact F|]. constructor; [reflexivity | constructor].
  - destruct (by_last (bodies S)) as [-> | (l1 & a & E)]; [constructor|]. rewrite E in *. rewrite update_last_app.
    apply Forall_app in F as [F1 F2]. inversion F2; subst. apply Forall_app. split; [exact F1|]. constructor; [assumption | constructor].
Qed.
Lemma all_number_fold cs : forall S, all_number (special body0) S -> all_number (special body0) (fold_left say_kept cs S).
Proof. induction cs as [|c cs IH]; intros S F; [exact F|]. cbn [fold_left]. apply IH, all_number_say, F. Qed.
Lemma kept_renumber cs S : all_number (special body0) S ->
  fold_left say_kept cs S = renumber (special body0) (fold_left (say to_float body0) cs S).
Proof. intros F. rewrite (renumber_fold _ cs S S eq_refl). symmetry. apply renumber_same, all_number_fold, F. Qed.

(** Without special conditions both say the same. *)
Lemma special_place_none l : forall from before, Forall (fun s => special_condition (s_bc s) = None) l -> special_place from l before = before.
Proof.
  induction l as [|s l IH]; intros from before F; [reflexivity|]. inversion F as [|? ? E F']; subst. cbn [special_place]. rewrite E. now apply IH.
Qed.
Lemma ordinary_fold cs : forall S, Forall ordinary cs -> fold_left say_kept cs S = fold_left (say to_float body0) cs S.
Proof.
  induction cs as [|c cs IH]; intros S F; [reflexivity|]. inversion F as [|? ? O F']; subst. cbn [fold_left].
  assert (E : say_kept S c = say to_float body0 S c).
  { destruct c as [h u | [] l | b | l]; try reflexivity. cbn [say_kept say]. f_equal. unfold update_last.
    destruct (rev (bodies S)) as [|b r]; [reflexivity|]. f_equal. f_equal.
    unfold kept, with_number, with_segments. cbn. f_equal. symmetry. now apply special_place_none. }
  rewrite E. now apply IH.
Qed.
End Loading.
