(** Lemmas about the script given to gnuplot. *)

From Coq Require Import List ZArith Bool String Ascii Arith Lia Sorted.
From Coq Require Import Decimal DecimalString.
From Verif.Plot Require Import Model Spec Proofs.
Import ListNotations.
Local Open Scope string_scope.

(** * All replacements *)

Lemma digits_quote_free u : quote_free (NilEmpty.string_of_uint u).
Proof. induction u; cbn; [intros []| | | | | | | | | |]; intros [E|I]; try discriminate E; exact (IHu I). Qed.
Lemma descriptor_quote_free fd n : quote_free (descriptor fd n).
Proof.
  unfold descriptor. apply quote_free_app. split; [|apply digits_quote_free].
  intros I. vm_compute in I. repeat (destruct I as [I|I]; [discriminate I|]). destruct I.
Qed.

Section Replace.
Variable fd : string -> nat.

Definition subst (ns : list string) (x : string) : string := if in_dec string_dec x ns then descriptor fd x else x.

(** One name that occurs at most once before the last segment. *)
Lemma rep_once n l z : count_occ string_dec l n <= 1 ->
  rep n (descriptor fd n) (l ++ [z]) = (map (fun x => if string_dec x n then descriptor fd n else x) l ++ [z])%list.
Proof.
  induction l as [|x l IH]; intros C; [reflexivity|].
  assert (E : exists y r, (l ++ [z])%list = y :: r) by (destruct l; cbn; eauto). destruct E as (y & r & E).
  change ((x :: l) ++ [z])%list with (x :: (l ++ [z]))%list. rewrite E, rep_cons, <- E. cbn [count_occ] in C. cbn [map].
  destruct (String.eqb_spec x n) as [-> |N].
  - destruct (string_dec n n) as [Y|Y]; [|exfalso; apply Y; reflexivity]. clear Y.
    assert (M : map (fun x => if string_dec x n then descriptor fd n else x) l = l).
    { rewrite <- (map_id l) at 2. apply map_ext_in. intros a I. destruct (string_dec a n) as [-> |]; [|reflexivity].
      apply (count_occ_In string_dec) in I. lia. }
    rewrite M. reflexivity.
  - destruct (string_dec x n); [congruence|]. rewrite IH by exact C. reflexivity.
Qed.

Lemma count_map_other n m l : n <> m -> m <> descriptor fd n ->
  count_occ string_dec (map (fun x => if string_dec x n then descriptor fd n else x) l) m = count_occ string_dec l m.
Proof.
  intros N D. induction l as [|x l IH]; [reflexivity|]. cbn [map count_occ].
  destruct (string_dec x n) as [-> |].
  - destruct (string_dec (descriptor fd n) m); [congruence|]. destruct (string_dec n m); [congruence|exact IH].
  - destruct (string_dec x m); rewrite IH; reflexivity.
Qed.

Lemma exec_segments fs : forall s0 l z,
  NoDup (map fst fs) -> (forall n, In n (map fst fs) -> quote_free n /\ ~ starts "/" n /\ count_occ string_dec l n <= 1) ->
  Forall quote_free (s0 :: l ++ [z])%list ->
  fold_left (exec_entry fd) fs (joined (s0 :: l ++ [z])) = joined (s0 :: map (subst (map fst fs)) l ++ [z])%list.
Proof.
  induction fs as [|[n t] fs IH]; intros s0 l z ND H Q.
  - cbn [fold_left map]. f_equal. f_equal. f_equal. rewrite <- (map_id l) at 1. apply map_ext. intros a. reflexivity.
  - cbn [map fst] in ND, H. cbn [fold_left]. inversion ND as [|? ? NI ND']; subst.
    destruct (H n (or_introl eq_refl)) as (QN & SN & CN).
    assert (NS : forall m k, In m (n :: map fst fs) -> m <> descriptor fd k).
    { intros m k I ->. destruct (H _ I) as (_ & S' & _). apply S'. eexists. reflexivity. }
    unfold exec_entry at 2. cbn [fst].
    change ("'/dev/fd/" ++ decimal (fd n) ++ "'") with ("'" ++ (descriptor fd n ++ "'")).
    rewrite (replace_segments n (descriptor fd n) s0 (l ++ [z]) QN Q), rep_once by exact CN.
    rewrite IH.
    + f_equal. f_equal. f_equal. rewrite map_map. apply map_ext. intros a. unfold subst. cbn [map fst].
      destruct (string_dec a n) as [-> |NA].
      * destruct (in_dec string_dec (descriptor fd n) (map fst fs)) as [I|_].
        { exfalso. exact (NS _ n (or_intror I) eq_refl). }
        destruct (in_dec string_dec n (n :: map fst fs)) as [_|X]; [reflexivity|exfalso; apply X; left; reflexivity].
      * destruct (in_dec string_dec a (map fst fs)) as [I|NI'];
          destruct (in_dec string_dec a (n :: map fst fs)) as [J|NJ]; try reflexivity.
        -- exfalso. apply NJ. right. exact I.
        -- destruct J as [J|J]; congruence.
    + exact ND'.
    + intros m I. destruct (H m (or_intror I)) as (QM & SM & CM). split; [exact QM|]. split; [exact SM|].
      rewrite count_map_other; [exact CM| |].
      * intros ->. contradiction.
      * apply NS. right. exact I.
    + inversion Q as [|? ? Q0 QR]; subst. constructor; [exact Q0|]. apply Forall_app in QR. destruct QR as [Q1 Q2].
      apply Forall_app. split; [|exact Q2]. rewrite Forall_forall in *. intros a I. apply in_map_iff in I.
      destruct I as (b & <- & I). destruct (string_dec b n); [apply descriptor_quote_free|apply Q1; exact I].
Qed.

(** * Blocks: a text between quotes and the text after it *)

(** [mark]: the text between the quotes is the name of a dataset. *)
Record block := mkBlock { mark : bool; inner : string; after : string }.
Definition rendered (ref : string -> string) (b : block) : string :=
  "'" ++ (if mark b then ref (inner b) else inner b) ++ "'" ++ after b.
Definition text (ref : string -> string) (bs : list block) : string := String.concat "" (map (rendered ref) bs).
Definition marked (bs : list block) : list string := map inner (List.filter mark bs).

Lemma concat_cons x l : String.concat "" (x :: l) = x ++ String.concat "" l.
Proof. destruct l; cbn; [rewrite app_nil_s; reflexivity|reflexivity]. Qed.
Lemma concat_app l m : String.concat "" (l ++ m) = String.concat "" l ++ String.concat "" m.
Proof. induction l as [|x l IH]; [reflexivity|]. change ((x :: l) ++ m)%list with (x :: (l ++ m))%list. rewrite !concat_cons, IH, app_assoc_s. reflexivity. Qed.
Lemma text_app ref a b : text ref (a ++ b) = text ref a ++ text ref b.
Proof. unfold text. rewrite map_app. apply concat_app. Qed.
Lemma text_cons ref b bs : text ref (b :: bs) = rendered ref b ++ text ref bs.
Proof. unfold text. cbn [map]. apply concat_cons. Qed.
Lemma marked_app a b : marked (a ++ b) = (marked a ++ marked b)%list.
Proof. unfold marked. rewrite filter_app, map_app. reflexivity. Qed.

(** Segments of a script of blocks, without the last text. *)
Fixpoint pieces_of (b : block) (bs : list block) : list string :=
  match bs with [] => [inner b] | c :: bs => inner b :: after b :: pieces_of c bs end.
Fixpoint last_text (b : block) (bs : list block) : string :=
  match bs with [] => after b | c :: bs => last_text c bs end.

Lemma joined_cons x y l : joined (x :: y :: l) = x ++ "'" ++ joined (y :: l).
Proof. reflexivity. Qed.

Definition filled (ref : string -> string) (b : block) : block :=
  mkBlock false (if mark b then ref (inner b) else inner b) (after b).
Lemma text_joined ref h b bs :
  h ++ text ref (b :: bs) = joined (h :: (pieces_of (filled ref b) (map (filled ref) bs) ++ [last_text b bs]))%list.
Proof.
  revert h b. induction bs as [|c bs IH]; intros h b; [reflexivity|].
  rewrite text_cons. unfold rendered. rewrite !app_assoc_s, (IH (after b) c). reflexivity.
Qed.

(** A script of blocks after the replacements. *)
Definition plain (ns : list string) (s : string) : Prop := quote_free s /\ ~ In s ns.

Lemma exec_blocks fs h bs :
  NoDup (map fst fs) -> (forall n, In n (map fst fs) -> quote_free n /\ ~ starts "/" n) ->
  quote_free h -> NoDup (marked bs) ->
  (forall b, In b bs -> plain (map fst fs) (after b) /\
     if mark b then In (inner b) (map fst fs) else plain (map fst fs) (inner b)) ->
  fold_left (exec_entry fd) fs (h ++ text (fun n => n) bs) = h ++ text (descriptor fd) bs.
Proof.
  intros ND HN QH NM HB. destruct bs as [|b bs].
  - unfold text. cbn [map String.concat]. rewrite !app_nil_s. clear NM HB. induction fs as [|[n t] fs IH]; [reflexivity|].
    cbn [fold_left]. unfold exec_entry at 2. cbn [fst]. destruct (HN n (or_introl eq_refl)) as [QN _].
    change ("'/dev/fd/" ++ decimal (fd n) ++ "'") with ("'" ++ (descriptor fd n ++ "'")).
    pose proof (replace_segments n (descriptor fd n) h [] QN ltac:(repeat constructor; exact QH)) as R.
    change (joined [h]) with h in R. cbn [rep] in R. change (joined [h]) with h in R. rewrite R. apply IH.
    + inversion ND; assumption.
    + intros m I. apply HN. right. exact I.
  - rewrite !text_joined.
    assert (EB : forall c : block, filled (fun n => n) c = mkBlock false (inner c) (after c))
      by (intros c; unfold filled; destruct (mark c); reflexivity).
    rewrite (EB b), (map_ext _ _ EB bs). clear EB.
    rewrite exec_segments.
    + f_equal. f_equal. f_equal.
      assert (SI : forall c, In c (b :: bs) -> subst (map fst fs) (inner c) = if mark c then descriptor fd (inner c) else inner c).
      { intros c I. destruct (HB c I) as [_ Q]. unfold subst. destruct (mark c).
        - destruct (in_dec string_dec (inner c) (map fst fs)); [reflexivity|contradiction].
        - destruct (in_dec string_dec (inner c) (map fst fs)); [destruct Q; contradiction|reflexivity]. }
      assert (SA : forall c, In c (b :: bs) -> subst (map fst fs) (after c) = after c).
      { intros c I. destruct (HB c I) as [[_ Q] _]. unfold subst.
        destruct (in_dec string_dec (after c) (map fst fs)); [contradiction|reflexivity]. }
      clear - SI SA. revert b SI SA. induction bs as [|c bs IH]; intros b SI SA.
      * cbn [map pieces_of inner filled]. rewrite (SI b (or_introl eq_refl)). reflexivity.
      * cbn [map pieces_of inner after filled]. rewrite (SI b (or_introl eq_refl)), (SA b (or_introl eq_refl)).
        f_equal. f_equal. apply IH; intros d I; [apply SI|apply SA]; right; exact I.
    + exact ND.
    + intros n I. destruct (HN n I) as [QN SN]. split; [exact QN|]. split; [exact SN|].
      assert (C : count_occ string_dec (pieces_of (mkBlock false (inner b) (after b))
                (map (fun c => mkBlock false (inner c) (after c)) bs)) n = count_occ string_dec (marked (b :: bs)) n).
      { clear - I HB. revert b HB. induction bs as [|c bs IH]; intros b HB.
        - destruct (HB b (or_introl eq_refl)) as [_ Q]. unfold marked. cbn [map pieces_of inner List.filter].
          destruct (mark b); [reflexivity|]. cbn [map count_occ]. destruct (string_dec (inner b) n) as [E|]; [|reflexivity].
          destruct Q as [_ Q]. rewrite E in Q. contradiction.
        - destruct (HB b (or_introl eq_refl)) as [[_ A] Q]. cbn [map pieces_of inner after count_occ].
          rewrite (IH c ltac:(intros d J; apply HB; right; exact J)).
          destruct (string_dec (after b) n) as [E|_]; [rewrite E in A; contradiction|].
          unfold marked. cbn [List.filter]. destruct (mark b); cbn [map count_occ].
          + reflexivity.
          + destruct (string_dec (inner b) n) as [E|_]; [|reflexivity]. destruct Q as [_ Q]. rewrite E in Q. contradiction. }
      rewrite C. apply (NoDup_count_occ string_dec). exact NM.
    + constructor; [exact QH|].
      assert (QI : forall c, In c (b :: bs) -> quote_free (inner c) /\ quote_free (after c)).
      { intros c I. destruct (HB c I) as [[QA _] Q]. split; [|exact QA]. destruct (mark c); [exact (proj1 (HN _ Q))|exact (proj1 Q)]. }
      clear - QI. revert b QI. induction bs as [|c bs IH]; intros b QI; destruct (QI b (or_introl eq_refl)) as [Q1 Q2].
      * repeat constructor; assumption.
      * cbn [map pieces_of inner after last_text app]. constructor; [exact Q1|]. constructor; [exact Q2|].
        apply IH. intros d I. apply QI. right. exact I.
Qed.

End Replace.
