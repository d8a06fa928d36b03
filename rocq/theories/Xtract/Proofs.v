(** Lemmas about vvxtract. *)

From Coq Require Import List ZArith Bool String Ascii Arith Lia.
From Verif Require Import Xtract.Model Xtract.Spec.
Import ListNotations.
Local Open Scope string_scope.

(** ** Texts *)

Definition joined (l : list string) : string := fold_right append "" l.
Definition ended (c : ascii) (x : string) : string := x ++ String c "".

Lemma app_nil_r s : s ++ "" = s.
Proof. induction s as [|c s IH]; [reflexivity|]. cbn. rewrite IH. reflexivity. Qed.
Lemma app_assoc a b c : (a ++ b) ++ c = a ++ (b ++ c).
Proof. induction a as [|x a IH]; [reflexivity|]. cbn. rewrite IH. reflexivity. Qed.

Lemma concat_joined l : String.concat "" l = joined l.
Proof.
  induction l as [|x l IH]; [reflexivity|]. destruct l as [|y l].
  - cbn. symmetry. apply app_nil_r.
  - change (String.concat "" (x :: y :: l)) with (x ++ "" ++ String.concat "" (y :: l)). rewrite IH. reflexivity.
Qed.
Lemma joined_app a b : joined (a ++ b)%list = joined a ++ joined b.
Proof. induction a as [|x a IH]; [reflexivity|]. cbn [List.app joined fold_right] in *. fold (joined (a ++ b)%list) (joined a). rewrite IH, app_assoc. reflexivity. Qed.

Lemma chars_app a b : list_ascii_of_string (a ++ b) = (list_ascii_of_string a ++ list_ascii_of_string b)%list.
Proof. induction a as [|x a IH]; [reflexivity|]. cbn. rewrite IH. reflexivity. Qed.
Lemma without_app c a b : without c a -> without c b -> without c (a ++ b).
Proof. unfold without. intros A B. rewrite chars_app, in_app_iff. tauto. Qed.
Lemma without_joined c l : Forall (without c) l -> without c (joined l).
Proof. induction 1 as [|x l X _ IH]; [intros []|]. cbn. apply without_app; assumption. Qed.

(** A text can be cut at the first [c] in one way only. *)
Lemma cut_once c : forall a b s t, without c a -> without c b -> a ++ String c s = b ++ String c t -> a = b /\ s = t.
Proof.
  induction a as [|x a IH]; intros [|y b] s t A B E; cbn in E.
  - injection E as ->. split; reflexivity.
  - injection E as -> _. destruct (B (or_introl eq_refl)).
  - injection E as -> _. destruct (A (or_introl eq_refl)).
  - injection E as -> E. destruct (IH b s t) as [-> ->]; [| |exact E|split; reflexivity].
    + intros H. apply A. right. exact H.
    + intros H. apply B. right. exact H.
Qed.
Lemma pieces_unique c : forall l l' s, pieces c l s -> pieces c l' s -> l = l'.
Proof.
  unfold pieces. intros l l' s [F ->] [F' E]. rewrite !concat_joined in E. revert l' F' E.
  induction F as [|x l X _ IH]; intros l' F' E.
  - destruct F' as [|y l' Y _]; [reflexivity|]. cbn in E. destruct y; discriminate.
  - destruct F' as [|y l' Y F']; [cbn in E; destruct x; discriminate|].
    cbn in E. rewrite !app_assoc in E. cbn in E. destruct (cut_once c x y _ _ X Y E) as [-> E'].
    f_equal. apply IH; assumption.
Qed.

(** ** Printing *)

Lemma print_some l : print (map Some l) = Some (joined l).
Proof. induction l as [|x l IH]; [reflexivity|]. cbn. rewrite IH. reflexivity. Qed.
Lemma print_app a b s t : print a = Some s -> print b = Some t -> print (a ++ b)%list = Some (s ++ t).
Proof.
  revert s. induction a as [|x a IH]; intros s A B; cbn in *; [injection A as <-; exact B|].
  destruct x as [x|]; [|discriminate]. destruct (print a) as [s'|]; [|discriminate]. injection A as <-.
  rewrite (IH s' eq_refl B). rewrite app_assoc. reflexivity.
Qed.

(** A list with a given property at each place. *)
Lemma collect {A} (P : nat -> A -> Prop) n : (forall j, (j < n)%nat -> exists x, P j x) ->
  exists l, List.length l = n /\ forall j x, nth_error l j = Some x -> P j x.
Proof.
  revert P. induction n as [|n IH]; intros P H.
  - exists []. split; [reflexivity|]. intros [|j] x E; discriminate.
  - destruct (H 0%nat) as [x0 P0]; [lia|]. destruct (IH (fun j => P (S j))) as (l & L & Q).
    + intros j Hj. apply H. lia.
    + exists (x0 :: l). split; [cbn; lia|]. intros [|j] x E; cbn in E; [injection E as <-; exact P0|apply Q; exact E].
Qed.

Lemma nth_error_ext {A} : forall l l' : list A, (forall j, nth_error l j = nth_error l' j) -> l = l'.
Proof.
  induction l as [|x l IH]; intros [|y l'] H; [reflexivity|discriminate (H 0%nat)|discriminate (H 0%nat)|].
  pose proof (H 0%nat) as E. cbn in E. injection E as ->. f_equal. apply IH. intros j. exact (H (S j)).
Qed.
Lemma nth_error_map {A B} (f : A -> B) : forall l j, nth_error (map f l) j = option_map f (nth_error l j).
Proof. induction l as [|x l IH]; intros [|j]; try reflexivity. apply IH. Qed.

Section Table.
Context {V : Type} (fmt : V -> string).
Implicit Types d : @dataset V.
Local Notation shown := (shown fmt).

Lemma cell_ok d i j : complete d -> (j < cols d)%nat -> exists s, shown d i j s /\ cell fmt d i j = Some (s ++ tab).
Proof.
  intros C J. unfold cell, Spec.shown. destruct (Nat.leb_spec (rows d) i) as [L|L].
  - eexists. split; [split; [lia|reflexivity]|reflexivity].
  - unfold value. rewrite (Nat.mul_comm (cols d)). destruct (nth_error (mem d) (i * cols d + j)) as [v|] eqn:E.
    + exists (fmt v). split; [split; [eexists; split; reflexivity|lia]|reflexivity].
    + apply nth_error_None in E. rewrite C in E. nia.
Qed.

Lemma cells_ok d i : complete d -> exists l, List.length l = cols d /\
  print (map (cell fmt d i) (seq 0 (cols d))) = Some (joined (map (ended tabulator) l)) /\
  forall j s, nth_error l j = Some s -> shown d i j s.
Proof.
  intros C. destruct (collect (fun j s => shown d i j s /\ cell fmt d i j = Some (s ++ tab)) (cols d)) as (l & L & Q).
  { intros j J. apply cell_ok; assumption. }
  exists l. split; [exact L|]. split; [|intros j s E; apply Q; exact E].
  assert (E : map (cell fmt d i) (seq 0 (cols d)) = map Some (map (ended tabulator) l)).
  { apply nth_error_ext. intros j. rewrite !nth_error_map.
    destruct (nth_error l j) as [s|] eqn:E.
    - assert (J : (j < cols d)%nat) by (rewrite <- L; apply nth_error_Some; congruence).
      rewrite (nth_error_nth' (seq 0 (cols d)) 0%nat) by (rewrite seq_length; exact J).
      rewrite seq_nth by exact J. cbn [option_map]. exact (f_equal Some (proj2 (Q j s E))).
    - apply nth_error_None in E. rewrite L in E.
      assert (N : nth_error (seq 0 (cols d)) j = None) by (apply nth_error_None; rewrite seq_length; exact E).
      rewrite N. reflexivity. }
  rewrite E. apply print_some.
Qed.

Lemma row_ok (ds : list (@dataset V)) i : Forall complete ds -> exists l, List.length l = columns ds /\
  print (map (fun d => print (map (cell fmt d i) (seq 0 (cols d)))) ds) = Some (joined (map (ended tabulator) l)) /\
  forall k d j, nth_error ds k = Some d -> (j < cols d)%nat ->
    exists s, nth_error l (place ds k + j) = Some s /\ shown d i j s.
Proof.
  induction 1 as [|d ds C _ IH].
  - exists []. split; [reflexivity|]. split; [reflexivity|]. intros [|k] d j E; discriminate.
  - destruct IH as (l & L & P & Q). destruct (cells_ok d i C) as (a & A & PA & QA).
    exists (a ++ l)%list. split; [rewrite app_length, A, L; reflexivity|]. split.
    + cbn [map print]. rewrite PA, P. rewrite map_app, joined_app. reflexivity.
    + intros [|k] d' j E J; cbn in E.
      * injection E as ->. change (place (d' :: ds) 0) with 0%nat.
        destruct (nth_error a j) as [s|] eqn:N.
        -- exists s. split; [rewrite nth_error_app1; [exact N|lia]|apply QA; exact N].
        -- apply nth_error_None in N. lia.
      * destruct (Q k d' j E J) as (s & N & Sh). exists s. split; [|exact Sh].
        change (place (d :: ds) (S k)) with (cols d + place ds k)%nat.
        rewrite nth_error_app2 by lia. rewrite <- N. f_equal. lia.
Qed.

Lemma print_row_ok (ds : list (@dataset V)) i l :
  print (map (fun d => print (map (cell fmt d i) (seq 0 (cols d)))) ds) = Some l -> print_row fmt ds i = Some (l ++ nl).
Proof. intros E. unfold print_row. apply print_app; [exact E|reflexivity]. Qed.

(** ** The heading *)

Lemma titles_ok (ds : list (@dataset V)) : exists l, List.length l = columns ds /\
  joined (map (fun d => String.concat "" (map (column_name d) (seq 0 (cols d)))) ds) = joined (map (ended tabulator) l) /\
  forall k d j, nth_error ds k = Some d -> (j < cols d)%nat ->
    exists s, nth_error l (place ds k + j) = Some s /\ titled d j s.
Proof.
  induction ds as [|d ds (l & L & P & Q)].
  - exists []. split; [reflexivity|]. split; [reflexivity|]. intros [|k] d j E; discriminate.
  - pose (t := fun j => name d ++ (if Nat.ltb 1 (cols d) then "[" ++ decimal (j + 1) ++ "]" else "")).
    exists (map t (seq 0 (cols d)) ++ l)%list. split; [rewrite app_length, map_length, seq_length, L; reflexivity|]. split.
    + cbn [map joined fold_right]. rewrite map_app, joined_app, <- P. f_equal. rewrite concat_joined, map_map.
      f_equal. apply map_ext. intros j. unfold column_name, ended, t. rewrite app_assoc. reflexivity.
    + intros [|k] d' j E J; cbn in E.
      * injection E as ->. change (place (d' :: ds) 0) with 0%nat. exists (t j). split.
        -- rewrite nth_error_app1 by (rewrite map_length, seq_length; exact J). rewrite nth_error_map, (nth_error_nth' _ 0%nat)
             by (rewrite seq_length; exact J). rewrite seq_nth by exact J. reflexivity.
        -- unfold t, titled. split; intros X.
           ++ rewrite X. apply app_nil_r.
           ++ destruct (Nat.ltb_spec 1 (cols d')); [|lia]. rewrite Nat.add_1_r. reflexivity.
      * destruct (Q k d' j E J) as (s & N & Sh). exists s. split; [|exact Sh].
        change (place (d :: ds) (S k)) with (cols d + place ds k)%nat.
        rewrite nth_error_app2 by (rewrite map_length, seq_length; lia). rewrite map_length, seq_length, <- N. f_equal. lia.
Qed.

(** ** Reading *)

Lemma read_ok (f : @file V) args ds : Forall2 (holds f) args ds -> read (find f) args = inl ds.
Proof.
  induction 1 as [|a d args ds [<- F] _ IH]; [reflexivity|]. cbn. rewrite F, IH. destruct d; reflexivity.
Qed.
Lemma read_inv (f : @file V) args ds : read (find f) args = inl ds -> Forall2 (holds f) args ds.
Proof.
  revert ds. induction args as [|a args IH]; intros ds E; cbn in E; [injection E as <-; constructor|].
  destruct (find f a) eqn:F; try discriminate. destruct (read (find f) args) as [ds'|]; [|discriminate].
  injection E as <-. constructor; [split; [reflexivity|exact F]|apply IH; reflexivity].
Qed.
Lemma max_rows_ok (ds : list (@dataset V)) : longest ds (max_rows ds).
Proof.
  unfold max_rows. assert (H : forall (l : list (@dataset V)) m, (m <= fold_left (fun m d => Nat.max m (rows d)) l m)%nat /\
    (forall d, In d l -> rows d <= fold_left (fun m d => Nat.max m (rows d)) l m)%nat /\
    (fold_left (fun m d => Nat.max m (rows d)) l m = m \/ exists d, In d l /\ rows d = fold_left (fun m d => Nat.max m (rows d)) l m)).
  { induction l as [|d l IH]; intros m; cbn [fold_left]; [split; [lia|split; [intros d []|left; reflexivity]]|].
    destruct (IH (Nat.max m (rows d))) as (A & B & C). split; [lia|]. split.
    - intros x [<-|I]; [lia|apply B; exact I].
    - destruct C as [C|(x & I & C)]; [|right; exists x; split; [right; exact I|exact C]].
      destruct (Nat.max_dec m (rows d)) as [M|M]; [left; lia|right; exists d; split; [left; reflexivity|lia]]. }
  destruct (H ds 0%nat) as (_ & B & C). split; [exact B|exact C].
Qed.

(** ** Characters *)

Lemma digits_without c (u : Decimal.uint) : ~ In c (list_ascii_of_string "0123456789") ->
  without c (DecimalString.NilEmpty.string_of_uint u).
Proof.
  intros N. unfold without. induction u; cbn; try tauto; intros [<-|I]; try (apply IHu; exact I); apply N; cbn; tauto.
Qed.
Lemma titled_without c d j s : ~ In c (list_ascii_of_string "0123456789[]") -> without c (name d) -> titled d j s -> without c s.
Proof.
  intros N W [T1 T2]. destruct (Nat.eq_dec (cols d) 1) as [E|E]; [rewrite (T1 E); exact W|].
  rewrite (T2 E). apply without_app; [exact W|]. apply without_app; [|apply without_app].
  - intros [<-|[]]. apply N. cbn. tauto.
  - apply digits_without. intros I. apply N. cbn in I |- *. tauto.
  - intros [<-|[]]. apply N. cbn. tauto.
Qed.
Lemma shown_without c d i j s : c <> " "%char -> (forall v, without c (fmt v)) -> shown d i j s -> without c s.
Proof.
  intros N W [S1 S2]. destruct (Nat.lt_ge_cases i (rows d)) as [L|L].
  - destruct (S1 L) as (v & _ & ->). apply W.
  - rewrite (S2 L). unfold without. cbn. intuition congruence.
Qed.

(** Every place of the line belongs to a column of a dataset. *)
Lemma place_find (ds : list (@dataset V)) : forall p, (p < columns ds)%nat ->
  exists k d j, nth_error ds k = Some d /\ (j < cols d)%nat /\ p = (place ds k + j)%nat.
Proof.
  induction ds as [|d ds IH]; intros p P; [cbn in P; lia|].
  change (columns (d :: ds)) with (cols d + columns ds)%nat in P.
  destruct (Nat.lt_ge_cases p (cols d)) as [L|L].
  - exists 0%nat, d, p. repeat split; [exact L].
  - destruct (IH (p - cols d)%nat) as (k & d' & j & E & J & Q); [lia|].
    exists (S k), d', j. split; [exact E|]. split; [exact J|].
    change (place (d :: ds) (S k)) with (cols d + place ds k)%nat. lia.
Qed.

(** ** awk *)

Definition word (s : string) : Prop := s <> "" /\ forall c, In c (list_ascii_of_string s) -> blank c = false.

Lemma split_word : forall x w s, (forall c, In c (list_ascii_of_string x) -> blank c = false) ->
  split_from w (x ++ s) = split_from (w ++ x) s.
Proof.
  induction x as [|c x IH]; intros w s B; cbn; [rewrite app_nil_r; reflexivity|].
  rewrite (B c (or_introl eq_refl)). rewrite IH by (intros y Y; apply B; right; exact Y). rewrite app_assoc. reflexivity.
Qed.
Lemma awk_words : forall a s, Forall word a -> awk_fields (joined (map (ended tabulator) a) ++ s) = (a ++ awk_fields s)%list.
Proof.
  induction a as [|x a IH]; intros s F; [reflexivity|]. inversion F as [|? ? [N B] F']; subst.
  cbn. unfold ended at 1. rewrite !app_assoc. unfold awk_fields. rewrite split_word by exact B. cbn.
  destruct x as [|c x]; [congruence|]. cbn. f_equal. apply (IH s F').
Qed.

End Table.

Lemma nth_error_Some_len {A} (l : list A) n x : nth_error l n = Some x -> (n < List.length l)%nat.
Proof. intros E. apply nth_error_Some. congruence. Qed.
Lemma nth_error_firstn {A} : forall (l : list A) n k, (k < n)%nat -> nth_error (firstn n l) k = nth_error l k.
Proof.
  induction l as [|x l IH]; intros [|n] [|k] H; try lia; try reflexivity. cbn. apply IH. lia.
Qed.
