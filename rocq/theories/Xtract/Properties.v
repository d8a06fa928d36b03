(** C44, C90, C91: vvxtract. *)

From Coq Require Import List ZArith Bool String Ascii Arith Lia.
From Verif Require Import Xtract.Model Xtract.Spec Xtract.Proofs.
Import ListNotations.
Local Open Scope string_scope.

Section Print.
Context {V : Type} (fmt : V -> string).

(** * C44: the table *)

(** The output is the heading and as many lines as the longest dataset has
    rows; each has one cell for each column of each dataset, in order. *)
Theorem C44_table : forall (f : @file V) args ds,
  args <> [] -> Forall2 (holds f) args ds -> full f ->
  (forall v, without newline (fmt v) /\ without tabulator (fmt v)) ->
  (forall a, In a args -> without newline a /\ without tabulator a) ->
  exists out h titles lines,
    main fmt false false (Some f) args = Exit 0 out /\
    pieces newline (("#" ++ h) :: lines) out /\
    longest ds (List.length lines) /\
    pieces tabulator titles h /\ List.length titles = columns ds /\
    (forall k d j, nth_error ds k = Some d -> (j < cols d)%nat ->
      exists s, nth_error titles (place ds k + j) = Some s /\ titled d j s) /\
    (forall i line, nth_error lines i = Some line ->
      exists cells, pieces tabulator cells line /\ List.length cells = columns ds /\
      forall k d j, nth_error ds k = Some d -> (j < cols d)%nat ->
        exists s, nth_error cells (place ds k + j) = Some s /\ shown fmt d i j s).
Proof.
  intros f args ds A H F W N.
  assert (C : Forall complete ds).
  { clear - H F. induction H as [|a d args ds [_ E] _ IH]; constructor; [exact (F _ _ _ _ E)|exact IH]. }
  assert (ND : forall d, In d ds -> without newline (name d) /\ without tabulator (name d)).
  { clear - H N. induction H as [|a d args ds [E _] _ IH]; intros x I; [destruct I|].
    destruct I as [<-|I]; [rewrite E; apply N; left; reflexivity|apply IH; [intros y Y; apply N; right; exact Y|exact I]]. }
  destruct (titles_ok ds) as (titles & TL & TP & TQ).
  assert (R : forall i, exists cells, List.length cells = columns ds /\
    print_row fmt ds i = Some (joined (map (ended tabulator) cells) ++ nl) /\
    forall k d j, nth_error ds k = Some d -> (j < cols d)%nat ->
      exists s, nth_error cells (place ds k + j) = Some s /\ shown fmt d i j s).
  { intros i. destruct (row_ok fmt ds i C) as (l & L & P & Q). exists l. split; [exact L|].
    split; [apply print_row_ok; exact P|exact Q]. }
  destruct (collect (fun i line => exists cells, List.length cells = columns ds /\
    line = joined (map (ended tabulator) cells) /\ print_row fmt ds i = Some (line ++ nl) /\
    forall k d j, nth_error ds k = Some d -> (j < cols d)%nat ->
      exists s, nth_error cells (place ds k + j) = Some s /\ shown fmt d i j s) (max_rows ds)) as (lines & LL & LQ).
  { intros i _. destruct (R i) as (cells & L & P & Q). eexists; exists cells; split; [exact L|].
    split; [reflexivity|]. split; [exact P|exact Q]. }
  assert (PR : map (print_row fmt ds) (seq 0 (max_rows ds)) = map Some (map (ended newline) lines)).
  { apply nth_error_ext. intros i. rewrite !nth_error_map. destruct (nth_error lines i) as [line|] eqn:E.
    - assert (I : (i < max_rows ds)%nat) by (rewrite <- LL; apply nth_error_Some; congruence).
      rewrite (nth_error_nth' _ 0%nat) by (rewrite seq_length; exact I). rewrite seq_nth by exact I.
      destruct (LQ i line E) as (cells & _ & _ & P & _). exact (f_equal Some P).
    - apply nth_error_None in E. rewrite LL in E.
      assert (X : nth_error (seq 0 (max_rows ds)) i = None) by (apply nth_error_None; rewrite seq_length; exact E).
      rewrite X. reflexivity. }
  exists (heading ds ++ joined (map (ended newline) lines)), (joined (map (ended tabulator) titles)), titles, lines.
  assert (DS : ds <> []) by (intros ->; inversion H; subst; congruence).
  assert (HD : heading ds = ended newline ("#" ++ joined (map (ended tabulator) titles))).
  { unfold heading. destruct ds as [|d0 ds0]; [congruence|]. rewrite concat_joined, TP. reflexivity. }
  assert (TW : forall c, c = newline \/ c = tabulator -> Forall (without c) titles).
  { intros c HC. apply Forall_forall. intros s I. apply In_nth_error in I. destruct I as [p E].
    assert (P : (p < columns ds)%nat) by (rewrite <- TL; apply nth_error_Some; congruence).
    destruct (place_find ds p P) as (k & d & j & K & J & ->).
    destruct (TQ k d j K J) as (s' & E' & T). rewrite E in E'. injection E' as <-.
    apply (titled_without c d j s).
    - destruct HC as [-> | ->]; cbn; intuition discriminate.
    - destruct (ND d (nth_error_In _ _ K)). destruct HC as [-> | ->]; assumption.
    - exact T. }
  assert (CW : forall c i cells, c = newline \/ c = tabulator -> List.length cells = columns ds ->
    (forall k d j, nth_error ds k = Some d -> (j < cols d)%nat ->
      exists s, nth_error cells (place ds k + j) = Some s /\ shown fmt d i j s) -> Forall (without c) cells).
  { intros c i cells HC L Q. apply Forall_forall. intros s I. apply In_nth_error in I. destruct I as [p E].
    assert (P : (p < columns ds)%nat) by (rewrite <- L; apply nth_error_Some; congruence).
    destruct (place_find ds p P) as (k & d & j & K & J & ->).
    destruct (Q k d j K J) as (s' & E' & T). rewrite E in E'. injection E' as <-.
    apply (shown_without fmt c d i j s).
    - destruct HC as [-> | ->]; discriminate.
    - intros v. destruct (W v). destruct HC as [-> | ->]; assumption.
    - exact T. }
  assert (NE : forall l, Forall (without newline) l -> without newline (joined (map (ended tabulator) l))).
  { intros l FL. apply without_joined. apply Forall_map. apply Forall_forall. intros x I.
    rewrite Forall_forall in FL. apply without_app; [apply FL; exact I|]. cbn. intros [X|[]]. discriminate X. }
  split; [|split; [|split; [|split; [|split; [exact TL|split; [exact TQ|]]]]]].
  - unfold main. destruct args as [|a args]; [congruence|]. cbn [orb].
    rewrite (read_ok f (a :: args) ds H). unfold table. cbn [print]. rewrite PR, print_some. reflexivity.
  - split.
    + constructor; [|apply Forall_forall; intros line I].
      * change (without newline ("#" ++ joined (map (ended tabulator) titles))).
        apply without_app; [cbn; intros [X|[]]; discriminate X|]. apply NE. apply TW. left; reflexivity.
      * apply In_nth_error in I. destruct I as [i E]. destruct (LQ i line E) as (cells & L & -> & _ & Q).
        apply NE. apply (CW newline i cells); [left; reflexivity|exact L|exact Q].
    + rewrite concat_joined, HD. reflexivity.
  - rewrite LL. apply max_rows_ok.
  - split; [apply TW; right; reflexivity|]. rewrite concat_joined. reflexivity.
  - intros i line E. destruct (LQ i line E) as (cells & L & -> & _ & Q). exists cells. split; [split|split; [exact L|exact Q]].
    + apply (CW tabulator i cells); [right; reflexivity|exact L|exact Q].
    + rewrite concat_joined. reflexivity.
Qed.

(** Nothing is printed unless all datasets can be read. *)
Theorem C44_error : forall (f : @file V) pre a post ds code,
  Forall2 (holds f) pre ds -> bad (find f a) code ->
  main fmt false false (Some f) (pre ++ a :: post) = Exit code "".
Proof.
  intros f pre a post ds code H B.
  assert (R : read (find f) (pre ++ a :: post) = inr code).
  { clear - H B. induction H as [|x d pre ds [_ E] _ IH].
    - cbn. destruct B as [[-> ->]|(N & M & ->)]; [reflexivity|].
      destruct (find f a); try reflexivity; [congruence|destruct (M rows cols mem); reflexivity].
    - cbn. rewrite E. change (read (find f) (pre ++ a :: post)) with (read (find f) (pre ++ a :: post)) in *.
      rewrite IH. reflexivity. }
  unfold main. assert (X : match (pre ++ a :: post)%list with [] => true | _ => false end = false)
    by (destruct pre; reflexivity).
  rewrite X. cbn [orb]. rewrite R. reflexivity.
Qed.

(** * C90: the table read by awk *)

(** As long as the datasets up to [k] have row [i], awk finds the value where it
    is in the table. *)
Theorem C90_awk_partial : forall (f : @file V) args ds,
  args <> [] -> Forall2 (holds f) args ds -> full f ->
  (forall v, fmt v <> "" /\ forall c, In c (list_ascii_of_string (fmt v)) -> blank c = false) ->
  (forall a, In a args -> without newline a /\ without tabulator a) ->
  exists out first lines,
    main fmt false false (Some f) args = Exit 0 out /\ pieces newline (first :: lines) out /\
    forall i line k d j v, nth_error lines i = Some line -> nth_error ds k = Some d -> (j < cols d)%nat ->
      (forall e, In e (firstn (S k) ds) -> (i < rows e)%nat) -> value d i j v ->
      nth_error (awk_fields line) (place ds k + j) = Some (fmt v).
Proof.
  intros f args ds A H F W N.
  assert (W' : forall v, without newline (fmt v) /\ without tabulator (fmt v)).
  { intros v. destruct (W v) as [_ B]. split; intros I; specialize (B _ I); discriminate B. }
  destruct (C44_table f args ds A H F W' N) as (out & h & titles & lines & M & P & _ & _ & _ & _ & L).
  exists out, ("#" ++ h), lines. split; [exact M|]. split; [exact P|].
  intros i line k d j v E K J B VV. destruct (L i line E) as (cells & [_ EL] & CL & Q).
  destruct (Q k d j K J) as (s & ES & S1 & _).
  destruct S1 as (v' & VV' & ->). { apply B. apply nth_error_In with k. rewrite nth_error_firstn; [exact K|lia]. }
  assert (v' = v) as -> by (unfold value in *; congruence).
  set (p := (place ds k + j)%nat) in *.
  assert (PL : (p < List.length cells)%nat) by (apply nth_error_Some; congruence).
  assert (WD : Forall word (firstn (S p) cells)).
  { apply Forall_forall. intros x I. apply In_nth_error in I. destruct I as [q EQ].
    assert (QL : (q < S p)%nat) by (apply nth_error_Some_len in EQ; rewrite firstn_length in EQ; lia).
    rewrite nth_error_firstn in EQ by exact QL.
    assert (QC : (q < columns ds)%nat) by (rewrite <- CL; apply nth_error_Some; congruence).
    destruct (place_find ds q QC) as (k' & d' & j' & K' & J' & ->).
    destruct (Q k' d' j' K' J') as (s' & ES' & S1' & _). rewrite EQ in ES'. injection ES' as <-.
    assert (KK : (k' <= k)%nat).
    { destruct (Nat.le_gt_cases k' k) as [|G]; [assumption|exfalso].
      assert (PK : (place ds k + cols d <= place ds k')%nat).
      { unfold place. clear - K G. revert k k' K G. induction ds as [|x ds IH]; intros [|k] [|k'] K G; try lia; try discriminate.
        - cbn in K. injection K as ->. cbn. unfold columns. cbn. lia.
        - cbn in K. apply Nat.succ_lt_mono in G. specialize (IH k k' K G). unfold columns in *. cbn [firstn map list_sum fold_right] in *. unfold list_sum in *. cbn [fold_right]. lia. }
      unfold p in QL. lia. }
    destruct S1' as (w & _ & ->); [|exact (W w)].
    apply B. apply nth_error_In with k'. rewrite nth_error_firstn; [exact K'|lia]. }
  rewrite EL, concat_joined. rewrite <- (firstn_skipn (S p) cells) at 1. fold (ended tabulator).
  rewrite map_app, joined_app, awk_words by exact WD.
  rewrite nth_error_app1 by (rewrite firstn_length; lia). rewrite nth_error_firstn; [exact ES|lia].
Qed.

(** A dataset that ends early moves the values of those after it to the left. *)
Theorem C90_shift_refuted : forall (x y z : V),
  (forall v, fmt v <> "" /\ forall c, In c (list_ascii_of_string (fmt v)) -> blank c = false) ->
  exists (f : @file V) args ds out first lines line,
    Forall2 (holds f) args ds /\ full f /\
    main fmt false false (Some f) args = Exit 0 out /\ pieces newline (first :: lines) out /\
    nth_error lines 1 = Some line /\
    awk_fields line = [fmt z] /\ place ds 1 = 1%nat.
Proof.
  intros x y z W.
  pose (d0 := mkData "a" 1 1 [x]). pose (d1 := mkData "b" 2 1 [y; z]).
  pose (f := mkFile ["a"; "b"] "" None
    (fun n => if String.eqb n "a" then Array 1 1 [x] else if String.eqb n "b" then Array 2 1 [y; z] else Missing)).
  assert (FL : full f).
  { intros a r c m E. cbn in E. destruct (String.eqb a "a"); [injection E as <- <- <-; reflexivity|].
    destruct (String.eqb a "b"); [injection E as <- <- <-; reflexivity|discriminate]. }
  assert (H : Forall2 (holds f) ["a"; "b"] [d0; d1]) by (repeat constructor).
  assert (W' : forall v, without newline (fmt v) /\ without tabulator (fmt v)).
  { intros v. destruct (W v) as [_ B]. split; intros I; specialize (B _ I); discriminate B. }
  destruct (C44_table f ["a"; "b"] [d0; d1] ltac:(discriminate) H FL W') as (out & h & titles & lines & M & P & LL & _ & _ & _ & L).
  { intros a [<-|[<-|[]]]; split; intros [X|[]]; discriminate X. }
  destruct (nth_error lines 1) as [line|] eqn:E.
  2:{ apply nth_error_None in E. destruct LL as [LL _]. specialize (LL d1 (or_intror (or_introl eq_refl))). cbn in LL. lia. }
  exists f, ["a"; "b"], [d0; d1], out, ("#" ++ h), lines, line.
  split; [exact H|]. split; [exact FL|]. split; [exact M|]. split; [exact P|]. split; [exact E|]. split; [|reflexivity].
  destruct (L 1%nat line E) as (cells & [_ EL] & CL & Q).
  destruct (Q 0%nat d0 0%nat eq_refl ltac:(cbn; lia)) as (s0 & E0 & _ & S0).
  destruct (Q 1%nat d1 0%nat eq_refl ltac:(cbn; lia)) as (s1 & E1 & S1 & _).
  specialize (S0 ltac:(cbn; lia)). destruct (S1 ltac:(cbn; lia)) as (v & VV & ->).
  unfold value in VV. cbn in VV. injection VV as <-.
  destruct cells as [|c0 [|c1 [|c2 cells]]]; cbn in CL; try lia. cbn in E0, E1. injection E0 as ->. injection E1 as ->.
  rewrite EL, concat_joined, S0. cbn [map joined fold_right].
  change (awk_fields (joined (map (ended tabulator) [fmt z])) = [fmt z]).
  rewrite <- (app_nil_r (joined (map (ended tabulator) [fmt z]))).
  rewrite awk_words; [reflexivity|]. constructor; [exact (W z)|constructor].
Qed.

End Print.

(** * C91: the information *)

Section Info.
Context {V : Type} (fmt : V -> string).

Lemma slip_shown b sl : slip_text b = Some sl ->
  (forall x, In x (slips b) -> x = 0%Z \/ x = 1%Z) -> shows_slip b (label b ++ ".slip = " ++ sl).
Proof.
  unfold slip_text, shows_slip. destruct (slips b) as [|s l] eqn:E; [discriminate|]. intros H ZB. cbv zeta in H.
  set (p := fun x => negb (Z.eqb x s)) in *. match type of H with Some ?a = _ => assert (sl = a) as -> by congruence end. clear H.
  destruct (existsb p (s :: l)) eqn:X.
  - right; right. split; [reflexivity|]. apply existsb_exists in X. destruct X as (x & I & X).
    exists x, s. split; [exact I|]. split; [left; reflexivity|]. unfold p in X. apply negb_true_iff, Z.eqb_neq in X. exact X.
  - assert (A : forall x, In x (s :: l) -> x = s).
    { intros x I. destruct (Z.eq_dec x s) as [|N]; [assumption|]. exfalso.
      assert (Y : existsb p (s :: l) = true) by (apply existsb_exists; exists x; split; [exact I|]; unfold p;
        apply negb_true_iff, Z.eqb_neq; exact N). congruence. }
    destruct (ZB s (or_introl eq_refl)) as [-> | ->]; [left|right; left]; (split; [reflexivity|exact A]).
Qed.

Lemma showable_lines s b : showable s b -> (forall x, In x (slips b) -> x = 0%Z \/ x = 1%Z) ->
  exists l, body_lines s b = Some l /\
    (exists x, In x l /\ shows_slip b x) /\ (exists x, In x l /\ shows_root s b x) /\
    In ("-- #" ++ label b ++ " = " ++ decimal (List.length (slips b)) ++ " -- number of segments") l.
Proof.
  intros (L & S & R) Z. unfold body_lines.
  assert (N : shown_name b = Some (label b)) by (unfold shown_name; destruct (label b); [congruence|reflexivity]).
  rewrite N. destruct (slip_text b) as [sl|] eqn:SL.
  2:{ unfold slip_text in SL. destruct (slips b); [congruence|discriminate]. }
  assert (RT : exists r, root_text s b = Some r /\ shows_root s b (label b ++ ".root = " ++ r)).
  { unfold root_text, shows_root. destruct (root b) as [i|] eqn:E.
    - destruct (R i eq_refl) as (r & Er & Lr). rewrite Er. exists (label r). split.
      + unfold shown_name. destruct (label r); [congruence|reflexivity].
      + right. exists i, r. split; [reflexivity|]. split; [exact Er|reflexivity].
    - exists "nil". split; [reflexivity|]. left. split; reflexivity. }
  destruct RT as (r & -> & SR). eexists. split; [reflexivity|]. split; [|split].
  - eexists. split; [right; left; reflexivity|]. apply slip_shown; assumption.
  - eexists. split; [right; right; right; left; reflexivity|exact SR].
  - right; right; right; right; left. reflexivity.
Qed.

(** With labels and segments everywhere: the information and nothing else is
    printed; it has the number of bodies, vortices and sources and for each
    body the slip condition, the root and the number of segments. *)
Theorem C91_info_partial : forall (f : @file V) b_info args s,
  b_info = true \/ args = [] -> space f = Some s ->
  (forall b, In b (bodies s) -> showable s b /\ forall x, In x (slips b) -> x = 0%Z \/ x = 1%Z) ->
  exists lines,
    main fmt b_info false (Some f) args = Exit 0 (general f ++ String.concat "" (map (fun x => x ++ nl) lines)) /\
    In ("-- #S.body_list = " ++ decimal (List.length (bodies s)) ++ " -- number of elements") lines /\
    In ("-- #S.vort_list = " ++ decimal (vortices s)) lines /\
    In ("-- #S.sink_list = " ++ decimal (sources s)) lines /\
    forall b, In b (bodies s) ->
      (exists x, In x lines /\ shows_slip b x) /\ (exists x, In x lines /\ shows_root s b x) /\
      In ("-- #" ++ label b ++ " = " ++ decimal (List.length (slips b)) ++ " -- number of segments") lines.
Proof.
  intros f b_info args s I ES G.
  assert (AL : forall bs, (forall b, In b bs -> showable s b /\ forall x, In x (slips b) -> x = 0%Z \/ x = 1%Z) ->
    exists l, all_lines s bs = Some l /\ forall b, In b bs ->
      (exists x, In x l /\ shows_slip b x) /\ (exists x, In x l /\ shows_root s b x) /\
      In ("-- #" ++ label b ++ " = " ++ decimal (List.length (slips b)) ++ " -- number of segments") l).
  { induction bs as [|b bs IH]; intros H; [exists []; split; [reflexivity|intros b []]|].
    destruct IH as (l & E & Q); [intros b' B; apply H; right; exact B|].
    destruct (H b (or_introl eq_refl)) as [S Z]. destruct (showable_lines s b S Z) as (l0 & E0 & Q1 & Q2 & Q3).
    exists (l0 ++ l)%list. split; [cbn; rewrite E0, E; reflexivity|].
    intros b' [<-|B].
    - destruct Q1 as (x & X1 & X2), Q2 as (y & Y1 & Y2). split; [|split].
      + exists x. split; [apply in_or_app; left; exact X1|exact X2].
      + exists y. split; [apply in_or_app; left; exact Y1|exact Y2].
      + apply in_or_app; left; exact Q3.
    - destruct (Q b' B) as ((x & X1 & X2) & (y & Y1 & Y2) & Z3). split; [|split].
      + exists x. split; [apply in_or_app; right; exact X1|exact X2].
      + exists y. split; [apply in_or_app; right; exact Y1|exact Y2].
      + apply in_or_app; right; exact Z3. }
  destruct (AL (bodies s) G) as (l & E & Q).
  exists (count_lines s ++ l)%list. split; [|split; [|split; [|split]]].
  - unfold main. assert (X : (b_info || match args with [] => true | _ => false end)%bool = true).
    { destruct I as [-> | ->]; [reflexivity|apply orb_true_r]. }
    rewrite X, ES. unfold space_lines. rewrite E. reflexivity.
  - left. reflexivity.
  - right; left. reflexivity.
  - right; right; left. reflexivity.
  - intros b B. destruct (Q b B) as ((x & X1 & X2) & (y & Y1 & Y2) & Z3). split; [|split].
    + exists x. split; [apply in_or_app; right; exact X1|exact X2].
    + exists y. split; [apply in_or_app; right; exact Y1|exact Y2].
    + apply in_or_app; right; exact Z3.
Qed.

(** The two lists of streaks are mixed up. *)
Theorem C91_streaks_refuted : exists (f : @file V) s out lines,
  space f = Some s /\ streaks s = 5%nat /\ streak_sources s = 2%nat /\
  main fmt true false (Some f) [] = Exit 0 out /\ pieces newline lines out /\
  In "-- #S.streak_source_list = 5" lines /\ In "-- #S.streak_domain_list = 2" lines.
Proof.
  pose (s := mkSpace [] 0 0 5 2). exists (mkFile [] "" (Some s) (fun _ => Missing)), s. eexists. exists (count_lines s).
  split; [reflexivity|]. split; [reflexivity|]. split; [reflexivity|]. split; [reflexivity|]. split.
  - split; [|reflexivity]. repeat constructor; intros I; cbn in I; intuition discriminate.
  - split; cbn; tauto.
Qed.

(** A body without a label, or without segments, or with a root without a
    label: undefined behaviour. *)
Theorem C91_unlabelled_refuted : forall (f : @file V) args s b,
  space f = Some s -> In b (bodies s) -> label b = "" \/ slips b = [] -> main fmt true false (Some f) args = Crash.
Proof.
  intros f args s b ES I H. unfold main. cbn [orb]. rewrite ES. unfold space_lines.
  assert (A : forall bs, In b bs -> all_lines s bs = None).
  { induction bs as [|b' bs IH]; intros B0; [destruct B0|]. destruct B0 as [-> |B]; cbn.
    - unfold body_lines. destruct H as [H|H].
      + unfold shown_name. rewrite H. reflexivity.
      + unfold slip_text. rewrite H. destruct (shown_name b); reflexivity.
    - rewrite (IH B). destruct (body_lines s b'); reflexivity. }
  rewrite (A _ I). reflexivity.
Qed.

(** "Show general information about the file and exit": not for a file without
    a space, the table follows. *)
Theorem C91_exit_refuted : forall v : V,
  exists (f : @file V), main fmt true false (Some f) ["a"] = Exit 0 (general f ++ "#a" ++ tab ++ nl ++ fmt v ++ tab ++ nl).
Proof.
  intros v. exists (mkFile ["a"] "caption: x" None (fun _ => Array 1 1 [v])).
  cbn. rewrite !app_nil_r. unfold tab, nl. rewrite !app_assoc. reflexivity.
Qed.

(** With -l the names of all datasets, one in a line, whatever else was asked
    for, and the program ends; a file that cannot be opened is an error. *)
Theorem C91_list : forall (f : @file V) b_info args, Forall (without newline) (names f) ->
  exists out, main fmt b_info true (Some f) args = Exit 0 out /\ pieces newline (names f) out.
Proof. intros f b_info args W. eexists. split; [reflexivity|]. split; [exact W|reflexivity]. Qed.
Theorem C91_no_file : forall b_info b_list args, exists code, main (V:=V) fmt b_info b_list None args = Exit code "" /\ code <> 0%nat.
Proof. intros. eexists. split; [reflexivity|discriminate]. Qed.

End Info.

(** * Examples *)

(** A column of two and an array of one row and two columns. *)
Definition ex_fmt (n : nat) : string := "+" ++ decimal n.
Definition ex_file : @file nat := mkFile ["time"; "pos"; "bad"] "" None
  (fun n => if String.eqb n "time" then Array 2 1 [7; 8] else if String.eqb n "pos" then Array 1 2 [1; 2]
            else if String.eqb n "bad" then Rank 3 else Missing).
Example C44_ex : main ex_fmt false false (Some ex_file) ["time"; "pos"] =
  Exit 0 ("#time" ++ tab ++ "pos[1]" ++ tab ++ "pos[2]" ++ tab ++ nl ++
          "+7" ++ tab ++ "+1" ++ tab ++ "+2" ++ tab ++ nl ++
          "+8" ++ tab ++ "             " ++ tab ++ "             " ++ tab ++ nl) /\
  main ex_fmt false false (Some ex_file) ["time"; "bad"] = Exit 5 "" /\
  main ex_fmt false false (Some ex_file) ["time"; "?"] = Exit 3 "".
Proof. repeat split; reflexivity. Qed.

Example C90_ex : awk_fields ("+7" ++ tab ++ "+1" ++ tab ++ "+2" ++ tab) = ["+7"; "+1"; "+2"] /\
  awk_fields ("             " ++ tab ++ "+8" ++ tab) = ["+8"].
Proof. split; reflexivity. Qed.

Example C91_ex :
  let s := mkSpace [mkBody "wing" [0; 0]%Z 1 None; mkBody "flap" [1; 0]%Z 0 (Some 0)] 9 1 0 0 in
  space_lines s = Some
    ["-- #S.body_list = 2 -- number of elements"; "-- #S.vort_list = 9"; "-- #S.sink_list = 1";
     "-- #S.streak_source_list = 0"; "-- #S.streak_domain_list = 0";
     "wing.label = 'wing'"; "wing.slip = false -- no-slip"; "wing.special_segment = 1"; "wing.root = nil";
     "-- #wing = 2 -- number of segments";
     "flap.label = 'flap'"; "flap.slip = nil -- mixed"; "flap.special_segment = 0"; "flap.root = wing";
     "-- #flap = 2 -- number of segments"] /\
  Forall (showable s) (bodies s).
Proof.
  split; [reflexivity|]. apply Forall_forall. intros b [<-|[<-|[]]]; (split; [discriminate|]); (split; [discriminate|]);
    intros i E; [discriminate|]. injection E as <-. eexists; split; [reflexivity|discriminate].
Qed.

Example C91_list_ex : main ex_fmt true true (Some ex_file) ["?"] = Exit 0 ("time" ++ nl ++ "pos" ++ nl ++ "bad" ++ nl).
Proof. reflexivity. Qed.

Print Assumptions C44_table.
Print Assumptions C44_error.
Print Assumptions C90_awk_partial.
Print Assumptions C90_shift_refuted.
Print Assumptions C91_info_partial.
Print Assumptions C91_streaks_refuted.
Print Assumptions C91_unlabelled_refuted.
Print Assumptions C91_exit_refuted.
Print Assumptions C91_list.
Print Assumptions C91_no_file.
