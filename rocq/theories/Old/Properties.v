(** C101-C103: files of the old format, lists of objects, sensors. *)

From Coq Require Import ZArith Bool List Arith Ascii String Lia.
From Verif Require Import Old.Model Old.Spec Old.Proofs Old.ProofsLoad Old.ProofsWrite.
Import ListNotations.
Local Open Scope Z_scope.

(** * C101: a file of the old format is read as it says *)

(** Everything is as the chapters say but the number of the special segment, which
    stays that of a new body. *)
Theorem C101_read_partial : forall file stack accepts to_float body0 S cs,
  laid_out file cs -> Forall (good stack accepts) (present cs) -> in_order false (present cs) ->
  sized_head (heading S) -> sized_body body0 -> bodies S = [] ->
  load_old (Some file) stack accepts to_float body0 S =
    Done (renumber (special body0) (fold_left (say to_float body0) (present cs) S)).
Proof.
  intros file stack accepts to_float body0 S cs L G O Sh Sb E. unfold load_old.
  rewrite (load_at file stack accepts to_float body0 cs S L G Sh Sb) by (rewrite E; exact O).
  rewrite kept_renumber; [reflexivity|]. unfold all_number. rewrite E. constructor.
Qed.
Print Assumptions C101_read_partial.

Theorem C101_ordinary_partial : forall file stack accepts to_float body0 S cs,
  laid_out file cs -> Forall (good stack accepts) (present cs) ->
  in_order (match bodies S with [] => false | _ => true end) (present cs) ->
  sized_head (heading S) -> sized_body body0 -> Forall ordinary (present cs) ->
  load_old (Some file) stack accepts to_float body0 S = Done (fold_left (say to_float body0) (present cs) S).
Proof.
  intros file stack accepts to_float body0 S cs L G O Sh Sb F. unfold load_old.
  rewrite (load_at file stack accepts to_float body0 cs S L G Sh Sb O). now rewrite ordinary_fold.
Qed.
Print Assumptions C101_ordinary_partial.

(** Such files exist for all chapters: what is written is read back. *)
Theorem C101_written_partial : forall stack accepts to_float body0 S cs,
  List.length cs = 64%nat -> 1024 + Z.of_nat (List.length (List.concat (map put_chapter (present cs)))) < 2 ^ 63 ->
  Forall (good stack accepts) (present cs) -> in_order false (present cs) ->
  sized_head (heading S) -> sized_body body0 -> bodies S = [] ->
  load_old (Some (write_v13 cs)) stack accepts to_float body0 S =
    Done (renumber (special body0) (fold_left (say to_float body0) (present cs) S)).
Proof.
  intros stack accepts to_float body0 S cs L B G O Sh Sb E. apply C101_read_partial; try assumption. now apply write_laid_out.
Qed.
Print Assumptions C101_written_partial.

(** No file with a special segment in another place than a new body has it is read
    as it says. *)
Theorem C101_special_refuted : forall file stack accepts to_float body0 S cs b,
  laid_out file cs -> Forall (good stack accepts) (present cs) -> in_order false (present cs) ->
  sized_head (heading S) -> sized_body body0 -> bodies S = [] ->
  In b (bodies (fold_left (say to_float body0) (present cs) S)) -> special b <> special body0 ->
  load_old (Some file) stack accepts to_float body0 S <> Done (fold_left (say to_float body0) (present cs) S).
Proof.
  intros file stack accepts to_float body0 S cs b L G O Sh Sb E I N H.
  rewrite (C101_read_partial file stack accepts to_float body0 S cs) in H by assumption.
  set (T := fold_left (say to_float body0) (present cs) S) in *.
  assert (H' : renumber (special body0) T = T) by congruence. apply N.
  rewrite <- H' in I. unfold renumber in I. cbn [bodies] in I. apply in_map_iff in I as (x & <- & _). reflexivity.
Qed.
Print Assumptions C101_special_refuted.

(** A file with a flow, two vortices and a body of three segments, the last one with
    the condition of Kutta. *)
Definition num (n : nat) (k : Z) : bytes := k :: zeros (n - 1).
Definition head1 : head := mkHead (chars "wing") (num 8 1) (num 8 2) (num 8 3) (num 8 4) (num 8 5) (num 8 6) (num 8 7) (num 16 8)
  (chars "1+t") [] (num 8 9) (num 16 10) (num 8 11).
Definition empty_body : body := mkBody (zeros 24) (zeros 24) [] [] [] (zeros 24) (zeros 24) (zeros 24) (zeros 8) (zeros 24) (zeros 24) (zeros 24) Steady Neglect 0 [].
Definition body1 : body := mkBody (num 24 1) (num 24 2) [] (chars "t") [] (num 24 3) (num 24 4) (num 24 5) (num 8 6) (num 24 7) (num 24 8) (num 24 9) Steady Neglect 0 [].
Definition seg1 (k : Z) (b : ascii) : segment := mkSegment (num 16 k) (num 8 (k + 1)) b "i"%char (num 8 (k + 2)) (num 8 (k + 3)).
Definition chapters1 (b : ascii) : list (option chapter) :=
  [Some (Header head1 (zeros 8)); Some (Objects Vortexes [num 24 20; num 24 21]); None; Some (BData body1);
   Some (Body [seg1 30 "l"; seg1 40 "n"; seg1 50 b])] ++ repeat None 59.
Definition space1 : space := mkSpace (mkHead [] (zeros 8) (zeros 8) (zeros 8) (zeros 8) (zeros 8) (zeros 8) (zeros 8) (zeros 16) [] [] (zeros 8) (zeros 16) (zeros 8)) [] [] [] [] [].
Definition load1 (f : bytes) : outcome space := load_old (Some f) 4096 (fun _ => true) (firstn 4) empty_body space1.
Example C101_ex : exists S b, load1 (write_v13 (chapters1 "n")) = Done S /\ caption (heading S) = chars "wing" /\ inf_vx (heading S) = chars "1+t" /\
  finish (heading S) = num 8 11 /\ vortices S = [num 24 20; num 24 21] /\ bodies S = [b] /\ friction_prev b = num 24 9 /\ heating b = Isolate /\
  map (fun a => (corner a, slip a)) (alist b) = [(num 16 30, true); (num 16 40, false); (num 16 50, false)].
Proof.
  eexists. eexists. split.
  - unfold load1. rewrite C101_written_partial; [reflexivity| reflexivity | vm_compute; reflexivity | | | | | reflexivity].
    + cbn [chapters1 app present repeat]. repeat constructor; cbn; try lia; intuition (try discriminate; lia).
    + cbn; auto.
    + repeat constructor.
    + repeat constructor.
  - vm_compute. repeat split; reflexivity.
Qed.
Example C101_ex_special : exists S b c, load1 (write_v13 (chapters1 "z")) = Done S /\ bodies S = [b] /\ boundary b = Kutta /\ special b = 0 /\
  bodies (fold_left (say (firstn 4) empty_body) (present (chapters1 "z")) space1) = [c] /\ special c = 2.
Proof. eexists. eexists. eexists. split; [vm_compute; reflexivity|]. vm_compute. repeat split; reflexivity. Qed.

(** * C102: damage is reported *)

Lemma entries_first file stack accepts to_float body0 tmp comment S : List.length (there file 0 8) = 8%nat ->
  entries file stack accepts to_float body0 64 0 tmp comment S =
    if int64 (over tmp (there file 0 8)) =? 0 then entries file stack accepts to_float body0 63 1 (over tmp (there file 0 8)) (over comment (there file 8 8)) S
    else match section file stack accepts to_float body0 (over comment (there file 8 8)) S
           (if int64 (over tmp (there file 0 8)) <? 0 then (8 + List.length (there file 8 8))%nat else Z.to_nat (int64 (over tmp (there file 0 8)))) with
      | Done (S', _) => entries file stack accepts to_float body0 63 1 (over tmp (there file 0 8)) (over comment (there file 8 8)) S'
      | Exit => Exit | Throw => Throw | Undefined => Undefined
      end.
Proof.
  intros L. change 64%nat with (Datatypes.S 63). generalize 63%nat as n. intros n. cbn [entries Nat.mul Nat.add]. rewrite L. reflexivity.
Qed.

(** What is there is read whole. *)
Theorem C102_bin_partial : forall l before, Forall (of_size 24) l ->
  load_list_bin (Some (List.concat l)) before = (0, before ++ l) /\ lua_load_bin (Some (List.concat l)) before = Done (before ++ l).
Proof.
  intros l before F. unfold lua_load_bin, load_list_bin. rewrite <- (app_nil_r (List.concat l)).
  rewrite records_at; [split; reflexivity | exact F | cbn; lia |]. rewrite app_nil_r. now apply concat_enough.
Qed.
Print Assumptions C102_bin_partial.
Theorem C102_txt_partial : forall A (l : list (A * A * A)) before,
  lua_load_txt (Some (all_numbers (flat3 l))) before = Done (before ++ l) /\ lua_load_txt (@None (list (item A))) before = Throw.
Proof.
  intros A l before. unfold lua_load_txt, load_list_txt. rewrite <- (app_nil_r (all_numbers _)). rewrite triples_all by reflexivity. split; reflexivity.
Qed.
Print Assumptions C102_txt_partial.
Theorem C102_version_partial : forall file stack accepts to_float body0 S off rest v,
  0 < off < 2 ^ 63 -> at_pos file 0 (put_number 8 off ++ chars "Header  ") ->
  at_pos file (Z.to_nat off) (v ++ rest) -> List.length v = 8%nat -> v <> chars "v: 1.3  " ->
  load_old (Some file) stack accepts to_float body0 S = Exit.
Proof.
  intros file stack accepts to_float body0 S off rest v B P Q L N.
  apply at_app in P as [P1 P2]. apply at_app in Q as [Q _]. rewrite put_length in P2.
  assert (E1 : there file 0 8 = put_number 8 off) by (rewrite <- (there_at _ _ _ P1) at 1; now rewrite put_length).
  assert (E2 : there file 8 8 = chars "Header  ") by exact (there_at _ _ _ P2).
  assert (E3 : there file (Z.to_nat off) 8 = v) by (rewrite <- (there_at _ _ _ Q) at 1; now rewrite L).
  unfold load_old, load_v13. rewrite entries_first by (rewrite E1; apply put_length). rewrite E1, E2.
  rewrite !over_all by (rewrite ?put_length; cbn; lia). rewrite int64_put by lia.
  destruct (Z.eqb_spec off 0); [lia|]. destruct (Z.ltb_spec off 0); [lia|].
  change (section file stack accepts to_float body0 (chars "Header  ") S (Z.to_nat off)) with
    (bind (header file stack accepts (heading S)) (fun h => ret (mkSpace h (bodies S) (vortices S) (heats S) (streak_sources S) (streaks S))) (Z.to_nat off)).
  assert (V : version file (Z.to_nat off) = Exit).
  { unfold version. rewrite E3. assert (D : agree v (chars "v: 1.3  ") = false); [| now rewrite D].
    destruct (agree v (chars "v: 1.3  ")) eqn:A; [| reflexivity]. elim N.
    do 9 (destruct v as [|? v]; try discriminate). cbn in A. rewrite !andb_true_iff, !Z.eqb_eq in A.
    repeat match goal with H : _ /\ _ |- _ => destruct H end. subst. reflexivity. }
  unfold bind, header. unfold bind. rewrite V. reflexivity.
Qed.
Print Assumptions C102_version_partial.

(** A list that is cut off is filled up with copies of the last object. *)
Theorem C102_cut_refuted : forall stack accepts to_float body0 S l k,
  Forall (of_size 24) l -> Z.of_nat (List.length l + k) < 2 ^ 62 ->
  let cs := Some (Objects Vortexes (l ++ repeat (zeros 24) k)) :: repeat None 63 in
  let whole := write_v13 cs in
  let cut := firstn (1032 + 24 * List.length l) whole in
  load_old (Some cut) stack accepts to_float body0 S =
    Done (mkSpace (heading S) (bodies S) (vortices S ++ l ++ repeat (last l (zeros 24)) k) (heats S) (streak_sources S) (streaks S)).
Proof.
  intros stack accepts to_float body0 S l k F B cs whole cut.
  assert (Ll : forall l, Forall (of_size 24) l -> List.length (List.concat l) = (24 * List.length l)%nat).
  { clear. induction 1 as [|o l O F IH]; [reflexivity|]. cbn [List.concat List.length]. rewrite app_length, IH. unfold of_size in O. lia. }
  set (tab := table 1024 cs). set (num8 := put_number 8 (Z.of_nat (List.length (l ++ repeat (zeros 24) k)))).
  assert (Lt : List.length tab = 1024%nat) by (unfold tab; rewrite table_length; reflexivity).
  assert (Ec : cut = tab ++ num8 ++ List.concat l).
  { unfold cut, whole, write_v13. fold tab. assert (Ep : present cs = [Objects Vortexes (l ++ repeat (zeros 24) k)]) by reflexivity.
    rewrite Ep. cbn [map put_chapter List.concat]. rewrite app_nil_r. fold num8. rewrite concat_app.
    rewrite !app_assoc. rewrite <- (app_assoc tab). rewrite firstn_app.
    replace (1032 + 24 * List.length l - List.length (tab ++ num8 ++ List.concat l))%nat with 0%nat
      by (rewrite !app_length, Lt, Ll by exact F; unfold num8; rewrite put_length; lia).
    rewrite firstn_O, app_nil_r. apply firstn_all2. rewrite !app_length, Lt, Ll by exact F. unfold num8. rewrite put_length. lia. }
  assert (Et : exists rest, tab = put_number 8 1024 ++ title (Objects Vortexes []) ++ rest /\
    forall j c, nth_error (repeat (@None chapter) 63) j = Some c -> at_pos tab (16 * (1 + j)) (put_number 8 0)).
  { exists (table (1024 + Z.of_nat (List.length (put_chapter (Objects Vortexes (l ++ repeat (zeros 24) k))))) (repeat None 63)). split; [reflexivity|].
    intros j c N. pose proof (written_at cs 1024 [] []) as W. cbn [app List.length] in W. fold tab in W.
    assert (Nj : (j < 63)%nat) by (rewrite <- (repeat_length (@None chapter) 63); apply nth_error_Some; congruence).
    assert (Np : forall m off, (j < m)%nat -> at_pos (table off (repeat None m)) (16 * j) (put_number 8 0)).
    { clear. revert j. induction j as [|j IH]; intros [|m] off H; try lia; cbn [repeat table].
      - apply at_equal with (u := []) (v := repeat 32 8 ++ table off (repeat None m)); reflexivity.
      - destruct (IH m off) as (u & v & E & L); [lia|]. exists (put_number 8 0 ++ repeat 32 8 ++ u), v. rewrite E, <- !app_assoc. split; [reflexivity|].
        rewrite !app_length, put_length, repeat_length, L. lia. }
    unfold tab, cs. cbn [table].
    destruct (Np 63%nat (1024 + Z.of_nat (List.length (put_chapter (Objects Vortexes (l ++ repeat (zeros 24) k))))) Nj) as (u & v & E & L).
    rewrite E. exists (put_number 8 1024 ++ title (Objects Vortexes (l ++ repeat (zeros 24) k)) ++ u), v. split; [now rewrite <- !app_assoc|].
    rewrite !app_length, put_length, title_length, L. lia. }
  destruct Et as (rest & Et & Er).
  assert (P1 : at_pos cut 0 (put_number 8 1024)) by (apply at_equal with (u := []) (v := title (Objects Vortexes []) ++ rest ++ num8 ++ List.concat l); [rewrite Ec, Et, <- !app_assoc; reflexivity | reflexivity]).
  assert (P2 : at_pos cut 8 (title (Objects Vortexes []))) by (apply at_equal with (u := put_number 8 1024) (v := rest ++ num8 ++ List.concat l); [rewrite Ec, Et, <- !app_assoc; reflexivity | reflexivity]).
  assert (P3 : at_pos cut 1024 (num8 ++ List.concat l)) by (apply at_equal with (u := tab) (v := []); [now rewrite Ec, app_nil_r | exact Lt]).
  assert (Lcut : List.length cut = (1024 + 8 + List.length (List.concat l))%nat) by (rewrite Ec, !app_length, Lt; unfold num8; rewrite put_length; lia).
  assert (E1 : there cut 0 8 = put_number 8 1024) by (rewrite <- (there_at _ _ _ P1) at 1; now rewrite put_length).
  assert (E2 : there cut 8 8 = title (Objects Vortexes [])) by exact (there_at _ _ _ P2).
  apply at_app in P3 as [P3 P4]. unfold num8 in P4 at 1. rewrite put_length in P4.
  assert (Ls : exists pos', load_list cut (vortices S) 1024%nat = Done (vortices S ++ l ++ repeat (last l (zeros 24)) k, pos')).
  { unfold load_list. rewrite (bind_step _ _ _ _ _ (fresh_at cut 8 1024 num8 P3 (put_length _ _))). cbn beta. unfold num8.
    rewrite int64_put, Nat2Z.id by (rewrite app_length, repeat_length; lia). rewrite app_length, repeat_length.
    destruct (objects_cut cut l k (1024 + 8) (zeros 24) P4 F eq_refl) as [pos' E]; [rewrite Lcut; reflexivity|].
    rewrite (bind_step _ _ _ _ _ E). exists pos'. reflexivity. }
  destruct Ls as [pos' Ls].
  unfold load_old, load_v13. rewrite entries_first by (rewrite E1; apply put_length). rewrite E1, E2.
  rewrite !over_all by (rewrite ?put_length; cbn; lia). rewrite int64_put by lia.
  change (1024 =? 0) with false. change (1024 <? 0) with false. cbv iota.
  change (section cut stack accepts to_float body0 (title (Objects Vortexes [])) S (Z.to_nat 1024)) with
    (bind (load_list cut (vortices S)) (fun l => ret (mkSpace (heading S) (bodies S) l (heats S) (streak_sources S) (streaks S))) 1024%nat).
  rewrite (bind_step _ _ _ _ _ Ls). unfold ret at 1.
  assert (Rest : forall n i tmp comment T, (forall j, (j < n)%nat -> at_pos cut (16 * (i + j)) (put_number 8 0)) -> List.length tmp = 8%nat ->
    entries cut stack accepts to_float body0 n i tmp comment T = Done T).
  { clear. induction n as [|n IH]; intros i tmp comment T H L; [reflexivity|]. cbn [entries].
    assert (H0 := H 0%nat ltac:(lia)). rewrite Nat.add_0_r in H0. replace (i * 16)%nat with (16 * i)%nat by lia.
    assert (E : there cut (16 * i) 8 = put_number 8 0) by (rewrite <- (there_at cut (16 * i) (put_number 8 0) H0) at 1; now rewrite put_length).
    rewrite E, over_all by (rewrite put_length; lia). rewrite int64_put by lia. cbn [Z.eqb]. apply IH; [| apply put_length].
    intros j Hj. replace (i + 1 + j)%nat with (i + Datatypes.S j)%nat by lia. apply H. lia. }
  apply Rest; [| apply put_length]. intros j Hj.
  assert (N : nth_error (repeat (@None chapter) 63) j = Some None).
  { destruct (nth_error (repeat (@None chapter) 63) j) eqn:N; [| apply nth_error_None in N; rewrite repeat_length in N; lia].
    apply nth_error_In, repeat_spec in N. now subst. }
  destruct (Er j None N) as (u & v & E & L). exists u, (v ++ num8 ++ List.concat l). rewrite Ec, E, <- !app_assoc. now split.
Qed.
Print Assumptions C102_cut_refuted.

(** A file of 24 bytes is loaded as 1024 vortices. *)
Theorem C102_short_refuted : exists file, List.length file = 24%nat /\
  exists S, load1 file = Done S /\ List.length (vortices S) = 1024%nat.
Proof.
  exists (put_number 8 16 ++ chars "Vortexes" ++ put_number 8 16). split; [reflexivity|].
  eexists. split; [vm_compute; reflexivity | vm_compute; reflexivity].
Qed.
Print Assumptions C102_short_refuted.

Theorem C102_missing_refuted : forall stack accepts to_float body0 S before,
  load_old None stack accepts to_float body0 S = Done S /\ lua_load_bin None before = Done before /\ load_list_bin None before <> (0, before).
Proof. intros. repeat split. discriminate. Qed.
Print Assumptions C102_missing_refuted.

Theorem C102_rest_refuted : forall l before rest, Forall (of_size 24) l -> (0 < List.length rest < 24)%nat ->
  load_list_bin (Some (List.concat l ++ rest)) before = (0, before ++ l).
Proof.
  intros l before rest F R. unfold load_list_bin. rewrite records_at; [reflexivity | exact F | lia |].
  rewrite app_length. pose proof (concat_enough l F). lia.
Qed.
Print Assumptions C102_rest_refuted.
Theorem C102_word_refuted : forall A (l : list (A * A * A)) before (rest : list (item A)),
  lua_load_txt (Some (all_numbers (flat3 l) ++ Word :: rest)) before = Done (before ++ l).
Proof. intros. unfold lua_load_txt, load_list_txt. rewrite triples_all by reflexivity. reflexivity. Qed.
Print Assumptions C102_word_refuted.

(** A cut list of three objects; a text with a word in the second line; four columns. *)
Example C102_ex_cut :
  let whole := write_v13 (Some (Objects Vortexes [num 24 1; num 24 2; num 24 3]) :: repeat None 63) in
  List.length whole = 1104%nat /\
  exists S, load1 (firstn 1080 whole) = Done S /\ vortices S = [num 24 1; num 24 2; num 24 2] /\
  exists S', load1 (firstn 1081 whole) = Done S' /\ vortices S' = [num 24 1; num 24 2; num 24 3].
Proof. split; [vm_compute; reflexivity|]. eexists. split; [vm_compute; reflexivity|]. split; [reflexivity|]. eexists. split; [vm_compute; reflexivity | reflexivity]. Qed.
Example C102_ex_text : lua_load_txt (Some [Number 1; Number 2; Number 3; Word; Number 5; Number 6; Number 7; Number 8; Number 9]) [] = Done [(1, 2, 3)].
Proof. reflexivity. Qed.
Example C102_ex_columns : lua_load_txt (Some (all_numbers [1; 2; 3; 4; 1; 2; 3; 4; 1; 2; 3; 4])) [] = Done [(1, 2, 3); (4, 1, 2); (3, 4, 1); (2, 3, 4)].
Proof. reflexivity. Qed.

(** * C103: the velocity at the sensors *)

(** After each step there is a row: the time, then the velocity at each sensor in
    the order of the file. *)
Theorem C103_rows_partial : forall A B (show : A -> B) velocity (time : nat -> A) (l : list (A * A)) first steps before,
  l <> [] ->
  let out := sensor_output show velocity time (load_sensors (Some (all_numbers (flat2 l)))) first steps before in
  List.length out = (List.length before + steps)%nat /\
  (forall i, (i < List.length before)%nat -> nth_error out i = nth_error before i) /\
  forall n, (n < steps)%nat -> exists row, nth_error out (List.length before + n) = Some row /\
    List.length row = (1 + 2 * List.length l)%nat /\ nth_error row 0 = Some (show (time (first + n)%nat)) /\
    forall j p, nth_error l j = Some p ->
      nth_error row (1 + 2 * j) = Some (show (fst (velocity (first + n)%nat p))) /\
      nth_error row (2 + 2 * j) = Some (show (snd (velocity (first + n)%nat p))).
Proof.
  intros A B show velocity time l first steps before N out.
  assert (El : load_sensors (Some (all_numbers (flat2 l))) = l) by (unfold load_sensors; rewrite <- (app_nil_r (all_numbers _)); now apply pairs_all).
  unfold out, sensor_output. rewrite El.
  set (row := fun n => show (time n) :: flat_map (fun p => [show (fst (velocity n p)); show (snd (velocity n p))]) l).
  assert (Er : forall ns, flat_map (fun n => sensor_row show (velocity n) l (time n)) ns = map row ns).
  { induction ns as [|n ns IH]; [reflexivity|]. cbn [flat_map map]. rewrite IH. destruct l; [contradiction | reflexivity]. }
  rewrite Er. split; [rewrite app_length, map_length, seq_length; reflexivity|]. split.
  - intros i Hi. now rewrite nth_error_app1.
  - intros n Hn. exists (row (first + n)%nat). split.
    + rewrite nth_error_app2 by lia. replace (List.length before + n - List.length before)%nat with n by lia.
      apply map_nth_error. rewrite (nth_error_nth' _ 0%nat) by (rewrite seq_length; exact Hn). now rewrite seq_nth.
    + split; [| split; [reflexivity|]].
      * unfold row. cbn [List.length]. clear. induction l as [|p l IH]; [reflexivity|]. cbn [flat_map app List.length] in *. lia.
      * unfold row. intros j p Hj. change (1 + 2 * j)%nat with (S (2 * j)). change (2 + 2 * j)%nat with (S (S (2 * j))). cbn [nth_error].
        clear - Hj. revert l Hj. induction j as [|j IH]; intros [|q l] Hj; try discriminate; cbn [nth_error] in Hj.
        -- inversion Hj; subst. split; reflexivity.
        -- specialize (IH l Hj). replace (2 * S j)%nat with (S (S (2 * j))) by lia. exact IH.
Qed.
Print Assumptions C103_rows_partial.

(** Resuming a run from the state before its step [k] writes the rows of the steps
    that were made already a second time. *)
Theorem C103_resume_refuted : forall A B (show : A -> B) velocity (time : nat -> A) (l : list (A * A)) k n m,
  l <> [] -> (k < n <= m)%nat ->
  let one := sensor_output show velocity time l 0 m [] in
  let two := sensor_output show velocity time l k (m - k) (sensor_output show velocity time l 0 n []) in
  two <> one /\ nth_error two n = nth_error one k /\ nth_error two k = nth_error one k.
Proof.
  intros A B show velocity time l k n m N [Hk Hm] one two.
  set (row := fun n => show (time n) :: flat_map (fun p => [show (fst (velocity n p)); show (snd (velocity n p))]) l).
  assert (Er : forall ns, flat_map (fun n => sensor_row show (velocity n) l (time n)) ns = map row ns).
  { induction ns as [|a ns IH]; [reflexivity|]. cbn [flat_map map]. rewrite IH. destruct l; [contradiction | reflexivity]. }
  unfold two, one, sensor_output. rewrite !Er. cbn [app].
  assert (Lk : forall a b i, (i < b)%nat -> nth_error (map row (seq a b)) i = Some (row (a + i)%nat)).
  { intros a b i H. apply map_nth_error. rewrite (nth_error_nth' _ 0%nat) by (rewrite seq_length; exact H). now rewrite seq_nth. }
  split; [| split].
  - intros E. apply (f_equal (@List.length _)) in E. rewrite app_length, !map_length, !seq_length in E. lia.
  - rewrite nth_error_app2 by (rewrite map_length, seq_length; lia). rewrite map_length, seq_length, Nat.sub_diag, !Lk by lia. now rewrite Nat.add_0_r.
  - rewrite nth_error_app1 by (rewrite map_length, seq_length; lia). now rewrite !Lk by lia.
Qed.
Print Assumptions C103_resume_refuted.

(** A word in the file: the sensors behind it are dropped. *)
Theorem C103_word_refuted : forall A (l : list (A * A)) (rest : list (item A)),
  load_sensors (Some (all_numbers (flat2 l) ++ Word :: rest)) = l /\ @load_sensors A None = [].
Proof. intros. unfold load_sensors. rewrite pairs_all by reflexivity. now split. Qed.
Print Assumptions C103_word_refuted.

Example C103_ex :
  sensor_output (fun x => x) (fun n p => (fst p + Z.of_nat n, snd p)) (fun n => 10 * Z.of_nat n) (load_sensors (Some (all_numbers [1; 2; 3; 4]))) 1 2 [[7]]
  = [[7]; [10; 2; 2; 4; 4]; [20; 3; 2; 5; 4]].
Proof. reflexivity. Qed.
Example C103_ex_resume :
  let out := sensor_output (fun x => x) (fun n p => p) Z.of_nat [(5, 6)] in
  out 1%nat 2%nat (out 0%nat 2%nat []) = [[0; 5; 6]; [1; 5; 6]; [1; 5; 6]; [2; 5; 6]].
Proof. reflexivity. Qed.
